(** The order of words (std::map, std::set of std::string: bytes compared as unsigned characters). *)
From Coq Require Import String List NArith.
From Verif Require Import Base_model Utf8_model TextOrder_spec TextOrder_proofs.
Import ListNotations.
Local Open Scope N_scope.

(** ** C89 *)
(** The comparison of texts by code points. *)
Theorem C89_text_order : forall a b, tltb a b = true <-> text_lt a b.
Proof. exact tltb_lt. Qed.
Print Assumptions C89_text_order.
(** Comparing the bytes gives the same order. *)
Theorem C89_byte_order : forall a b x y, encode a = Ok x -> encode b = Ok y -> (text_lt a b <-> text_lt x y).
Proof. exact encoded_order. Qed.
Print Assumptions C89_byte_order.
(** It is total and strict. *)
Theorem C89_total : forall a b, (text_lt a b \/ a = b \/ text_lt b a) /\ ~ text_lt a a /\ ~ (text_lt a b /\ text_lt b a).
Proof. exact (fun a b => conj (lt_total a b) (conj (lt_irrefl a) (fun H => lt_asym a b (proj1 H) (proj2 H)))). Qed.
Print Assumptions C89_total.
Example C89_example : encode [65; 0xE9] = Ok [65; 195; 169] /\ encode [65; 0x1F600] = Ok [65; 240; 159; 152; 128] /\ tltb [65; 0xE9] [65; 0x1F600] = true /\ tltb [65] [65; 0xE9] = true.
Proof. vm_compute. repeat split; reflexivity. Qed.
