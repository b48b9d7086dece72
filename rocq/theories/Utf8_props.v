(** Properties of the UTF-8 iterator (properties.jsonl C42). *)
From Coq Require Import String List NArith.
From Verif Require Import Base_model Utf8_model Utf8_spec Utf8_proofs.
Import ListNotations.
Local Open Scope N_scope.

(** ** C42: encoding gives the UTF-8 form; walking over it in either direction gives the code points back and
    never leaves the string (that would be [UB]). *)
Theorem C42_utf8_inverse : forall cs, Forall scalar cs -> exists s, encode cs = Ok s /\ utf8_text cs s /\
  walk_forward (List.length s) s 0 = Ok cs /\ walk_backward (List.length s) s (List.length s) = Ok (rev cs).
Proof. exact utf8_inverse. Qed.
Print Assumptions C42_utf8_inverse.
Theorem C42_large_value_throws : forall c, ~ scalar c -> exists m, code_point_to_utf8 c = Throw m.
Proof. exact encode_big. Qed.
Print Assumptions C42_large_value_throws.
Theorem C42_encoding_injective : forall cs ds s, Forall scalar cs -> Forall scalar ds ->
  encode cs = Ok s -> encode ds = Ok s -> cs = ds.
Proof. exact encode_inj. Qed.
Print Assumptions C42_encoding_injective.
Example C42_example : Forall scalar [0x41; 0xE9; 0x20AC; 0x1F600] /\ ~ scalar 0x110000 /\
  encode [0x41; 0xE9; 0x20AC; 0x1F600] = Ok [0x41; 0xC3; 0xA9; 0xE2; 0x82; 0xAC; 0xF0; 0x9F; 0x98; 0x80].
Proof. split; [repeat constructor|]. split; [intros H; discriminate H|reflexivity]. Qed.
