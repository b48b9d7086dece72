(** Properties of the patterns of long phrases (properties.jsonl C09). *)
From Coq Require Import String List NArith Sorting.Sorted.
From Verif Require Import Base_model Class_model Token_model Search_spec EnumWrap_proofs.
Import ListNotations.
Local Open Scope N_scope.

(** ** C09 *)
(** If every token has one, two, four ... classes, the enumeration is right beyond 2^32 combinations, too. *)
Theorem C09_powers_of_two : forall ts, Forall (fun k => StronglySorted class_lt (t_in k)) ts -> combinations ts < 2 ^ 64 ->
  Forall (fun k => exists b, N.of_nat (List.length (t_in k)) = 2 ^ b /\ combinations ts * 2 ^ b <= 2 ^ 64) ts ->
  (forall pat, In pat (enumerate ts) <-> chooses ts pat) /\ NoDup (enumerate ts).
Proof. exact enumerate_powers. Qed.
Print Assumptions C09_powers_of_two.
Example C09_powers_of_two_example : Forall (fun k => StronglySorted class_lt (t_in k)) pair_phrase /\ combinations pair_phrase = 2 ^ 63 /\
  Forall (fun k => exists b, N.of_nat (List.length (t_in k)) = 2 ^ b /\ combinations pair_phrase * 2 ^ b <= 2 ^ 64) pair_phrase.
Proof. exact pair_setting. Qed.
(** In general it is not: the product i*num is reduced modulo 2^64, so that one pattern is listed twice and another one never. *)
Theorem C09_product_refuted : exists ts, Forall (fun k => t_in k <> [] /\ StronglySorted class_lt (t_in k)) ts /\ List.length ts = 32%nat /\ combinations ts = 3 * 2 ^ 31 /\
  ~ NoDup (enumerate ts) /\ exists pat, chooses ts pat /\ ~ In pat (enumerate ts).
Proof. exact product_wraps. Qed.
Print Assumptions C09_product_refuted.
