(** The event counters (properties.jsonl C57). *)
From Coq Require Import String List NArith.
From Verif Require Import Base_model Utils_model Utils_spec Utils_proofs.
Import ListNotations.
Local Open Scope N_scope.

(** ** C57 *)
Theorem C57_counts : forall h k n, counted k h n -> N.of_nat n < 2 ^ 64 -> get_count (after h) k = N.of_nat n.
Proof. exact counted_once. Qed.
Print Assumptions C57_counts.
Theorem C57_wraps : forall h k, exists n, counted k h n /\ get_count (after h) k = N.of_nat n mod 2 ^ 64.
Proof. exact counts. Qed.
Print Assumptions C57_wraps.
Example C57_example : let a := s2t "a" in let b := s2t "b" in
  let h := [Count a; Count b; Clear a; Count a; Clear b; Count a] in
  get_count (after h) a = 2 /\ get_count (after h) b = 0 /\ counted a h 2.
Proof.
  split; [vm_compute; reflexivity|]. split; [vm_compute; reflexivity|].
  exists [Count (s2t "a"); Count (s2t "b"); Clear (s2t "a")], [Count (s2t "a"); Clear (s2t "b"); Count (s2t "a")].
  split; [reflexivity|]. split; [right; exists [Count (s2t "a"); Count (s2t "b")]; reflexivity|].
  split; [simpl; intuition discriminate|]. apply occurs_same. apply occurs_other; [discriminate|]. apply occurs_same. apply occurs_nil.
Qed.
