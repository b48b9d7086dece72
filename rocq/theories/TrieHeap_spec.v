(** Memory before and after. *)
From Coq Require Import List NArith.
From Verif Require Import TrieHeap_model.
Import ListNotations.
Local Open Scope N_scope.

(** new returns an address that is not in use. *)
Definition fresh (alloc : list N -> N) : Prop := forall l, ~ In (alloc l) l.
(** The same nodes with the same contents. *)
Definition same_memory (h h' : heap) : Prop := forall a, hget a h' = hget a h.
(** What was there is still there, unchanged. *)
Definition kept_memory (h h' : heap) : Prop := forall a x, hget a h = Some x -> hget a h' = Some x.
(** The length of the longest word. *)
Definition longest (ws : list (list N)) : nat := fold_right Nat.max O (map (@List.length N) ws).
(** Going down from a node by the keys of a word. *)
Inductive reaches (h : heap) : N -> list N -> N -> Prop :=
| reaches_here : forall p x, hget p h = Some x -> reaches h p [] p
| reaches_down : forall p c w x q a, hget p h = Some x -> cfind c (n_kids x) = Some (Some q) -> reaches h q w a -> reaches h p (c :: w) a.
