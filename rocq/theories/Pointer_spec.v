(** Copies of grammars and the sections they refer to. *)
From Coq Require Import List NArith.
From Verif Require Import Base_model Class_model Token_model Rule_model Search_model Search_spec Pointer_model.
Import ListNotations.

(** The operations that make objects, in order: object [i] is made by the [i]-th of them. *)
Fixpoint births (ops : list op) : list op :=
  match ops with [] => [] | Delete _ :: ops' => births ops' | o :: ops' => o :: births ops' end.
(** Object [i] was read from [src] as object [o], or copied from one that was. *)
Inductive origin (ops : list op) : nat -> nat -> text -> Prop :=
| origin_new : forall i src, nth_error (births ops) i = Some (New src) -> origin ops i i src
| origin_copy : forall i j o src, nth_error (births ops) i = Some (CopyOf j) -> origin ops j o src -> origin ops i o src.
Definition deleted (ops : list op) (i : nat) : Prop := In (Delete i) ops.
(** The rules found, in order. *)
Definition found (x : outcome (list ppath)) : outcome (list (list rule)) := obind x (fun ps => Ok (map pp_rules ps)).
Definition expected (x : outcome (list spath)) : outcome (list (list rule)) := obind x (fun ps => Ok (map p_rules ps)).
(** A section defined by references. *)
Definition by_reference (g : grammar) (n : text) : Prop := exists m, In m (g_metas g) /\ ms_name m = n /\ ms_rules m <> [].
(** At least one pattern of classes; their number is computed modulo 2^64. *)
Definition some_pattern (phrase : list token) : Prop := (combinations phrase mod 2 ^ 64 <> 0)%N.
(** Each grammar read is accepted; each object copied or deleted was made before and is not yet deleted. *)
Definition well_used (accepts : text -> Prop) (ops : list op) : Prop :=
  forall a o b, ops = a ++ o :: b ->
  match o with New src => accepts src | CopyOf i | Delete i => (i < List.length (births a))%nat /\ ~ deleted a i end.
