(** Sets of classes and padded names. *)
From Coq Require Import List NArith ZArith Sorting.Sorted.
From Verif Require Import Base_model Class_model.
Import ListNotations.
Local Open Scope N_scope.

(** The lists that stand for [std::set]s: strictly increasing in the enum value, so every set of classes
    is represented by exactly one of them. *)
Definition is_inset (s : inset) : Prop := StronglySorted (fun a b => (in_code a < in_code b)%Z) s.
Definition is_attset (s : attset) : Prop := StronglySorted (fun a b => (att_code a < att_code b)%Z) s.

Definition no_tab (t : text) : Prop := ~ In 9 t.
Definition no_comma (t : text) : Prop := ~ In 44 t.
(** Text that is not only blanks. *)
Definition visible (t : text) : Prop := exists c, In c t /\ c <> 32.
(** A name with blanks before and after. *)
Definition padded (n p : text) : Prop :=
  exists a b, p = a ++ n ++ b /\ Forall (fun c => c = 32) a /\ Forall (fun c => c = 32) b.
