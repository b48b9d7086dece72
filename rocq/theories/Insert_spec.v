(** Lines inserted into the text of a grammar. *)
From Coq Require Import List NArith.
From Verif Require Import Base_model Class_model Uni_model Rule_model Search_spec Grammar_spec.
Import ListNotations.
Local Open Scope N_scope.

(** [t'] is [t] with the line [l] before one of its lines. *)
Definition with_line (l t t' : text) : Prop :=
  ~ In 10 l /\ exists a b, t = a ++ b /\ t' = a ++ l ++ 10 :: b /\ (a = [] \/ exists a0, a = a0 ++ [10]).
(** [t'] is [t] with the line [l] right behind the line [l0]. *)
Definition with_line_behind (l0 l t t' : text) : Prop :=
  ~ In 10 l0 /\ ~ In 10 l /\ exists a b, t = a ++ l0 ++ 10 :: b /\ t' = a ++ l0 ++ 10 :: l ++ 10 :: b /\ (a = [] \/ exists a0, a = a0 ++ [10]).
(** The list [l'] is [l] with [y] right behind an [x]. *)
Definition behind {A} (x y : A) (l l' : list A) : Prop := exists l1 l2, l = l1 ++ x :: l2 /\ l' = l1 ++ x :: y :: l2.
(** One element changed. *)
Definition one_changed {A} (R : A -> A -> Prop) (l l' : list A) : Prop := exists l1 a a' l2, l = l1 ++ a :: l2 /\ l' = l1 ++ a' :: l2 /\ R a a'.
