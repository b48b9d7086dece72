(** Grammars that say the same about a phrase. *)
From Coq Require Import List NArith.
From Verif Require Import Base_model Class_model Token_model Rule_model Search_model Search_spec.
Import ListNotations.

Definition has_class (phrase : list token) (c : intype) : Prop := exists k, In k phrase /\ In c (t_in k).
(** A rule that needs a class which no token has. *)
Definition unfit (phrase : list token) (r : rule) : Prop := exists c, In c (r_in r) /\ ~ has_class phrase c.
(** A section all of whose readings need such a class. *)
Definition hopeless (g : grammar) (phrase : list token) (n : text) : Prop := forall k rs, derives g [n] k rs -> exists r, In r rs /\ unfit phrase r.
(** Two lists that correspond in order, except for elements that do not count. *)
Inductive aligned {A B} (R : A -> B -> Prop) (P : A -> Prop) (Q : B -> Prop) : list A -> list B -> Prop :=
| al_nil : aligned R P Q [] []
| al_both : forall a b l m, R a b -> aligned R P Q l m -> aligned R P Q (a :: l) (b :: m)
| al_left : forall a l m, P a -> aligned R P Q l m -> aligned R P Q (a :: l) m
| al_right : forall b l m, Q b -> aligned R P Q l m -> aligned R P Q l (b :: m).
Definition ref_names (refs : metarule) : list text := map f_name refs.
Definition vain (g : grammar) (phrase : list token) (refs : metarule) : Prop := exists n, In n (ref_names refs) /\ hopeless g phrase n.
(** Sections related by [R] say the same: their alternatives, or their rules, correspond in order; the names may differ, and alternatives
    and rules that cannot be used for the phrase may be added or left out. *)
Definition corresponds (R : text -> text -> Prop) (phrase : list token) (g g' : grammar) : Prop :=
  forall n n', R n n' ->
  (exists m m', In m (g_metas g) /\ ms_name m = n /\ In m' (g_metas g') /\ ms_name m' = n' /\
     aligned (fun refs refs' => Forall2 R (ref_names refs) (ref_names refs')) (vain g phrase) (vain g' phrase) (ms_rules m) (ms_rules m')) \/
  (exists s s', In s (g_rules g) /\ rs_name s = n /\ In s' (g_rules g') /\ rs_name s' = n' /\
     aligned eq (unfit phrase) (unfit phrase) (rs_rules s) (rs_rules s')).
(** Two grammars say the same about a phrase. *)
Definition say_same (phrase : list token) (g g' : grammar) : Prop := exists R, R ADDRESS ADDRESS /\ corresponds R phrase g g'.
(** The sections that can be reached from one. *)
Inductive reached (g : grammar) (n : text) : text -> Prop :=
| rc_here : reached g n n
| rc_next : forall m refs x, reached g n (ms_name m) -> In m (g_metas g) -> In refs (ms_rules m) -> In x (ref_names refs) -> reached g n x.
(** The section of that name has the same lines in both, when the names of sections are changed by [f]. *)
Definition same_lines (f : text -> text) (g g' : grammar) (n : text) : Prop :=
  (exists m m', In m (g_metas g) /\ In m' (g_metas g') /\ ms_name m = n /\ ms_name m' = f n /\ map ref_names (ms_rules m') = map (map f) (map ref_names (ms_rules m))) \/
  (exists s s', In s (g_rules g) /\ In s' (g_rules g') /\ rs_name s = n /\ rs_name s' = f n /\ rs_rules s' = rs_rules s).
