(** Small descriptions for the operations on rules, tokens and sections. *)
From Coq Require Import List NArith ZArith Sorting.Sorted.
From Verif Require Import Base_model Class_model Token_model.
Import ListNotations.

(** What std::set guarantees. *)
Definition class_set (s : inset) : Prop := StronglySorted (fun a b => (in_code a < in_code b)%Z) s.
(** Everything of a token but its classes. *)
Definition but_classes (k : token) : text * text * outtype * attset * bool := (t_text k, t_std k, t_out k, t_att k, t_inlex k).
(** The element at a position. *)
Definition at_pos {A} (l : list A) (i : nat) (a : A) : Prop := exists p q, l = p ++ a :: q /\ List.length p = i.
