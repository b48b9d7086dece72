(** Compiled lexicons that are cut short, and archives that turn out to be broken. *)
From Coq Require Import List NArith Bool.
From Verif Require Import Base_model Class_model Lexicon_model Archive_model.
Import ListNotations.
Local Open Scope N_scope.

(** Equal except for the digest. *)
Definition same_but_digest (x y : lexicon) : Prop :=
  x_name x = x_name y /\ x_lang x = x_lang y /\ x_locale x = x_locale y /\ x_lex x = x_lex y /\
  x_regex x = x_regex y /\ x_pre x = x_pre y /\ x_suf x = x_suf y.
(** No line feed. *)
Definition no_lf (c : N) : Prop := c <> 10.
(** The entries of [new] in their order, without those there are already. *)
Fixpoint joined (old new : list lexentry) : list lexentry :=
  match new with
  | [] => old
  | n :: new' => joined (if existsb (fun o => le_eqb o n) old then old else old ++ [n]) new'
  end.
