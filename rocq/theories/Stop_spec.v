(** Classes that no rule of a grammar uses. *)
From Coq Require Import List NArith.
From Verif Require Import Base_model Class_model Rule_model Search_model Wrapper_model Class_spec Address_spec.
Import ListNotations.

(** A rule of the grammar has this input class. *)
Definition used (g : grammar) (c : intype) : Prop := exists sec r, In sec (g_rules g) /\ In r (rs_rules sec) /\ In c (r_in r).
(** There are rows of as_parse, and for each number a row with classes that no rule uses. *)
Definition stopped (g : grammar) (rows : list prow) : Prop :=
  rows <> [] /\ forall row, In row rows -> exists row', In row' rows /\ pr_pat row' = pr_pat row /\ forall c, in_list (pr_class row') c -> ~ used g c.
