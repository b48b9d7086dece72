(** The rows of as_match from those of as_parse. *)
From Coq Require Import String List NArith.
From Verif Require Import Base_model Class_model Rule_model Search_model Wrapper_model Class_spec Address_spec Search_spec.
Import ListNotations.

(** The rows with one number. *)
Definition with_number (p : N) (rows : list prow) : list prow := filter (fun row => N.eqb (pr_pat row) p) rows.
(** The rules derive a choice of one class from each row with some number, with at most two replacements more than there are rows. *)
Definition explains (g : grammar) (rows : list prow) (rs : list rule) : Prop :=
  exists p k, with_number p rows <> [] /\ derives g [s2t "ADDRESS"%string] k rs /\ k <= List.length (with_number p rows) + 2 /\
    Forall2 (fun row c => in_list (pr_class row) c) (with_number p rows) (rule_inputs rs).
(** How many choices the rows with one number offer: a list has one class more than commas. *)
Definition choices (rows : list prow) : N := fold_right (fun row n => (N.of_nat (1 + count_occ N.eq_dec (pr_class row) 44%N) * n)%N) 1%N rows.
