(** What of an address counts for the search. *)
From Coq Require Import List NArith.
From Verif Require Import Base_model Wrapper_model.
Import ListNotations.

(** The columns of as_parse with the number and the classes are the same. *)
Definition same_columns (rows rows' : list prow) : Prop :=
  map (fun r => (pr_pat r, pr_class r)) rows = map (fun r => (pr_pat r, pr_class r)) rows'.
(** The pattern of an answer of as_standardize, if there is one. *)
Definition shown_pattern (r : outcome (option stdaddr)) : outcome (option text) :=
  match r with
  | Ok (Some a) => Ok (Some (sa_pattern a))
  | Ok None => Ok None
  | Throw m => Throw m
  | UB => UB
  end.
