(** What as_parse tells about the fields of as_standardize. *)
From Coq Require Import List NArith.
From Verif Require Import Base_model Wrapper_model.
Import ListNotations.

(** The columns of as_parse with the number, the word and the classes are the same. *)
Definition same_words (rows rows' : list prow) : Prop :=
  map (fun r => (pr_pat r, pr_word r, pr_class r)) rows = map (fun r => (pr_pat r, pr_word r, pr_class r)) rows'.
