(** What as_parse tells about the other functions. *)
From Coq Require Import List NArith.
From Verif Require Import Base_model Class_model Wrapper_model Class_spec Address_spec Search_spec.
Import ListNotations.
Local Open Scope N_scope.

(** The pattern takes for some number [p] one class from the list of classes of each row of as_parse with that number, in the order of the rows. *)
Definition taken_from (rows : list prow) (pattern : text) : Prop :=
  exists p cs os, pattern = join [32] (pattern_words cs os) /\ List.length os = List.length cs /\
    Forall2 (fun row c => in_list (pr_class row) c) (filter (fun row => pr_pat row =? p) rows) cs.
