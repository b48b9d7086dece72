(** White space between the words of an address. *)
From Coq Require Import String List NArith.
From Verif Require Import Base_model Class_model.
Import ListNotations.
Local Open Scope N_scope.

(** The class expected for a separator of white space, from what stands before its first tab and between its second and third. *)
Definition white_class (first third : text) : intype :=
  match third, first with _ :: _, _ => I_BADTOKEN | [], [] => I_PUNCT | [], _ :: _ => I_SPACE end.
(** An address for the examples. *)
Definition tabbed (sep : text) : text := s2t "12"%string ++ sep ++ s2t "Main st"%string.
(** A grammar with a misspelled name. *)
Definition wrod_grammar : text := s2t "[ADDRESS]
NUMBER WROD WORD TYPE -> HOUSE STREET STREET SUFTYP -> 0.9
"%string.
