(** How many matches a search lists. *)
From Coq Require Import String List NArith.
From Verif Require Import Base_model Class_model Token_model Rule_model.
Import ListNotations.

(** No section has more than [a] lines. *)
Definition lines_at_most (g : grammar) (a : nat) : Prop :=
  (forall ms, In ms (g_metas g) -> List.length (ms_rules ms) <= a) /\ (forall sec, In sec (g_rules g) -> List.length (rs_rules sec) <= a).
(** Tokens that are just words. *)
Definition only_words (phrase : list token) : Prop := Forall (fun k => t_in k = [I_WORD]) phrase.
(** A grammar for any number of words, each of which is part of a street or of a city. *)
Definition many_src : string := "[ADDRESS]
@W
@W @ADDRESS
[W]
WORD -> STREET -> 0.5
WORD -> CITY -> 0.5
".
