(** What it is for standard words to be standard: the standard form of a word, read in a class, is its own standard form in that class. *)
From Coq Require Import NArith List.
From Verif Require Import Base_model Class_model Token_model Lexicon_model.
Import ListNotations.

(** The standard form of a word in a class: that of the first entry with the class, the word itself if the entry has none or there is no entry. *)
Definition form (x : lexicon) (c : intype) (w s : text) : Prop :=
  (exists l1 le l2, lex_find x w = l1 ++ le :: l2 /\ In c (le_type le) /\ (forall f, In f l1 -> ~ In c (le_type f)) /\
     s = match le_std le with [] => w | _ => le_std le end) \/
  ((forall f, In f (lex_find x w) -> ~ In c (le_type f)) /\ s = w).
(** Following the forms of a class once is following them any number of times. *)
Definition settled (x : lexicon) : Prop := forall c w s s', form x c w s -> form x c s s' -> s' = s.
(** As it is read off a file: the standard word of an entry is not listed in a class of the entry, or is listed as itself or without a form. *)
Definition settled_entries (x : lexicon) : Prop :=
  forall w le c, In le (lex_find x w) -> In c (le_type le) -> le_std le <> [] ->
    forall le', In le' (lex_find x (le_std le)) -> In c (le_type le') -> le_std le' = [] \/ le_std le' = le_std le.
(** A token with a text, a class and nothing else. *)
Definition bare (w : text) (c : intype) : token := mkToken w [] [c] O_BADTOKEN [] false.
(** [n] readings, each of the standard word of the one before. *)
Inductive readings (x : lexicon) (c : intype) : nat -> text -> text -> Prop :=
| rd_none : forall w, readings x c 0 w w
| rd_more : forall n w k s, standardize_word x (bare w c) = Ok k -> readings x c n (t_std k) s -> readings x c (S n) w s.
