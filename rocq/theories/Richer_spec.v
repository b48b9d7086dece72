(** Lexicons in which listed words have more classes. *)
From Coq Require Import List NArith.
From Verif Require Import Base_model Class_model Token_model Lexicon_model Tokenizer_spec Split_spec.
Import ListNotations.

(** [c] is a class of the word [w]. *)
Definition class_of (x : lexicon) (w : text) (c : intype) : Prop := exists le, In le (lex_find x w) /\ In c (le_type le).
(** The same locale, words and attached words; the words that have classes in [x] may have more of them in [x'], but
    none of the set [f]. *)
Definition richer (f : inset) (x x' : lexicon) : Prop :=
  x_locale x = x_locale x' /\ (forall w, listed x w <-> listed x' w) /\
  (forall w, front_word x w <-> front_word x' w) /\ (forall w, back_word x w <-> back_word x' w) /\
  (forall w c, class_of x w c -> class_of x' w c) /\
  (forall w c, class_of x' w c -> class_of x w c \/ ~ In c f /\ exists d, class_of x w d).
(** The same texts, with at least the same classes. *)
Definition wider (ph ph' : list token) : Prop :=
  Forall2 (fun k k' => t_text k' = t_text k /\ forall c, In c (t_in k) -> In c (t_in k')) ph ph'.
