(** The part of a lexicon that matters for a text. *)
From Coq Require Import List NArith.
From Verif Require Import Base_model Uni_model Token_model Lexicon_model Lexicon_spec LexDiag_spec Tokenizer_model Tokenizer_spec Split_spec.
Import ListNotations.
Local Open Scope N_scope.

Definition part (t v : text) : Prop := exists a b, t = a ++ v ++ b.
(** [w] occurs in [t], in any case and perhaps with full stops for commas; or it is a single blank, which stands for white space. *)
Definition concerns (u : uni) (t w : text) : Prop :=
  (exists v, part t v /\ Forall2 (fun a b => like u a b \/ (a = 46 /\ b = 44)) w v) \/ w = [32].
Definition some_words (x : lexicon) : Prop := exists w, listed x w /\ w <> [].
(** The same locale, and the same entries for every word that occurs in [t]. *)
Definition same_for (u : uni) (t : text) (x x' : lexicon) : Prop :=
  x_locale x = x_locale x' /\ (some_words x <-> some_words x') /\ forall w, concerns u t w -> lex_find x w = lex_find x' w.
(** Words without carets, braces and tabs, and no character of the text listed in two cases. *)
Definition fit_lexicon (u : uni) (x : lexicon) (t : text) : Prop := built x /\ simple_words x /\ tab_free x /\ case_clear u x t.
(** Two lists of entries with the same entries for every word, in the same order of first occurrences. *)
Definition rearranged (es es' : list lexentry) : Prop :=
  forall w sub sub', of_word w es sub -> of_word w es' sub' -> exists k, once [] sub k /\ once [] sub' k.
