(** Blanks around an address. *)
From Coq Require Import List NArith.
From Verif Require Import Base_model Uni_model Token_model Lexicon_model Lexicon_spec Tokenizer_model Tokenizer_spec.
Import ListNotations.
Local Open Scope N_scope.

(** No listed word, in any case, begins or ends with white space; at least one word is listed. *)
Definition trim_words (u : uni) (x : lexicon) : Prop :=
  (forall w c, word_like u x w -> hd_error w = Some c \/ hd_error (rev w) = Some c -> u_space u c = false) /\ exists w, listed x w /\ w <> [].
(** [t] with blanks around it. *)
Definition blank_padded (t t' : text) : Prop := exists a b, Forall (eq 32) a /\ Forall (eq 32) b /\ t' = a ++ t ++ b.
