(** Lexicon entries as values. *)
From Coq Require Import List NArith.
From Verif Require Import Base_model Class_model Class_spec Lexicon_model LexFile_spec.
Import ListNotations.

(** The entry with these four columns. *)
Definition entry_with (w s ty att : text) (le : lexentry) : Prop :=
  le_word le = w /\ le_std le = s /\ (forall c, In c (le_type le) <-> named ty c) /\ is_inset (le_type le) /\
  (forall a, In a (le_att le) <-> att_named att a) /\ is_attset (le_att le).
