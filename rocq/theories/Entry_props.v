(** Lexicon entries as values (src/lexentry.h, src/lexentry.cpp). *)
From Coq Require Import String List NArith.
From Verif Require Import Base_model Class_model Class_spec Lexicon_model LexFile_spec Entry_spec LexMap_proofs Entry_proofs.
Import ListNotations.

(** ** C88 *)
Theorem C88_kinds : forall e,
  (is_prefix_att e = true <-> In ATT_PRE (le_att e)) /\ (is_suffix_att e = true <-> In ATT_SUF (le_att e)) /\
  (is_pre e = true <-> In DET_PRE (le_att e) \/ In ATT_PRE (le_att e)) /\ (is_suf e = true <-> In DET_SUF (le_att e) \/ In ATT_SUF (le_att e)) /\
  (is_attached e = true <-> In ATT_PRE (le_att e) \/ In ATT_SUF (le_att e)) /\
  (is_detached e = true <-> le_att e = [] \/ In DET_PRE (le_att e) \/ In DET_SUF (le_att e)) /\
  forall c, le_in_class e c = true <-> In c (le_type e).
Proof. exact kinds. Qed.
Print Assumptions C88_kinds.
(** No entry is neither. *)
Theorem C88_attached_or_detached : forall e, is_attached e = true \/ is_detached e = true.
Proof. exact one_kind. Qed.
Print Assumptions C88_attached_or_detached.
(** The two constructors. *)
Theorem C88_fields : forall w s ty att le, lexentry_of_fields w s ty att = le <-> entry_with w s ty att le.
Proof. exact fields_entry. Qed.
Print Assumptions C88_fields.
Theorem C88_line : forall t le, lexentry_of_line t = le <-> entry_of t le.
Proof. exact line_iff. Qed.
Print Assumptions C88_line.
(** Changing an entry. *)
Theorem C88_set : forall e w s c,
  le_word (le_set e w s c) = w /\ le_std (le_set e w s c) = s /\ (forall d, In d (le_type (le_set e w s c)) <-> d = c) /\ le_att (le_set e w s c) = le_att e /\
  le_word (le_add_type e c) = le_word e /\ le_std (le_add_type e c) = le_std e /\ (forall d, In d (le_type (le_add_type e c)) <-> d = c \/ In d (le_type e)) /\ le_att (le_add_type e c) = le_att e.
Proof. exact set_entry. Qed.
Print Assumptions C88_set.
(** Comparing entries. *)
Theorem C88_equal : forall a b, le_eqb a b = true <-> a = b.
Proof. exact le_eqb_eq. Qed.
Print Assumptions C88_equal.
Example C88_example :
  let e := lexentry_of_fields (s2t "STR") (s2t "STRASSE") (s2t "TYPE, WORD") (s2t "ATT_SUF,DET_SUF") in
  lexentry_of_line (s2t "LEXENTRY:" ++ [9%N] ++ s2t "STR" ++ [9%N] ++ s2t "STRASSE" ++ [9%N] ++ s2t "WORD,TYPE" ++ [9%N] ++ s2t "DET_SUF,ATT_SUF" ++ [9%N]) = e /\
  is_pre e = false /\ is_suf e = true /\ is_attached e = true /\ is_detached e = true /\ is_detached (le_set (mkLE [] [] [] []) [] [] I_WORD) = true.
Proof. vm_compute. repeat split; reflexivity. Qed.
