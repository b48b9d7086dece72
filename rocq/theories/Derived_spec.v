(** The row of as_standardize from the rows of as_parse. *)
From Coq Require Import String List NArith Floats.SpecFloat.
From Verif Require Import Base_model Class_model Rule_model Lexicon_model Wrapper_model Class_spec Address_spec Search_spec Wrapper_spec Score_spec PMatch_spec.
Import ListNotations.

(** The text for a word read with a class: the standard word of the first entry for the word that has the class; the word itself if there is no such entry or its
    standard word is empty. *)
Definition text_for (x : lexicon) (word : text) (c : intype) (w : text) : Prop :=
  (exists l1 le l2, lex_find x word = l1 ++ le :: l2 /\ In c (le_type le) /\ (forall f, In f l1 -> ~ In c (le_type f)) /\ w = or_text (le_std le) word) \/
  ((forall f, In f (lex_find x word) -> ~ In c (le_type f)) /\ w = word).
(** The texts for rows of as_parse read with one class each. *)
Inductive texts_for (x : lexicon) : list prow -> list intype -> list text -> Prop :=
| tf_nil : texts_for x [] [] []
| tf_cons : forall row c w rows cs ws, text_for x (pr_word row) c w -> texts_for x rows cs ws -> texts_for x (row :: rows) (c :: cs) (w :: ws).
(** The rules derive a choice of one class from each row with the number [p]. *)
Definition explains_at (g : grammar) (rows : list prow) (p : N) (rs : list rule) : Prop :=
  exists k, with_number p rows <> [] /\ derives g [s2t "ADDRESS"%string] k rs /\ k <= List.length (with_number p rows) + 2 /\
    Forall2 (fun row c => in_list (pr_class row) c) (with_number p rows) (rule_inputs rs).
(** No choice from the rows with any number has rules with a larger average. *)
Definition unbeaten (g : grammar) (rows : list prow) (rs : list rule) : Prop :=
  forall p' rs', explains_at g rows p' rs' -> SFltb (counted (average32 rs)) (counted (average32 rs')) = false.
