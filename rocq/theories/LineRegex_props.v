(** The lines of grammars and lexicons (properties.jsonl C100). *)
From Coq Require Import String List NArith.
From Verif Require Import Base_model Class_model Float_model Uni_model Rule_model Search_model Grammar_model Regex_model Lexicon_model LineRegex_model
  Sample_model Search_spec Grammar_spec LexFile_spec Lexicon_spec WrapperEx_proofs LineRegex_proofs LineRegexEx_proofs.
Import ListNotations.
Local Open Scope N_scope.

(** ** C100 *)
(** The expression for comments matches blank lines and lines whose first character is "#", nothing else. *)
Theorem C100_comment : forall u l, comment_re u l = Ok true <-> comment_line u l.
Proof. exact comment_iff. Qed.
Print Assumptions C100_comment.
Example C100_comment_example : comment_line ascii_uni (s2t "  # [a]") /\ comment_line ascii_uni (s2t "   ") /\ comment_line ascii_uni [] /\ ~ comment_line ascii_uni (s2t " @A # b").
Proof. exact comment_lines. Qed.
(** The expression for section names matches the header lines, and its group is the name. *)
Theorem C100_section : forall u l n, uni_ok u -> (section_re u l = Ok (Some n) <-> header_line u l n).
Proof. exact section_iff. Qed.
Print Assumptions C100_section.
Example C100_section_example : uni_ok ascii_uni /\ header_line ascii_uni (s2t " [a] b] ") (s2t "a] b") /\ header_line ascii_uni (s2t "[]]") (s2t "]") /\
  section_re ascii_uni (s2t "[]") = Ok None /\ section_re ascii_uni (s2t "[a] b") = Ok None.
Proof. exact header_lines. Qed.
(** The expression for meta rules matches the lines that consist of references, ... *)
Theorem C100_meta : forall u l, ismeta_re u l = Ok true <-> exists ns, meta_line u l ns.
Proof. exact meta_iff. Qed.
Print Assumptions C100_meta.
(** ... and the loop of searches finds exactly these references, in their order. *)
Theorem C100_refs : forall u l ns, uni_ok u -> meta_line u l ns -> metarule_re u l = Ok (map new_ref ns).
Proof. exact metarule_refs. Qed.
Print Assumptions C100_refs.
Example C100_meta_example : meta_line ascii_uni (s2t " @A@B_1  @C ") [s2t "A"; s2t "B_1"; s2t "C"] /\ ismeta_re ascii_uni (s2t "@A B") = Ok false /\ ismeta_re ascii_uni (s2t "@A @") = Ok false /\
  metarule_re ascii_uni (s2t "x@@A-B @") = Ok [new_ref (s2t "A")].
Proof. exact meta_lines. Qed.
(** The replacement leaves one blank of every run of blanks and everything else as it was. *)
Theorem C100_blanks : forall u l t, squeeze_re u l = Ok t <-> one_blank l t.
Proof. exact squeeze_iff. Qed.
Print Assumptions C100_blanks.
Example C100_blanks_example : one_blank (s2t "  a b   c ") (s2t " a b c ") /\ squeeze_re ascii_uni (9 :: 9 :: s2t "  ") = Ok [9; 9; 32].
Proof. exact blank_lines. Qed.
(** The expression for the long dash matches the one text. *)
Theorem C100_dash : forall u t, emdash_re u t = Ok true <-> t = [0x2014].
Proof. exact emdash_iff. Qed.
Print Assumptions C100_dash.
Example C100_dash_example : emdash_re ascii_uni [0x2014] = Ok true /\ emdash_re ascii_uni [0x2014; 0x2014] = Ok false /\ emdash_re ascii_uni (s2t "-") = Ok false.
Proof. exact dash_text. Qed.
(** None of these calls throws or fails to end on any line. *)
Theorem C100_answers : forall u l, (exists a, comment_re u l = Ok a) /\ (exists a, section_re u l = Ok a) /\ (exists a, ismeta_re u l = Ok a) /\
  (exists a, metarule_re u l = Ok a) /\ (exists a, squeeze_re u l = Ok a) /\ exists a, emdash_re u l = Ok a.
Proof. exact all_answer. Qed.
Print Assumptions C100_answers.
(** Grammars and lexicons read with the expressions of the source are the grammars and lexicons of the other properties. *)
Theorem C100_grammar : forall u atof src, uni_ok u -> load_grammar_re u atof src = load_grammar u atof src.
Proof. exact grammar_same. Qed.
Print Assumptions C100_grammar.
Theorem C100_lexicon : forall e name src, load_lexicon_re e name src = load_lexicon e name src.
Proof. exact lexicon_same. Qed.
Print Assumptions C100_lexicon.
Example C100_load_example : uni_ok ascii_uni /\ load_grammar_re ascii_uni sample_atof w_grammar = Ok (mkLoaded w_g CHECK_OK []) /\
  exists x, load_lexicon_re ascii_env (s2t "x") w_lexicon = Ok x /\ x_lex x <> [].
Proof. exact loads_re. Qed.
