(** What of an address counts for the search (src/as_wrapper.cpp:52-98, 347-408, 414-524, src/search.cpp:64-208, 274-408, src/token.cpp:95-121). *)
From Coq Require Import String List NArith.
From Verif Require Import Base_model Class_model Uni_model Token_model Rule_model Search_model Float_model Lexicon_model Tokenizer_model Archive_model Wrapper_model Sample_model
  Grammar_spec LexText_spec Lexicon_spec Tokenizer_spec Split_spec Address_spec End_spec Local_spec Class_spec Search_spec Words_spec TokExample_proofs WrapperEx_proofs Words_proofs.
Import ListNotations.
Local Open Scope N_scope.

(** ** C128 *)
(** Addresses with the same numbers and classes in as_parse have the same rows of as_match. *)
Theorem C128_match : forall e atof sort gr address arg locale filt address' arg' locale' filt' rows rows', uni_ok (e_uni e) ->
  std_parse_address e address arg locale filt = Ok rows -> std_parse_address e address' arg' locale' filt' = Ok rows' -> same_columns rows rows' ->
  std_match_address e atof sort address gr arg locale filt = std_match_address e atof sort address' gr arg' locale' filt'.
Proof. exact columns_match. Qed.
Print Assumptions C128_match.
Example C128_match_example : uni_ok (e_uni ascii_env) /\ exists rows rows', std_parse_address ascii_env w_addr w_lexicon en w_filter = Ok rows /\
  std_parse_address ascii_env other_addr w_lexicon en w_filter = Ok rows' /\ same_columns rows rows' /\ map pr_word rows <> map pr_word rows' /\ List.length rows = 11%nat /\
  shown_pattern (std_standardize ascii_env sample_atof other_addr w_grammar w_lexicon en w_filter) = Ok (Some (s2t "NUMBER WORD TYPE BOXH NUMBER -> HOUSE STREET SUFTYP BOXH BOXT"%string)).
Proof. exact columns_setting. Qed.
(** They have the same pattern of as_standardize, or none. *)
Theorem C128_standardize : forall e atof gr address arg locale filt address' arg' locale' filt' rows rows', uni_ok (e_uni e) ->
  std_parse_address e address arg locale filt = Ok rows -> std_parse_address e address' arg' locale' filt' = Ok rows' -> same_columns rows rows' ->
  shown_pattern (std_standardize e atof address gr arg locale filt) = shown_pattern (std_standardize e atof address' gr arg' locale' filt').
Proof. exact columns_standardize. Qed.
Print Assumptions C128_standardize.
Example C128_standardize_example : uni_ok (e_uni ascii_env) /\ exists rows rows', std_parse_address ascii_env w_addr w_lexicon en w_filter = Ok rows /\
  std_parse_address ascii_env other_addr w_lexicon en w_filter = Ok rows' /\ same_columns rows rows' /\ map pr_word rows <> map pr_word rows' /\ List.length rows = 11%nat /\
  shown_pattern (std_standardize ascii_env sample_atof other_addr w_grammar w_lexicon en w_filter) = Ok (Some (s2t "NUMBER WORD TYPE BOXH NUMBER -> HOUSE STREET SUFTYP BOXH BOXT"%string)).
Proof. exact columns_setting. Qed.
(** So it is for the rows that SQL callers see, if there are any. *)
Theorem C128_tables : forall e atof sort gr address arg locale filt address' arg' locale' filt' rows rows', uni_ok (e_uni e) -> rows <> [] ->
  parse_table (std_parse_address e address arg locale filt) = Ok rows -> parse_table (std_parse_address e address' arg' locale' filt') = Ok rows' -> same_columns rows rows' ->
  match_table (std_match_address e atof sort address gr arg locale filt) = match_table (std_match_address e atof sort address' gr arg' locale' filt') /\
  shown_pattern (std_standardize e atof address gr arg locale filt) = shown_pattern (std_standardize e atof address' gr arg' locale' filt').
Proof. exact columns_tables. Qed.
Print Assumptions C128_tables.
Example C128_tables_example : uni_ok (e_uni ascii_env) /\ exists rows rows', parse_table (std_parse_address ascii_env w_addr w_lexicon en w_filter) = Ok rows /\ rows <> [] /\
  parse_table (std_parse_address ascii_env other_addr w_lexicon en w_filter) = Ok rows' /\ same_columns rows rows' /\ map pr_word rows <> map pr_word rows'.
Proof. exact tables_setting. Qed.
(** Not if there are none. *)
Theorem C128_no_rows_refuted : exists row, parse_table (std_parse_address ascii_env [] w_lexicon en w_filter) = Ok [] /\ parse_table (std_parse_address ascii_env [] (s2t "LEXENTRY:"%string) en w_filter) = Ok [] /\
  match_table (std_match_address ascii_env sample_atof (@rev mresult) [] w_grammar w_lexicon en w_filter) = Ok [row] /\
  match_table (std_match_address ascii_env sample_atof (@rev mresult) [] w_grammar (s2t "LEXENTRY:"%string) en w_filter) = Ok [].
Proof. exact no_rows. Qed.
Print Assumptions C128_no_rows_refuted.
(** The other fields of as_standardize can differ. *)
Theorem C128_fields_refuted : exists a a', std_standardize ascii_env sample_atof w_addr w_grammar w_lexicon en w_filter = Ok (Some a) /\
  std_standardize ascii_env sample_atof other_addr w_grammar w_lexicon en w_filter = Ok (Some a') /\ sa_fields a <> sa_fields a' /\ sa_pattern a = sa_pattern a'.
Proof. exact other_fields. Qed.
Print Assumptions C128_fields_refuted.
