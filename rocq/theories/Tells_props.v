(** What as_parse tells about as_match and as_standardize (src/as_wrapper.cpp:52-98, 347-408, 414-524, src/search.cpp:97-164). *)
From Coq Require Import String List NArith.
From Verif Require Import Base_model Class_model Uni_model Token_model Rule_model Search_model Float_model Lexicon_model Tokenizer_model Archive_model Wrapper_model Sample_model
  Grammar_spec LexText_spec Lexicon_spec Tokenizer_spec Split_spec Address_spec End_spec Local_spec Class_spec Search_spec Tells_spec TokExample_proofs WrapperEx_proofs Tells_proofs.
Import ListNotations.
Local Open Scope N_scope.

(** ** C127 *)
(** Each row of as_match takes its classes from the rows of one number of as_parse, one from each. *)
Theorem C127_match : forall e atof sort address gr arg locale filt rows out r, uni_ok (e_uni e) -> (forall (l : list mresult) q, In q (sort l) -> In q l) ->
  parse_table (std_parse_address e address arg locale filt) = Ok rows -> match_table (std_match_address e atof sort address gr arg locale filt) = Ok out -> In r out ->
  m_matched r = s2t "Failed to match to grammar!"%string \/ taken_from rows (m_matched r).
Proof. exact match_told. Qed.
Print Assumptions C127_match.
Example C127_match_example : uni_ok (e_uni ascii_env) /\ (forall (l : list mresult) q, In q (rev l) -> In q l) /\
  exists rows r, parse_table (std_parse_address ascii_env w_addr w_lexicon en w_filter) = Ok rows /\
    match_table (std_match_address ascii_env sample_atof (@rev mresult) w_addr w_grammar w_lexicon en w_filter) = Ok [r] /\
    m_matched r = s2t "NUMBER WORD TYPE BOXH NUMBER -> HOUSE STREET SUFTYP BOXH BOXT"%string /\
    map pr_class (filter (fun row => pr_pat row =? 1) rows) = map s2t ["NUMBER"; "WORD"; "TYPE"; "BOXH"; "NUMBER"]%string.
Proof. exact told_setting. Qed.
(** So does the pattern of as_standardize. *)
Theorem C127_standardize : forall e atof address gr arg locale filt rows a, uni_ok (e_uni e) ->
  parse_table (std_parse_address e address arg locale filt) = Ok rows -> std_standardize e atof address gr arg locale filt = Ok (Some a) -> taken_from rows (sa_pattern a).
Proof. exact standardize_told. Qed.
Print Assumptions C127_standardize.
Example C127_standardize_example : uni_ok (e_uni ascii_env) /\ exists rows a, parse_table (std_parse_address ascii_env w_addr w_lexicon en w_filter) = Ok rows /\
  std_standardize ascii_env sample_atof w_addr w_grammar w_lexicon en w_filter = Ok (Some a) /\ sa_pattern a = s2t "NUMBER WORD TYPE BOXH NUMBER -> HOUSE STREET SUFTYP BOXH BOXT"%string.
Proof. exact told_standard_setting. Qed.
(** The number need not be 1. *)
Theorem C127_first_refuted : exists rows a, parse_table (std_parse_address ascii_env w_addr w_lexicon en w_filter) = Ok rows /\
  std_standardize ascii_env sample_atof w_addr told_grammar w_lexicon en w_filter = Ok (Some a) /\
  sa_pattern a = join [32] (pattern_words [I_NUMBER; I_WORD; I_TYPE; I_DOUBLE; I_WORD; I_NUMBER] [O_HOUSE; O_STREET; O_SUFTYP; O_CITY; O_CITY; O_POSTAL]) /\
  List.length (filter (fun row => pr_pat row =? 1) rows) = 5%nat /\
  map pr_class (filter (fun row => pr_pat row =? 2) rows) = map s2t ["NUMBER"; "WORD"; "TYPE"; "WORD,DOUBLE"; "WORD"; "NUMBER"]%string.
Proof. exact told_second. Qed.
Print Assumptions C127_first_refuted.
