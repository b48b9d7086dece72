(** Blanks around an address and the case of its letters (src/tokenizer.cpp, src/as_wrapper.cpp). *)
From Coq Require Import String List NArith.
From Verif Require Import Base_model Class_model Float_model Uni_model Token_model Lexicon_model Tokenizer_model Search_model Archive_model Wrapper_model Sample_model
  Grammar_spec LexText_spec Lexicon_spec Tokenizer_spec Address_spec End_spec Edges_spec WrapperEx_proofs Edges_proofs.
Import ListNotations.
Local Open Scope string_scope.

(** ** C91 *)
(** Blanks before and after an address without tabs do not change any answer. *)
Theorem C91_blanks_around : forall e atof sort address address' gr lx arg locale filt, real_tables (e_uni e) -> given_as e lx arg -> in_list filt I_SPACE ->
  (forall x, lexicon_of e lx x -> trim_words (e_uni e) x /\ blank_padded (reading e x locale address) (reading e x locale address') /\ ~ In 9%N (reading e x locale address)) -> readable_with e lx locale address' ->
  std_standardize e atof address' gr arg locale filt = std_standardize e atof address gr arg locale filt /\
  std_parse_address e address' arg locale filt = std_parse_address e address arg locale filt /\
  std_match_address e atof sort address' gr arg locale filt = std_match_address e atof sort address gr arg locale filt.
Proof. exact calls_padded. Qed.
Print Assumptions C91_blanks_around.
Example C91_example : real_tables ascii_uni /\ given_as ascii_env w_lexicon w_lexicon /\ in_list w_filter I_SPACE /\
  (forall x, lexicon_of ascii_env w_lexicon x -> trim_words ascii_uni x /\ blank_padded (reading ascii_env x en w_addr) (reading ascii_env x en pad_addr) /\ ~ In 9%N (reading ascii_env x en w_addr)) /\
  readable_with ascii_env w_lexicon en pad_addr /\ pad_addr <> w_addr.
Proof. exact pad_setting. Qed.
(** Nor does anything that is lost in normal form and upper case. *)
Theorem C91_case : forall e atof sort address address' gr lx locale filt, e_upper e locale (e_nfc e address') = e_upper e locale (e_nfc e address) ->
  std_standardize e atof address' gr lx locale filt = std_standardize e atof address gr lx locale filt /\
  std_parse_address e address' lx locale filt = std_parse_address e address lx locale filt /\
  std_match_address e atof sort address' gr lx locale filt = std_match_address e atof sort address gr lx locale filt.
Proof. exact calls_case. Qed.
Print Assumptions C91_case.
Example C91_case_example : e_upper ascii_env en (e_nfc ascii_env (s2t "12 main st")) = e_upper ascii_env en (e_nfc ascii_env (s2t "12 MAIN St")).
Proof. exact case_setting. Qed.
(** A second blank inside the address does change the answer: PO BOX is no longer found. *)
Theorem C91_blanks_inside_refuted : exists a b, inner_a = (a ++ [32%N] ++ b)%list /\ inner_b = (a ++ [32%N; 32%N] ++ b)%list /\
  std_standardize ascii_env sample_atof inner_a w_grammar w_lexicon en w_filter <> std_standardize ascii_env sample_atof inner_b w_grammar w_lexicon en w_filter.
Proof. exact inner_differs. Qed.
(** Listed words that end with a blank, as some shipped lexicons have them (data/sample/france.lex:337), need the blank after the address. *)
Theorem C91_untrimmed_refuted : exists rows rows', parse_table (std_parse_address ascii_env (s2t "IMM") imm_lexicon en w_filter) = Ok rows /\
  parse_table (std_parse_address ascii_env (s2t "IMM ") imm_lexicon en w_filter) = Ok rows' /\
  map pr_class rows = [s2t "WORD"] /\ hd_error (map pr_class rows') = Some (s2t "UNITH").
Proof. exact imm_differs. Qed.
(** Inside an address such a word is found only when a second separator follows. *)
Theorem C91_untrimmed_inside_refuted : exists rows rows', parse_table (std_parse_address ascii_env (s2t "IMM 5") imm_lexicon en w_filter) = Ok rows /\
  parse_table (std_parse_address ascii_env (s2t "IMM  5") imm_lexicon en w_filter) = Ok rows' /\
  map pr_class rows = [s2t "WORD"; s2t "NUMBER"] /\ firstn 2 (map pr_class rows') = [s2t "UNITH"; s2t "NUMBER"].
Proof. exact imm_missed. Qed.
(** Without SPACE in the filter a blank after the address is a token. *)
Theorem C91_unfiltered_refuted : exists rows rows', parse_table (std_parse_address ascii_env (s2t "12") w_lexicon en (s2t "PUNCT")) = Ok rows /\
  parse_table (std_parse_address ascii_env (s2t "12 ") w_lexicon en (s2t "PUNCT")) = Ok rows' /\
  map pr_class rows = [s2t "NUMBER"] /\ firstn 2 (map pr_class rows') = [s2t "NUMBER"; s2t "SPACE"].
Proof. exact kept_blank_differs. Qed.
