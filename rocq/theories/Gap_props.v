(** Separators between words (src/tokenizer.cpp:164-257). *)
From Coq Require Import String List NArith.
From Verif Require Import Base_model Class_model Float_model Uni_model Token_model Lexicon_model Tokenizer_model Search_model Archive_model Wrapper_model Sample_model
  Grammar_spec LexText_spec Lexicon_spec Tokenizer_spec Address_spec End_spec Gap_spec WrapperEx_proofs Gap_proofs.
Import ListNotations.
Local Open Scope string_scope.

(** ** C96 *)
(** Separators between words that the filter drops can be exchanged for one another without changing any answer. *)
Theorem C96_separators : forall e atof sort address address' gr lx arg locale filt Q, real_tables (e_uni e) -> given_as e lx arg ->
  (forall x, lexicon_of e lx x -> let t := reading e x locale address in let t' := reading e x locale address' in
     regapped (e_uni e) x filt Q None t t' /\ words_clear (e_uni e) x Q t /\ words_clear (e_uni e) x Q t') ->
  readable_with e lx locale address -> readable_with e lx locale address' ->
  std_standardize e atof address' gr arg locale filt = std_standardize e atof address gr arg locale filt /\
  std_parse_address e address' arg locale filt = std_parse_address e address arg locale filt /\
  std_match_address e atof sort address' gr arg locale filt = std_match_address e atof sort address gr arg locale filt.
Proof. exact calls_gaps. Qed.
Print Assumptions C96_separators.
Example C96_example : real_tables ascii_uni /\ given_as ascii_env w_lexicon w_lexicon /\
  (forall x, lexicon_of ascii_env w_lexicon x -> let t := reading ascii_env x en w_addr in let t' := reading ascii_env x en gap_addr in
     regapped ascii_uni x w_filter gaps None t t' /\ words_clear ascii_uni x gaps t /\ words_clear ascii_uni x gaps t') /\
  readable_with ascii_env w_lexicon en w_addr /\ readable_with ascii_env w_lexicon en gap_addr /\
  reading ascii_env w_x en w_addr = (s2t "12 MAIN ST" ++ [44%N; 32%N; 32%N] ++ s2t "PO BOX 7")%list /\
  reading ascii_env w_x en gap_addr = (s2t "12 MAIN ST" ++ [59%N; 32%N] ++ s2t "PO BOX 7")%list.
Proof. exact gap_setting. Qed.
(** The number of blanks between words does not matter when no listed word in the text contains a blank. *)
Theorem C96_blanks : forall e atof sort address address' gr lx arg locale filt, real_tables (e_uni e) -> ~ joins (e_uni e) 32%N -> given_as e lx arg -> in_list filt I_SPACE ->
  (forall x, lexicon_of e lx x -> let t := reading e x locale address in let t' := reading e x locale address' in
     ~ listed x [32%N] /\ respaced (e_uni e) None t t' /\ blank_free (e_uni e) x t /\ blank_free (e_uni e) x t') ->
  readable_with e lx locale address -> readable_with e lx locale address' ->
  std_standardize e atof address' gr arg locale filt = std_standardize e atof address gr arg locale filt /\
  std_parse_address e address' arg locale filt = std_parse_address e address arg locale filt /\
  std_match_address e atof sort address' gr arg locale filt = std_match_address e atof sort address gr arg locale filt.
Proof. exact calls_blanks. Qed.
Print Assumptions C96_blanks.
Example C96_blanks_example : real_tables ascii_uni /\ ~ joins ascii_uni 32%N /\ given_as ascii_env w_lexicon w_lexicon /\ in_list w_filter I_SPACE /\
  (forall x, lexicon_of ascii_env w_lexicon x -> let t := reading ascii_env x en few_addr in let t' := reading ascii_env x en more_addr in
     ~ listed x [32%N] /\ respaced ascii_uni None t t' /\ blank_free ascii_uni x t /\ blank_free ascii_uni x t') /\
  readable_with ascii_env w_lexicon en few_addr /\ readable_with ascii_env w_lexicon en more_addr.
Proof. exact blanks_setting. Qed.
(** A comma between digits is no separator: with a blank after it there are two numbers. *)
Theorem C96_joined_refuted : exists rows rows', parse_table (std_parse_address ascii_env (s2t "3,5") w_lexicon en w_filter) = Ok rows /\
  parse_table (std_parse_address ascii_env (s2t "3, 5") w_lexicon en w_filter) = Ok rows' /\
  List.length rows = 1%nat /\ map pr_class rows' = [s2t "NUMBER"; s2t "NUMBER"].
Proof. exact joined_differs. Qed.
Print Assumptions C96_joined_refuted.
