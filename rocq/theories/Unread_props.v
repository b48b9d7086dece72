(** Addresses that cannot be read (src/tokenizer.cpp:164-268). *)
From Coq Require Import String List NArith Sorting.Permutation.
From Verif Require Import Base_model Class_model Uni_model Token_model Rule_model Search_model Float_model Lexicon_model Tokenizer_model Archive_model Wrapper_model Sample_model
  Grammar_spec Diagnosis_spec LexText_spec LexFile_spec LexDiag_spec Lexicon_spec Tokenizer_spec Split_spec Address_spec End_spec Local_spec Gap_spec Join_spec Unread_spec WrapperEx_proofs Unread_proofs.
Import ListNotations.
Local Open Scope N_scope.

(** ** C124 *)
(** A line has no tokens exactly if none can be read at its beginning. *)
Theorem C124_exact : forall e x str, real_tables (e_uni e) -> built x -> simple_words x -> some_words x -> let t := e_upper e (x_locale x) (e_nfc e str) in
  one_line t -> case_clear (e_uni e) x t -> (all_tokens e x str = Ok [] <-> ~ readable (e_uni e) x t).
Proof. exact none_exact. Qed.
Print Assumptions C124_exact.
Example C124_exact_example : real_tables ascii_uni /\ built w_x /\ simple_words w_x /\ some_words w_x /\
  (let t := reading ascii_env w_x en sign_addr in one_line t /\ case_clear ascii_uni w_x t /\ sign_first ascii_uni w_x t /\ ~ readable ascii_uni w_x t).
Proof. exact sign_setting. Qed.
(** So it is if it begins with a sign with which no listed word begins. *)
Theorem C124_sign : forall e x str, real_tables (e_uni e) -> built x -> simple_words x -> some_words x -> let t := e_upper e (x_locale x) (e_nfc e str) in
  one_line t -> case_clear (e_uni e) x t -> sign_first (e_uni e) x t -> all_tokens e x str = Ok [].
Proof. exact sign_none. Qed.
Print Assumptions C124_sign.
Example C124_sign_example : real_tables ascii_uni /\ built w_x /\ simple_words w_x /\ some_words w_x /\
  (let t := reading ascii_env w_x en sign_addr in one_line t /\ case_clear ascii_uni w_x t /\ sign_first ascii_uni w_x t /\ ~ readable ascii_uni w_x t).
Proof. exact sign_setting. Qed.
(** as_parse then returns no rows. *)
Theorem C124_parse : forall e address lx arg locale filt, real_tables (e_uni e) -> given_as e lx arg -> unread_with e lx locale address -> readable_with e lx locale address ->
  parse_table (std_parse_address e address arg locale filt) = Ok [].
Proof. exact unread_parse. Qed.
Print Assumptions C124_parse.
Example C124_parse_example : real_tables ascii_uni /\ given_as ascii_env w_lexicon w_lexicon /\ unread_with ascii_env w_lexicon en sign_addr /\ readable_with ascii_env w_lexicon en sign_addr /\
  unread_with ascii_env w_lexicon en sign_addr' /\ readable_with ascii_env w_lexicon en sign_addr' /\ sign_addr <> sign_addr'.
Proof. exact unread_setting. Qed.
(** All addresses of that kind have the same answers. *)
Theorem C124_alike : forall e atof sort address address' gr lx arg locale filt, real_tables (e_uni e) -> given_as e lx arg ->
  unread_with e lx locale address -> readable_with e lx locale address -> unread_with e lx locale address' -> readable_with e lx locale address' ->
  std_standardize e atof address' gr arg locale filt = std_standardize e atof address gr arg locale filt /\
  std_parse_address e address' arg locale filt = std_parse_address e address arg locale filt /\
  std_match_address e atof sort address' gr arg locale filt = std_match_address e atof sort address gr arg locale filt.
Proof. exact unread_same. Qed.
Print Assumptions C124_alike.
Example C124_alike_example : real_tables ascii_uni /\ given_as ascii_env w_lexicon w_lexicon /\ unread_with ascii_env w_lexicon en sign_addr /\ readable_with ascii_env w_lexicon en sign_addr /\
  unread_with ascii_env w_lexicon en sign_addr' /\ readable_with ascii_env w_lexicon en sign_addr' /\ sign_addr <> sign_addr'.
Proof. exact unread_setting. Qed.
(** as_standardize then returns nulls and as_match no match, if every rule of the grammar has an input class. *)
Theorem C124_nothing : forall e atof sort address gr lx arg locale filt, real_tables (e_uni e) -> given_as e lx arg -> unread_with e lx locale address -> readable_with e lx locale address ->
  (forall l : list mresult, Permutation (sort l) l) -> (forall g, grammar_of (e_uni e) atof gr g -> full_rules g) ->
  address_row (std_standardize e atof address gr arg locale filt) = Ok (repeat None 17) /\
  exists rows, match_table (std_match_address e atof sort address gr arg locale filt) = Ok rows /\
    ((exists g x, grammar_of (e_uni e) atof gr g /\ lexicon_of e lx x) -> map m_matched rows = [s2t "Failed to match to grammar!"%string]) /\
    (((exists m, grammar_refused (e_uni e) atof gr m) \/ exists m, rejection e lx m) -> rows = []).
Proof. exact unread_nothing. Qed.
Print Assumptions C124_nothing.
Example C124_nothing_example : real_tables ascii_uni /\ given_as ascii_env w_lexicon w_lexicon /\ unread_with ascii_env w_lexicon en sign_addr /\ readable_with ascii_env w_lexicon en sign_addr /\
  (forall l : list mresult, Permutation (rev l) l) /\ (forall g, grammar_of ascii_uni sample_atof w_grammar g -> full_rules g) /\
  (exists g x, grammar_of ascii_uni sample_atof w_grammar g /\ lexicon_of ascii_env w_lexicon x).
Proof. exact nothing_setting. Qed.
(** Not with a rule that has none. *)
Theorem C124_empty_rule_refuted : exists r, std_standardize ascii_env sample_atof sign_addr empty_rule_grammar w_lexicon en w_filter = Ok (Some r) /\ sa_pattern r = s2t "->"%string.
Proof. exact empty_matched. Qed.
Print Assumptions C124_empty_rule_refuted.
(** Not if a listed word begins with the sign. *)
Theorem C124_listed_refuted : exists rows, parse_table (std_parse_address ascii_env (s2t "# 12"%string) pound_lexicon en w_filter) = Ok rows /\ rows <> [].
Proof. exact pound. Qed.
Print Assumptions C124_listed_refuted.
(** Not if a line break follows. *)
Theorem C124_line_refuted : exists rows, parse_table (std_parse_address ascii_env (s2t "#"%string ++ [10] ++ s2t "12"%string) w_lexicon en w_filter) = Ok rows /\ rows <> [].
Proof. exact broken. Qed.
Print Assumptions C124_line_refuted.
