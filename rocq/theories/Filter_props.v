(** What counts in the text of a filter (src/inclass.cpp:119-136, src/tokenizer.cpp:260-268). *)
From Coq Require Import String List NArith.
From Verif Require Import Base_model Class_model Uni_model Token_model Rule_model Search_model Float_model Lexicon_model Tokenizer_model Archive_model Wrapper_model Sample_model
  Grammar_spec LexText_spec Lexicon_spec Tokenizer_spec Split_spec Address_spec End_spec Local_spec Class_spec Filter_spec WrapperEx_proofs Filter_proofs.
Import ListNotations.
Local Open Scope N_scope.

(** ** C126 *)
(** Filters that name the same classes give the same answers. *)
Theorem C126_set : forall e atof sort address gr arg locale filt filt', (forall c, in_list filt c <-> in_list filt' c) ->
  std_standardize e atof address gr arg locale filt = std_standardize e atof address gr arg locale filt' /\
  std_parse_address e address arg locale filt = std_parse_address e address arg locale filt' /\
  std_match_address e atof sort address gr arg locale filt = std_match_address e atof sort address gr arg locale filt'.
Proof. exact filter_calls. Qed.
Print Assumptions C126_set.
Example C126_set_example : w_filter <> s2t "SPACE, PUNCT ,SPACE"%string /\ forall c, in_list w_filter c <-> in_list (s2t "SPACE, PUNCT ,SPACE"%string) c.
Proof. exact set_setting. Qed.
(** So the order of the names and repetitions do not count. *)
Theorem C126_names : forall e atof sort address gr arg locale cs cs', (forall c, In c cs <-> In c cs') ->
  let filt := join [44] (map in_str cs) in let filt' := join [44] (map in_str cs') in
  std_standardize e atof address gr arg locale filt = std_standardize e atof address gr arg locale filt' /\
  std_parse_address e address arg locale filt = std_parse_address e address arg locale filt' /\
  std_match_address e atof sort address gr arg locale filt = std_match_address e atof sort address gr arg locale filt'.
Proof. exact names_calls. Qed.
Print Assumptions C126_names.
Example C126_names_example : (forall c, In c [I_PUNCT; I_SPACE] <-> In c [I_SPACE; I_PUNCT; I_SPACE]) /\ join [44] (map in_str [I_PUNCT; I_SPACE]) = w_filter.
Proof. exact names_setting. Qed.
(** Classes that no token of the address has do not count. *)
Theorem C126_absent : forall e atof sort address gr lx arg locale filt filt', real_tables (e_uni e) -> given_as e lx arg -> readable_with e lx locale address ->
  (forall c, has_token e lx locale address c -> (in_list filt c <-> in_list filt' c)) ->
  std_standardize e atof address gr arg locale filt = std_standardize e atof address gr arg locale filt' /\
  std_parse_address e address arg locale filt = std_parse_address e address arg locale filt' /\
  std_match_address e atof sort address gr arg locale filt = std_match_address e atof sort address gr arg locale filt'.
Proof. exact filter_absent. Qed.
Print Assumptions C126_absent.
Example C126_absent_example : real_tables ascii_uni /\ given_as ascii_env w_lexicon w_lexicon /\ readable_with ascii_env w_lexicon en w_addr /\
  (forall c, has_token ascii_env w_lexicon en w_addr c -> (in_list w_filter c <-> in_list (s2t "RR,PUNCT,SPACE"%string) c)) /\
  has_token ascii_env w_lexicon en w_addr I_PUNCT /\ in_list w_filter I_PUNCT.
Proof. exact absent_setting. Qed.
(** No token of an address without tabs is of class BADTOKEN. *)
Theorem C126_clean : forall e lx locale address, real_tables (e_uni e) -> readable_with e lx locale address -> (forall x, lexicon_of e lx x -> ~ In 9 (reading e x locale address)) ->
  ~ has_token e lx locale address I_BADTOKEN.
Proof. exact none_bad. Qed.
Print Assumptions C126_clean.
Example C126_clean_example : real_tables ascii_uni /\ given_as ascii_env w_lexicon w_lexicon /\ readable_with ascii_env w_lexicon en w_addr /\
  (forall x, lexicon_of ascii_env w_lexicon x -> ~ In 9 (reading ascii_env x en w_addr)) /\ misspelled (s2t "PUNKT"%string).
Proof. exact misspelled_setting. Qed.
(** So a misspelled name in the filter does nothing and is not reported. *)
Theorem C126_misspelled : forall e atof sort address gr lx arg locale filt w, real_tables (e_uni e) -> given_as e lx arg -> readable_with e lx locale address ->
  (forall x, lexicon_of e lx x -> ~ In 9 (reading e x locale address)) -> misspelled w ->
  std_standardize e atof address gr arg locale (filt ++ [44] ++ w) = std_standardize e atof address gr arg locale filt /\
  std_parse_address e address arg locale (filt ++ [44] ++ w) = std_parse_address e address arg locale filt /\
  std_match_address e atof sort address gr arg locale (filt ++ [44] ++ w) = std_match_address e atof sort address gr arg locale filt.
Proof. exact misspelled_calls. Qed.
Print Assumptions C126_misspelled.
Example C126_misspelled_example : real_tables ascii_uni /\ given_as ascii_env w_lexicon w_lexicon /\ readable_with ascii_env w_lexicon en w_addr /\
  (forall x, lexicon_of ascii_env w_lexicon x -> ~ In 9 (reading ascii_env x en w_addr)) /\ misspelled (s2t "PUNKT"%string).
Proof. exact misspelled_setting. Qed.
(** Not if the address has tabs. *)
Theorem C126_tabs_refuted : exists ra rb, parse_table (std_parse_address ascii_env tab_addr w_lexicon en w_filter) = Ok ra /\
  parse_table (std_parse_address ascii_env tab_addr w_lexicon en (w_filter ++ [44] ++ s2t "PUNKT"%string)) = Ok rb /\ (List.length rb < List.length ra)%nat.
Proof. exact typo. Qed.
Print Assumptions C126_tabs_refuted.
