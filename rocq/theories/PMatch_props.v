(** The rows of as_match from those of as_parse (src/as_wrapper.cpp:52-98, 302-408, 414-524, src/search.cpp:140-208, 274-408). *)
From Coq Require Import String List NArith.
From Verif Require Import Base_model Class_model Uni_model Token_model Rule_model Search_model Float_model Lexicon_model Tokenizer_model Archive_model Wrapper_model Sample_model
  Grammar_spec LexText_spec Lexicon_spec Tokenizer_spec Split_spec Address_spec End_spec Local_spec Class_spec Search_spec PMatch_spec TokExample_proofs WrapperEx_proofs PMatch_proofs.
Import ListNotations.
Local Open Scope N_scope.

(** ** C131 *)
(** as_match returns a row for each derivation of a choice of classes from the rows of as_parse, and no other rows. *)
Theorem C131_match : forall e atof sort address gr arg locale filt g rows out, uni_ok (e_uni e) -> (forall (l : list mresult) q, In q (sort l) <-> In q l) -> get_grammar e atof gr = Ok g ->
  parse_table (std_parse_address e address arg locale filt) = Ok rows -> rows <> [] -> (forall p, choices (with_number p rows) <= 2 ^ 32) ->
  match_table (std_match_address e atof sort address gr arg locale filt) = Ok out ->
  (forall rs, explains g rows rs -> exists r, In r out /\ reports rs (m_matched r) (m_score r) (m_nrules r)) /\
  (forall r, In r out -> (exists rs, explains g rows rs /\ reports rs (m_matched r) (m_score r) (m_nrules r)) \/
     ((forall rs, ~ explains g rows rs) /\ m_matched r = s2t "Failed to match to grammar!"%string)).
Proof. exact parse_match. Qed.
Print Assumptions C131_match.
Example C131_match_example : uni_ok (e_uni ascii_env) /\ (forall (l : list mresult) q, In q (rev l) <-> In q l) /\ exists g rows r a, get_grammar ascii_env sample_atof w_grammar = Ok g /\
  parse_table (std_parse_address ascii_env w_addr w_lexicon en w_filter) = Ok rows /\ rows <> [] /\ (forall p, choices (with_number p rows) <= 2 ^ 32) /\
  match_table (std_match_address ascii_env sample_atof (@rev mresult) w_addr w_grammar w_lexicon en w_filter) = Ok [r] /\
  m_matched r = s2t "NUMBER WORD TYPE BOXH NUMBER -> HOUSE STREET SUFTYP BOXH BOXT"%string /\
  std_standardize ascii_env sample_atof w_addr w_grammar w_lexicon en w_filter = Ok (Some a).
Proof. exact pmatch_setting. Qed.
(** as_standardize has an answer exactly if there is such a derivation. *)
Theorem C131_standardize : forall e atof address gr arg locale filt g rows, uni_ok (e_uni e) -> get_grammar e atof gr = Ok g ->
  parse_table (std_parse_address e address arg locale filt) = Ok rows -> rows <> [] -> (forall p, choices (with_number p rows) <= 2 ^ 32) ->
  ((exists a, std_standardize e atof address gr arg locale filt = Ok (Some a)) <-> exists rs, explains g rows rs).
Proof. exact parse_standardize. Qed.
Print Assumptions C131_standardize.
Example C131_standardize_example : uni_ok (e_uni ascii_env) /\ (forall (l : list mresult) q, In q (rev l) <-> In q l) /\ exists g rows r a, get_grammar ascii_env sample_atof w_grammar = Ok g /\
  parse_table (std_parse_address ascii_env w_addr w_lexicon en w_filter) = Ok rows /\ rows <> [] /\ (forall p, choices (with_number p rows) <= 2 ^ 32) /\
  match_table (std_match_address ascii_env sample_atof (@rev mresult) w_addr w_grammar w_lexicon en w_filter) = Ok [r] /\
  m_matched r = s2t "NUMBER WORD TYPE BOXH NUMBER -> HOUSE STREET SUFTYP BOXH BOXT"%string /\
  std_standardize ascii_env sample_atof w_addr w_grammar w_lexicon en w_filter = Ok (Some a).
Proof. exact pmatch_setting. Qed.
(** Not if as_parse has no rows. *)
Theorem C131_no_rows_refuted : exists g a, get_grammar ascii_env sample_atof bare_grammar = Ok g /\ parse_table (std_parse_address ascii_env [] w_lexicon en w_filter) = Ok [] /\
  std_standardize ascii_env sample_atof [] bare_grammar w_lexicon en w_filter = Ok (Some a) /\ forall rs, ~ explains g [] rs.
Proof. exact pmatch_none. Qed.
Print Assumptions C131_no_rows_refuted.
