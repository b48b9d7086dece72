(** Classes that no rule of a grammar uses (src/as_wrapper.cpp:52-98, 302-408, 414-524, src/search.cpp:140-208, 274-408). *)
From Coq Require Import String List NArith.
From Verif Require Import Base_model Class_model Uni_model Token_model Rule_model Search_model Float_model Lexicon_model Tokenizer_model Archive_model Wrapper_model Sample_model
  Grammar_spec LexText_spec Lexicon_spec Tokenizer_spec Split_spec Address_spec End_spec Local_spec Class_spec Search_spec Stop_spec TokExample_proofs WrapperEx_proofs Tells_proofs Stop_proofs.
Import ListNotations.
Local Open Scope N_scope.

(** ** C130 *)
(** If each tokenization has a token of unused classes only, nothing is matched. *)
Theorem C130_calls : forall e atof sort address gr arg locale filt g rows, uni_ok (e_uni e) -> (forall r : mresult, sort [r] = [r]) -> get_grammar e atof gr = Ok g ->
  parse_table (std_parse_address e address arg locale filt) = Ok rows -> stopped g rows ->
  (exists r, match_table (std_match_address e atof sort address gr arg locale filt) = Ok [r] /\ m_matched r = s2t "Failed to match to grammar!"%string) /\
  std_standardize e atof address gr arg locale filt = Ok None.
Proof. exact stopped_calls. Qed.
Print Assumptions C130_calls.
Example C130_calls_example : uni_ok (e_uni ascii_env) /\ (forall r : mresult, rev [r] = [r]) /\ exists g rows, get_grammar ascii_env sample_atof w_grammar = Ok g /\
  parse_table (std_parse_address ascii_env w_addr w_lexicon en []) = Ok rows /\ stopped g rows /\ List.length rows = 176%nat.
Proof. exact stopped_setting. Qed.
(** One tokenization with such a token is not enough. *)
Theorem C130_first_refuted : exists g rows row a, get_grammar ascii_env sample_atof told_grammar = Ok g /\ parse_table (std_parse_address ascii_env w_addr w_lexicon en w_filter) = Ok rows /\
  In row rows /\ pr_pat row = 1 /\ (forall c, in_list (pr_class row) c -> ~ used g c) /\ std_standardize ascii_env sample_atof w_addr told_grammar w_lexicon en w_filter = Ok (Some a).
Proof. exact stopped_first. Qed.
Print Assumptions C130_first_refuted.
