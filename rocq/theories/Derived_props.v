(** The row of as_standardize from the rows of as_parse (src/as_wrapper.cpp:52-98, 101-287, 302-408, src/search.cpp:64-164, 274-408, src/lexicon.cpp:181-198). *)
From Coq Require Import String List NArith Floats.SpecFloat.
From Verif Require Import Base_model Class_model Uni_model Token_model Rule_model Search_model Float_model Lexicon_model Tokenizer_model Archive_model Wrapper_model Sample_model
  Grammar_spec LexText_spec Lexicon_spec Tokenizer_spec Split_spec Address_spec End_spec Local_spec Class_spec Search_spec Wrapper_spec Score_spec PMatch_spec Derived_spec TokExample_proofs WrapperEx_proofs Explain_proofs Derived_proofs.
Import ListNotations.
Local Open Scope N_scope.

(** ** C132 *)
(** The row of as_standardize is made from the rows of as_parse with one number, read with the classes of a derivation with the largest average; the fields for addresses without tabs. *)
Theorem C132_row : forall e atof address gr arg locale filt g rows a, uni_ok (e_uni e) -> get_grammar e atof gr = Ok g ->
  parse_table (std_parse_address e address arg locale filt) = Ok rows -> rows <> [] -> (forall p, choices (with_number p rows) <= 2 ^ 32) ->
  std_standardize e atof address gr arg locale filt = Ok (Some a) ->
  exists x p rs, get_lexicon e arg = Ok x /\ explains_at g rows p rs /\ unbeaten g rows rs /\
    sa_pattern a = join [32] (pattern_words (rule_inputs rs) (rule_outputs rs)) /\
    (~ In 9 (reading e x locale address) -> exists ws, texts_for x (with_number p rows) (rule_inputs rs) ws /\ sa_fields a = map (fun c => content c (combine (rule_outputs rs) ws)) columns).
Proof. exact parse_row. Qed.
Print Assumptions C132_row.
Example C132_row_example : uni_ok (e_uni ascii_env) /\ (forall x, get_lexicon ascii_env w_lexicon = Ok x -> ~ In 9 (reading ascii_env x en w_addr)) /\ exists g rows a, get_grammar ascii_env sample_atof w_grammar = Ok g /\
  parse_table (std_parse_address ascii_env w_addr w_lexicon en w_filter) = Ok rows /\ rows <> [] /\ (forall p, choices (with_number p rows) <= 2 ^ 32) /\
  std_standardize ascii_env sample_atof w_addr w_grammar w_lexicon en w_filter = Ok (Some a) /\ nth 14 (sa_fields a) None = Some (s2t "PO BOX 7"%string).
Proof. exact parse_row_setting. Qed.
(** A derivation that is better than all those with another pattern decides the pattern. *)
Theorem C132_clear : forall e atof address gr arg locale filt g rows p rs, uni_ok (e_uni e) -> get_grammar e atof gr = Ok g ->
  parse_table (std_parse_address e address arg locale filt) = Ok rows -> (forall p, choices (with_number p rows) <= 2 ^ 32) -> explains_at g rows p rs ->
  (forall p' rs', explains_at g rows p' rs' -> pattern_words (rule_inputs rs') (rule_outputs rs') <> pattern_words (rule_inputs rs) (rule_outputs rs) -> SFltb (counted (average32 rs')) (counted (average32 rs)) = true) ->
  exists a, std_standardize e atof address gr arg locale filt = Ok (Some a) /\ sa_pattern a = join [32] (pattern_words (rule_inputs rs) (rule_outputs rs)).
Proof. exact parse_clear. Qed.
Print Assumptions C132_clear.
Example C132_clear_example : uni_ok (e_uni ascii_env) /\ exists g rows rs rs', get_grammar ascii_env sample_atof two_grammar = Ok g /\
  parse_table (std_parse_address ascii_env two_addr w_lexicon en w_filter) = Ok rows /\ (forall p, choices (with_number p rows) <= 2 ^ 32) /\ explains_at g rows 1 rs /\ explains_at g rows 1 rs' /\
  pattern_words (rule_inputs rs') (rule_outputs rs') <> pattern_words (rule_inputs rs) (rule_outputs rs) /\
  (forall p' rs', explains_at g rows p' rs' -> pattern_words (rule_inputs rs') (rule_outputs rs') <> pattern_words (rule_inputs rs) (rule_outputs rs) -> SFltb (counted (average32 rs')) (counted (average32 rs)) = true) /\
  join [32] (pattern_words (rule_inputs rs) (rule_outputs rs)) = s2t "NUMBER WORD -> HOUSE STREET"%string.
Proof. exact clear_setting. Qed.
(** Not the fields for addresses with tabs. *)
Theorem C132_tabs_refuted : exists x g rows a, get_lexicon ascii_env w_lexicon = Ok x /\ get_grammar ascii_env sample_atof punct_grammar = Ok g /\
  parse_table (std_parse_address ascii_env hash_addr w_lexicon en []) = Ok rows /\ std_standardize ascii_env sample_atof hash_addr punct_grammar w_lexicon en [] = Ok (Some a) /\
  nth 9 (sa_fields a) None = Some (s2t "# "%string) /\
  forall p rs ws, texts_for x (with_number p rows) (rule_inputs rs) ws -> sa_fields a <> map (fun c => content c (combine (rule_outputs rs) ws)) columns.
Proof. exact parse_row_tabs. Qed.
Print Assumptions C132_tabs_refuted.
