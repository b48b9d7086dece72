(** What as_parse tells about the fields of as_standardize (src/as_wrapper.cpp:52-98, 101-287, 302-408, src/search.cpp:64-164, src/token.cpp:28-51, src/lexicon.cpp:181-198). *)
From Coq Require Import String List NArith.
From Verif Require Import Base_model Class_model Uni_model Token_model Rule_model Search_model Float_model Lexicon_model Tokenizer_model Archive_model Wrapper_model Sample_model
  Grammar_spec LexText_spec Lexicon_spec Tokenizer_spec Split_spec Address_spec End_spec Local_spec Class_spec Search_spec Explain_spec TokExample_proofs WrapperEx_proofs Explain_proofs.
Import ListNotations.
Local Open Scope N_scope.

(** ** C129 *)
(** Addresses without tabs that have the same numbers, words and classes in as_parse are standardized alike. *)
Theorem C129_standardize : forall e atof gr arg address locale filt address' locale' filt' rows rows', uni_ok (e_uni e) ->
  (forall x, get_lexicon e arg = Ok x -> ~ In 9 (reading e x locale address) /\ ~ In 9 (reading e x locale' address')) ->
  std_parse_address e address arg locale filt = Ok rows -> std_parse_address e address' arg locale' filt' = Ok rows' -> same_words rows rows' ->
  std_standardize e atof address gr arg locale filt = std_standardize e atof address' gr arg locale' filt'.
Proof. exact words_standardize. Qed.
Print Assumptions C129_standardize.
Example C129_standardize_example : uni_ok (e_uni ascii_env) /\ (forall x, get_lexicon ascii_env w_lexicon = Ok x -> ~ In 9 (reading ascii_env x en w_addr) /\ ~ In 9 (reading ascii_env x en spaced_addr)) /\ exists rows rows' a, std_parse_address ascii_env w_addr w_lexicon en w_filter = Ok rows /\
  std_parse_address ascii_env spaced_addr w_lexicon en w_filter = Ok rows' /\ same_words rows rows' /\ List.length rows = 11%nat /\
  std_standardize ascii_env sample_atof spaced_addr w_grammar w_lexicon en w_filter = Ok (Some a) /\ nth 5 (sa_fields a) None = Some (s2t "MAIN"%string).
Proof. exact words_setting. Qed.
(** So it is for the rows that SQL callers see, if as_parse has any. *)
Theorem C129_tables : forall e atof gr arg address locale filt address' locale' filt' rows rows', uni_ok (e_uni e) ->
  (forall x, get_lexicon e arg = Ok x -> ~ In 9 (reading e x locale address) /\ ~ In 9 (reading e x locale' address')) -> rows <> [] ->
  parse_table (std_parse_address e address arg locale filt) = Ok rows -> parse_table (std_parse_address e address' arg locale' filt') = Ok rows' -> same_words rows rows' ->
  address_row (std_standardize e atof address gr arg locale filt) = address_row (std_standardize e atof address' gr arg locale' filt').
Proof. exact words_tables. Qed.
Print Assumptions C129_tables.
Example C129_tables_example : uni_ok (e_uni ascii_env) /\ (forall x, get_lexicon ascii_env w_lexicon = Ok x -> ~ In 9 (reading ascii_env x en w_addr) /\ ~ In 9 (reading ascii_env x en spaced_addr)) /\
  exists rows rows', parse_table (std_parse_address ascii_env w_addr w_lexicon en w_filter) = Ok rows /\ rows <> [] /\
    parse_table (std_parse_address ascii_env spaced_addr w_lexicon en w_filter) = Ok rows' /\ same_words rows rows' /\
    exists row, address_row (std_standardize ascii_env sample_atof spaced_addr w_grammar w_lexicon en w_filter) = Ok row /\ nth 14 row None = Some (s2t "PO BOX 7"%string).
Proof. exact words_tables_setting. Qed.
(** Not for addresses with tabs. *)
Theorem C129_tabs_refuted : exists rows rows' a a', std_parse_address ascii_env hash_addr w_lexicon en [] = Ok rows /\ std_parse_address ascii_env bang_addr w_lexicon en [] = Ok rows' /\ same_words rows rows' /\
  std_standardize ascii_env sample_atof hash_addr punct_grammar w_lexicon en [] = Ok (Some a) /\ std_standardize ascii_env sample_atof bang_addr punct_grammar w_lexicon en [] = Ok (Some a') /\
  nth 9 (sa_fields a) None = Some (s2t "# "%string) /\ nth 9 (sa_fields a') None = Some (s2t "! "%string).
Proof. exact tabs_differ. Qed.
Print Assumptions C129_tabs_refuted.
