(** Which entries of a lexicon matter for an address (src/lexicon.cpp, src/trieutf8.cpp, src/tokenizer.cpp, src/as_wrapper.cpp). *)
From Coq Require Import String List NArith.
From Verif Require Import Base_model Class_model Float_model Uni_model Token_model Rule_model Search_model Lexicon_model Tokenizer_model Archive_model Wrapper_model Sample_model
  Search_spec Grammar_spec Loaded_spec LexText_spec LexDiag_spec Lexicon_spec Tokenizer_spec Split_spec Read_spec End_spec Local_spec WrapperEx_proofs Local_proofs LocalEx_proofs.
Import ListNotations.
Local Open Scope string_scope.

(** ** C92 *)
(** Lexicons with the same entries for the words that occur in an address give the same answers for it. *)
Theorem C92_words_that_occur : forall e atof sort address gr lx lx' arg arg' locale filt, real_tables (e_uni e) -> given_as e lx arg -> given_as e lx' arg' ->
  readable_with e lx locale address -> readable_with e lx' locale address ->
  (exists x x', lexicon_of e lx x /\ lexicon_of e lx' x' /\ same_for (e_uni e) (reading e x locale address) x x') ->
  std_standardize e atof address gr arg locale filt = std_standardize e atof address gr arg' locale filt /\
  std_parse_address e address arg locale filt = std_parse_address e address arg' locale filt /\
  std_match_address e atof sort address gr arg locale filt = std_match_address e atof sort address gr arg' locale filt.
Proof. exact texts_local. Qed.
Print Assumptions C92_words_that_occur.
(** A lexicon with one more word. *)
Example C92_example : real_tables ascii_uni /\ given_as ascii_env w_lexicon w_lexicon /\ given_as ascii_env ave_lexicon ave_lexicon /\ readable_with ascii_env w_lexicon en w_addr /\ readable_with ascii_env ave_lexicon en w_addr /\
  exists x x', lexicon_of ascii_env w_lexicon x /\ lexicon_of ascii_env ave_lexicon x' /\ same_for ascii_uni (reading ascii_env x en w_addr) x x' /\ ~ (forall w, lex_find x w = lex_find x' w).
Proof. exact ave_setting. Qed.
(** Inserting an entry whose word does not occur changes nothing. *)
Theorem C92_unrelated_entry : forall e x le locale filt address, apart_tables (e_uni e) -> word_tables (e_uni e) -> let t := reading e x locale address in
  blank_lines (e_uni e) t -> tab_tables (e_uni e) -> some_words x -> ~ concerns (e_uni e) t (le_word le) -> fit_lexicon (e_uni e) x t -> fit_lexicon (e_uni e) (lex_insert x le) t ->
  (forall g, is_loaded g -> standardize_addr e g (lex_insert x le) locale filt address = standardize_addr e g x locale filt address) /\
  parse_addr e (lex_insert x le) locale filt address = parse_addr e x locale filt address /\
  forall sort g, match_addr e sort g (lex_insert x le) locale filt address = match_addr e sort g x locale filt address.
Proof. exact insert_local. Qed.
Print Assumptions C92_unrelated_entry.
Example C92_unrelated_example : let t := reading ascii_env w_x en w_addr in blank_lines ascii_uni t /\ tab_tables ascii_uni /\ some_words w_x /\ ~ concerns ascii_uni t (le_word ave_entry) /\
  fit_lexicon ascii_uni w_x t /\ fit_lexicon ascii_uni (lex_insert w_x ave_entry) t.
Proof. exact insert_setting. Qed.
(** The first word of a lexicon matters even if none of its letters occurs: without words an address may begin with a comma. *)
Theorem C92_first_word_refuted : exists rows, parse_table (std_parse_address ascii_env (s2t ", 12") bare_lexicon en w_filter) = Ok rows /\ map pr_word rows = [s2t "12"] /\
  parse_table (std_parse_address ascii_env (s2t ", 12") st_lexicon en w_filter) = Ok [] /\ forall c, In c (s2t "ST") -> ~ In c (s2t ", 12").
Proof. exact first_word. Qed.
(** A word that occurs can make an address unmatched. *)
Theorem C92_occurring_word_refuted : std_standardize ascii_env sample_atof w_addr w_grammar main_lexicon en w_filter = Ok None /\
  exists r, std_standardize ascii_env sample_atof w_addr w_grammar w_lexicon en w_filter = Ok (Some r).
Proof. exact occurring_word. Qed.

(** ** C93 *)
(** The order of the lines of a lexicon matters only among the lines of one word; repeated lines do not matter. *)
Theorem C93_line_order : forall e atof sort address gr lx lx' arg arg' locale filt lg lg' loc es es' dg dg', given_as e lx arg -> given_as e lx' arg' ->
  lexicon_means e lx lg loc es dg -> lexicon_means e lx' lg' loc es' dg' -> rearranged es es' ->
  std_standardize e atof address gr arg locale filt = std_standardize e atof address gr arg' locale filt /\
  std_parse_address e address arg locale filt = std_parse_address e address arg' locale filt /\
  std_match_address e atof sort address gr arg locale filt = std_match_address e atof sort address gr arg' locale filt.
Proof. exact lines_order. Qed.
Print Assumptions C93_line_order.
(** Lines exchanged, one of them repeated. *)
Example C93_example : given_as ascii_env w_lexicon w_lexicon /\ given_as ascii_env swapped_lexicon swapped_lexicon /\ w_lexicon <> swapped_lexicon /\
  exists lg loc es es' dg dg', lexicon_means ascii_env w_lexicon lg loc es dg /\ lexicon_means ascii_env swapped_lexicon lg loc es' dg' /\ rearranged es es'.
Proof. exact swapped_setting. Qed.
(** Of two lines of one word with the same class the first decides. *)
Theorem C93_same_word_refuted : exists p p' r r', std_standardize ascii_env sample_atof w_addr w_grammar street_first en w_filter = Ok (Some r) /\
  std_standardize ascii_env sample_atof w_addr w_grammar saint_first en w_filter = Ok (Some r') /\ p <> p' /\ nth_error (sa_fields r) 6 = Some (Some p) /\ nth_error (sa_fields r') 6 = Some (Some p').
Proof. exact same_word_order. Qed.
