(** Words with more classes (src/trieutf8.cpp, src/lexicon.cpp, src/tokenizer.cpp, src/search.cpp, src/as_wrapper.cpp). *)
From Coq Require Import String List NArith ZArith Floats.SpecFloat.
From Verif Require Import Base_model Class_model Float_model Uni_model Token_model Rule_model Search_model Lexicon_model Trie_model Tokenizer_model Archive_model Wrapper_model Sample_model
  Search_spec Loaded_spec Lexicon_spec Tokenizer_spec Wrapper_spec Grammar_spec End_spec Richer_spec WrapperEx_proofs AnswerEx_proofs Growth_proofs Richer_proofs.
Import ListNotations.
Local Open Scope string_scope.

(** ** C119 *)
(** The pattern of a trie depends only on the set of its words that are not empty. *)
Theorem C119_pattern : forall ws ws', (forall w, w <> [] -> (In w ws <-> In w ws')) -> get_regexp (trie_of ws) = get_regexp (trie_of ws').
Proof. exact pattern_of_set. Qed.
Print Assumptions C119_pattern.
Example C119_pattern_example : let ws := [s2t "ST"; s2t "STREET"; s2t "AVE"] in let ws' := [s2t "AVE"; s2t "STREET"; []; s2t "ST"; s2t "STREET"] in
  (forall w, w <> [] -> (In w ws <-> In w ws')) /\ trie_of ws <> trie_of ws' /\ get_regexp (trie_of ws) = s2t "(?:AVE|ST(?:REET)?)".
Proof. exact words_twice. Qed.
(** The tokens stay, with at least their classes. *)
Theorem C119_phrases : forall e x x' locale filt address phs, built x -> built x' -> richer (as_type filt) x x' -> make_phrases e x locale filt address = Ok phs ->
  exists phs', make_phrases e x' locale filt address = Ok phs' /\ Forall2 wider phs phs'.
Proof. exact richer_phrases. Qed.
Print Assumptions C119_phrases.
(** Every match stays. *)
Theorem C119_matches_kept : forall g node ph ph' ps p, is_loaded g -> wider ph ph' -> (combinations ph' <= 2 ^ 32)%N ->
  search_node g node ph = Ok ps -> In p ps -> exists ps' p', search_node g node ph' = Ok ps' /\ In p' ps' /\ p_rules p' = p_rules p.
Proof. exact wider_search. Qed.
Print Assumptions C119_matches_kept.
(** The score of the chosen match does not fall. *)
Theorem C119_score : forall g phs phs', is_loaded g -> no_nan_scores g -> Forall2 wider phs phs' -> Forall (sizes_ok g) phs -> Forall (fun ph => (combinations ph <= 2 ^ 32)%N) phs' ->
  exists b b', search_best g phs = Ok b /\ search_best g phs' = Ok b' /\ SFltb (b_score b') (b_score b) = false.
Proof. exact wider_score. Qed.
Print Assumptions C119_score.
(** An address that is standardized stays so. *)
Theorem C119_standardized : forall e atof address gr lx lx' arg arg' locale filt x x' phs' r, uni_ok (e_uni e) -> given_as e lx arg -> given_as e lx' arg' -> lexicon_of e lx x -> lexicon_of e lx' x' ->
  richer (as_type filt) x x' -> make_phrases e x' locale filt address = Ok phs' -> Forall (fun ph => (combinations ph <= 2 ^ 32)%N) phs' ->
  std_standardize e atof address gr arg locale filt = Ok (Some r) -> exists r', std_standardize e atof address gr arg' locale filt = Ok (Some r').
Proof. exact richer_call. Qed.
Print Assumptions C119_standardized.
(** The rows of as_match stay, except the one that says that nothing matched. *)
Theorem C119_rows : forall e sort g x x' locale filt address phs' out row, is_loaded g -> built x -> built x' -> richer (as_type filt) x x' ->
  make_phrases e x' locale filt address = Ok phs' -> Forall (fun ph => (combinations ph <= 2 ^ 32)%N) phs' -> (forall phs rows, search_all g phs = Ok rows -> sorted_rows rows (sort rows)) ->
  match_addr e sort g x locale filt address = Ok out -> In row out ->
  out = [mkMR (s2t "Failed to match to grammar!") f64_m1 f64_m1] \/ exists out', match_addr e sort g x' locale filt address = Ok out' /\ In row out'.
Proof. exact richer_rows. Qed.
Print Assumptions C119_rows.
(** One more line, which makes ST a word too: the old address keeps its answer, another one gets an answer. *)
Example C119_example : (given_as ascii_env w_lexicon w_lexicon /\ given_as ascii_env rich_lexicon rich_lexicon /\ lexicon_of ascii_env w_lexicon w_x /\ lexicon_of ascii_env rich_lexicon rich_x /\
    built w_x /\ built rich_x /\ richer (as_type w_filter) w_x rich_x /\ make_phrases ascii_env rich_x en w_filter w_addr = Ok rich_phs /\ rich_phs <> w_phs /\ Forall2 wider w_phs rich_phs /\
    Forall (sizes_ok w_g) w_phs /\ Forall (fun ph => (combinations ph <= 2 ^ 32)%N) rich_phs /\ (exists r, std_standardize ascii_env sample_atof w_addr w_grammar w_lexicon en w_filter = Ok (Some r))) /\
  std_standardize ascii_env sample_atof st_st w_grammar w_lexicon en w_filter = Ok None /\
  exists r, std_standardize ascii_env sample_atof st_st w_grammar rich_lexicon en w_filter = Ok (Some r) /\ nth_error (sa_fields r) 5 = Some (some "SAINT") /\ nth_error (sa_fields r) 6 = Some (some "STREET").
Proof. exact (conj rich_setting rich_more). Qed.
(** Inserting an entry for a word that has classes: no new attachments, and no new class of the filter. *)
Theorem C119_insert : forall f x le, built x -> (exists d, class_of x (le_word le) d) -> (forall c, In c (le_type le) -> In c f -> class_of x (le_word le) c) ->
  (forall a, In a [ATT_PRE; ATT_SUF] -> In a (le_att le) -> exists le', In le' (lex_find x (le_word le)) /\ In a (le_att le')) -> richer f x (lex_insert x le).
Proof. exact richer_insert. Qed.
Print Assumptions C119_insert.
Example C119_insert_example : built w_x /\ (exists d, class_of w_x (le_word saint_entry) d) /\ (forall c, In c (le_type saint_entry) -> In c (as_type w_filter) -> class_of w_x (le_word saint_entry) c) /\
  (forall a, In a [ATT_PRE; ATT_SUF] -> In a (le_att saint_entry) -> exists le', In le' (lex_find w_x (le_word saint_entry)) /\ In a (le_att le')).
Proof. exact (conj w_x_built saint_fits). Qed.
(** A further class that is in the filter can make an address unmatched. *)
Theorem C119_filtered_refuted : std_standardize ascii_env sample_atof w_addr w_grammar filtered_lexicon en w_filter = Ok None /\
  exists r, std_standardize ascii_env sample_atof w_addr w_grammar w_lexicon en w_filter = Ok (Some r).
Proof. exact filtered_class. Qed.
(** The answer may become another one. *)
Theorem C119_answer_refuted : exists r r', std_standardize ascii_env sample_atof (s2t "12 main st") two_words w_lexicon en w_filter = Ok (Some r) /\
  std_standardize ascii_env sample_atof (s2t "12 main st") two_words rich_lexicon en w_filter = Ok (Some r') /\
  nth_error (sa_fields r) 6 = Some (some "STREET") /\ nth_error (sa_fields r') 6 = Some None /\ nth_error (sa_fields r') 10 = Some (some "SAINT").
Proof. exact other_answer. Qed.
