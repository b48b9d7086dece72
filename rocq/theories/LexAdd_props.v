(** A line added to a lexicon text (src/lexicon.cpp:67-145, 151-160, src/as_wrapper.cpp:302-408). *)
From Coq Require Import String List NArith.
From Verif Require Import Base_model Class_model Uni_model Token_model Lexicon_model Tokenizer_model Archive_model Float_model Rule_model Search_model Wrapper_model Sample_model
  LexText_spec LexFile_spec LexDiag_spec Lexicon_spec Tokenizer_spec Split_spec End_spec Local_spec Insert_spec Grammar_spec Search_spec Richer_spec TokExample_proofs WrapperEx_proofs LocalEx_proofs Richer_proofs LexAdd_proofs LexRich_proofs LexTwice_proofs.
Import ListNotations.
Local Open Scope N_scope.

(** ** C134 *)
(** An accepted line behind the header or an entry puts its entry among the others. *)
Theorem C134_line : forall e l0 l src src' lg loc es dg a left, with_line_behind l0 l src src' -> is_header l0 \/ is_entry l0 -> accepted e loc l a left ->
  lexicon_means e src lg loc es dg -> exists es1 es2 dg', es = es1 ++ es2 /\ lexicon_means e src' lg loc (es1 ++ a ++ es2) dg'.
Proof. exact means_behind. Qed.
Print Assumptions C134_line.
Example C134_line_example : with_line_behind add_l0 ave_line w_lexicon ave_lexicon /\ is_entry add_l0 /\
  exists lg loc es dg le left, lexicon_means ascii_env w_lexicon lg loc es dg /\ accepted ascii_env loc ave_line [le] left.
Proof. exact means_setting. Qed.
(** The text loads, other words keep their entries, and the word of the line gets one more. *)
Theorem C134_entry : forall e name l0 l le src src' x, with_line_behind l0 l src src' -> is_header l0 \/ is_entry l0 -> load_lexicon e name src = Ok x -> body_line e (x_locale x) l le ->
  exists x', load_lexicon e name src' = Ok x' /\ x_lang x' = x_lang x /\ x_locale x' = x_locale x /\ (forall w, w <> le_word le -> lex_find x' w = lex_find x w) /\
    (forall a, In a (lex_find x' (le_word le)) <-> a = le \/ In a (lex_find x (le_word le))) /\
    (~ In le (lex_find x (le_word le)) -> exists k1 k2, lex_find x (le_word le) = k1 ++ k2 /\ lex_find x' (le_word le) = k1 ++ le :: k2).
Proof. exact load_behind. Qed.
Print Assumptions C134_entry.
Example C134_entry_example : with_line_behind add_l0 ave_line w_lexicon ave_lexicon /\ is_entry add_l0 /\ load_lexicon ascii_env query_lex w_lexicon = Ok w_x /\ body_line ascii_env (x_locale w_x) ave_line ave_entry /\
  ~ In ave_entry (lex_find w_x (le_word ave_entry)) /\ le_word ave_entry = s2t "AVE"%string.
Proof. exact load_setting. Qed.
(** An empty line changes no answer. *)
Theorem C134_blank : forall e atof sort address gr l0 lx lx' arg arg' locale filt x, with_line_behind l0 [] lx lx' -> is_header l0 \/ is_entry l0 -> given_as e lx arg -> given_as e lx' arg' -> lexicon_of e lx x ->
  std_standardize e atof address gr arg locale filt = std_standardize e atof address gr arg' locale filt /\
  std_parse_address e address arg locale filt = std_parse_address e address arg' locale filt /\
  std_match_address e atof sort address gr arg locale filt = std_match_address e atof sort address gr arg' locale filt.
Proof. exact blank_behind. Qed.
Print Assumptions C134_blank.
Example C134_blank_example : with_line_behind add_l0 [] w_lexicon gap_lexicon /\ is_entry add_l0 /\ given_as ascii_env w_lexicon w_lexicon /\ given_as ascii_env gap_lexicon gap_lexicon /\ lexicon_of ascii_env w_lexicon w_x.
Proof. exact blank_setting. Qed.
(** Nor does an entry line that is written twice. *)
Theorem C134_twice : forall e atof sort address gr l lx lx' arg arg' locale filt x, with_line_behind l l lx lx' -> is_entry l -> given_as e lx arg -> given_as e lx' arg' -> lexicon_of e lx x ->
  std_standardize e atof address gr arg locale filt = std_standardize e atof address gr arg' locale filt /\
  std_parse_address e address arg locale filt = std_parse_address e address arg' locale filt /\
  std_match_address e atof sort address gr arg locale filt = std_match_address e atof sort address gr arg' locale filt.
Proof. exact twice_behind. Qed.
Print Assumptions C134_twice.
Example C134_twice_example : with_line_behind add_l0 add_l0 w_lexicon twice_lexicon /\ is_entry add_l0 /\ given_as ascii_env w_lexicon w_lexicon /\ given_as ascii_env twice_lexicon twice_lexicon /\ lexicon_of ascii_env w_lexicon w_x.
Proof. exact twice_setting. Qed.
(** Nor does the line of a word that the address does not contain. *)
Theorem C134_unrelated : forall e atof sort address gr l0 l le lx lx' arg arg' locale filt x, real_tables (e_uni e) -> with_line_behind l0 l lx lx' -> is_header l0 \/ is_entry l0 ->
  given_as e lx arg -> given_as e lx' arg' -> readable_with e lx locale address -> readable_with e lx' locale address -> lexicon_of e lx x -> some_words x ->
  body_line e (x_locale x) l le -> ~ concerns (e_uni e) (reading e x locale address) (le_word le) ->
  std_standardize e atof address gr arg locale filt = std_standardize e atof address gr arg' locale filt /\
  std_parse_address e address arg locale filt = std_parse_address e address arg' locale filt /\
  std_match_address e atof sort address gr arg locale filt = std_match_address e atof sort address gr arg' locale filt.
Proof. exact unrelated_behind. Qed.
Print Assumptions C134_unrelated.
Example C134_unrelated_example : real_tables ascii_uni /\ with_line_behind add_l0 ave_line w_lexicon ave_lexicon /\ is_entry add_l0 /\ given_as ascii_env w_lexicon w_lexicon /\ given_as ascii_env ave_lexicon ave_lexicon /\
  readable_with ascii_env w_lexicon en w_addr /\ readable_with ascii_env ave_lexicon en w_addr /\ lexicon_of ascii_env w_lexicon w_x /\ some_words w_x /\ body_line ascii_env (x_locale w_x) ave_line ave_entry /\
  ~ concerns ascii_uni (reading ascii_env w_x en w_addr) (le_word ave_entry).
Proof. exact unrelated_setting. Qed.
(** A line with further classes of a listed word, none of them in the filter, leaves a standardized address standardized. *)
Theorem C134_more : forall e atof address gr l0 l le lx lx' arg arg' locale filt x x' phs' r, uni_ok (e_uni e) -> with_line_behind l0 l lx lx' -> is_header l0 \/ is_entry l0 ->
  given_as e lx arg -> given_as e lx' arg' -> lexicon_of e lx x -> lexicon_of e lx' x' -> body_line e (x_locale x) l le ->
  (exists d, class_of x (le_word le) d) -> (forall c, In c (le_type le) -> In c (as_type filt) -> class_of x (le_word le) c) ->
  (forall a, In a [ATT_PRE; ATT_SUF] -> In a (le_att le) -> exists le', In le' (lex_find x (le_word le)) /\ In a (le_att le')) ->
  make_phrases e x' locale filt address = Ok phs' -> Forall (fun ph => combinations ph <= 2 ^ 32) phs' ->
  std_standardize e atof address gr arg locale filt = Ok (Some r) -> exists r', std_standardize e atof address gr arg' locale filt = Ok (Some r').
Proof. exact more_behind. Qed.
Print Assumptions C134_more.
Example C134_more_example : uni_ok (e_uni ascii_env) /\ with_line_behind add_l0 saint_line w_lexicon rich_lexicon /\ is_entry add_l0 /\ given_as ascii_env w_lexicon w_lexicon /\ given_as ascii_env rich_lexicon rich_lexicon /\
  lexicon_of ascii_env w_lexicon w_x /\ lexicon_of ascii_env rich_lexicon rich_x /\ body_line ascii_env (x_locale w_x) saint_line saint_entry /\
  (exists d, class_of w_x (le_word saint_entry) d) /\ (forall c, In c (le_type saint_entry) -> In c (as_type w_filter) -> class_of w_x (le_word saint_entry) c) /\
  (forall a, In a [ATT_PRE; ATT_SUF] -> In a (le_att saint_entry) -> exists le', In le' (lex_find w_x (le_word saint_entry)) /\ In a (le_att le')) /\
  make_phrases ascii_env rich_x en w_filter w_addr = Ok rich_phs /\ Forall (fun ph => combinations ph <= 2 ^ 32) rich_phs /\
  exists r, std_standardize ascii_env sample_atof w_addr w_grammar w_lexicon en w_filter = Ok (Some r).
Proof. exact more_setting. Qed.
(** In front of the header a line of an entry is not accepted. *)
Theorem C134_front_refuted : exists e l le src src' x, with_line l src src' /\ load_lexicon e query_lex src = Ok x /\ body_line e (x_locale x) l le /\
  load_lexicon e query_lex src' = Throw (s2t "Lexicon-LexEntry-Before-Lexicon"%string).
Proof. exact front_line. Qed.
Print Assumptions C134_front_refuted.
(** A comment is not accepted behind the header. *)
Theorem C134_comment_refuted : exists e l0 src src' x m, with_line_behind l0 (s2t "# avenues"%string) src src' /\ is_entry l0 /\ load_lexicon e query_lex src = Ok x /\ load_lexicon e query_lex src' = Throw m.
Proof. exact note_behind. Qed.
Print Assumptions C134_comment_refuted.
