(** Properties of as_standardize, as_parse and as_match (properties.jsonl C14, C52, C53, C61-C65, and C56 for whole calls). *)
From Coq Require Import String List NArith ZArith Sorting.Permutation Floats.SpecFloat.
From Verif Require Import Base_model Class_model Float_model Uni_model Token_model Rule_model Search_model Grammar_model Lexicon_model
  Tokenizer_model Archive_model Wrapper_model Wrapper_spec Sample_model Search_spec Loaded_spec Lexicon_spec LexText_spec Tokenizer_spec
  Wrapper_proofs WrapperTop_proofs WrapperEx_proofs Bad_proofs.
Import ListNotations.
Local Open Scope string_scope.

(** ** C14 *)
(** Each column holds the standardized words of the best match whose output class belongs to it. *)
Theorem C14_columns : forall e g x locale filt address r, standardize_addr e g x locale filt address = Ok (Some r) ->
  exists phrases b ks, make_phrases e x locale filt address = Ok phrases /\ search_best g phrases = Ok b /\
    SFleb (S754_zero false) (b_score b) = true /\ Forall2 (fun k k' => standardize_word x k = Ok k') (b_tokens b) ks /\
    sa_fields r = map (fun c => content c (placed ks)) columns /\ sa_pattern r = b_matched b.
Proof. exact address_columns. Qed.
Print Assumptions C14_columns.
(** Standardizing changes neither the output classes nor the texts. *)
Theorem C14_classes_kept : forall x ks ks', Forall2 (fun k k' => standardize_word x k = Ok k') ks ks' -> map t_out ks' = map t_out ks /\ map t_text ks' = map t_text ks.
Proof. exact words_kept. Qed.
Print Assumptions C14_classes_kept.
(** A column is NULL exactly when no word belongs to it. *)
Theorem C14_null : forall c l, content c l = None <-> forall ow, In ow l -> column_of (fst ow) <> Some c.
Proof. exact content_null. Qed.
Print Assumptions C14_null.
(** A column can be an empty text instead of NULL. *)
Theorem C14_null_iff_empty_refuted : exists e atof gr lx locale filt address r,
  std_standardize e atof address gr lx locale filt = Ok (Some r) /\ In (Some []) (sa_fields r).
Proof. exact empty_field. Qed.
Print Assumptions C14_null_iff_empty_refuted.
(** It cannot if no token of the best match has an empty text. *)
Theorem C14_null_iff_empty_partial : forall e g x locale filt address r phrases b, standardize_addr e g x locale filt address = Ok (Some r) ->
  make_phrases e x locale filt address = Ok phrases -> search_best g phrases = Ok b -> (forall k, In k (b_tokens b) -> t_text k <> []) ->
  ~ In (Some []) (sa_fields r).
Proof. exact null_iff_empty. Qed.
Print Assumptions C14_null_iff_empty_partial.
Example C14_example : std_standardize ascii_env sample_atof w_addr w_grammar w_lexicon en w_filter =
  Ok (Some (mkStd [None; some "12"; None; None; None; some "MAIN"; some "STREET"; None; None; None; None; None; None; None; some "PO BOX 7"; None]
                  (s2t "NUMBER WORD TYPE BOXH NUMBER -> HOUSE STREET SUFTYP BOXH BOXT"))).
Proof. exact w_call. Qed.

(** ** C52 *)
(** No rows after an exception; otherwise row [n] is token [p] of pattern [a], where [n] counts all tokens before. *)
Theorem C52_rows : forall e x locale filt address rows, parse_table (parse_addr e x locale filt address) = Ok rows ->
  rows = [] /\ (exists m, make_phrases e x locale filt address = Throw m) \/
  exists phrases, make_phrases e x locale filt address = Ok phrases /\
    forall n r, nth_error rows n = Some r <->
      exists a p ph k, nth_error phrases a = Some ph /\ nth_error ph p = Some k /\ n = (before_count phrases a + p)%nat /\
        r = mkRow (N.of_nat (S a)) (N.of_nat (S n)) (t_text k) (iset_str (t_in k)) (aset_str (t_att k)).
Proof. exact parse_rows. Qed.
Print Assumptions C52_rows.
Theorem C52_increasing : forall e x locale filt address rows m n r s, parse_table (parse_addr e x locale filt address) = Ok rows ->
  (m < n)%nat -> nth_error rows m = Some r -> nth_error rows n = Some s -> (pr_seq r < pr_seq s)%N /\ (pr_pat r <= pr_pat s)%N.
Proof. exact rows_increase. Qed.
Print Assumptions C52_increasing.
Example C52_example : exists rows, parse_table (std_parse_address ascii_env w_addr w_lexicon en w_filter) = Ok rows /\
  map (fun r => (pr_pat r, pr_seq r, pr_word r)) rows =
  [(1, 1, s2t "12"); (1, 2, s2t "MAIN"); (1, 3, s2t "ST"); (1, 4, s2t "PO BOX"); (1, 5, s2t "7");
   (2, 6, s2t "12"); (2, 7, s2t "MAIN"); (2, 8, s2t "ST"); (2, 9, s2t "PO"); (2, 10, s2t "BOX"); (2, 11, s2t "7")]%N.
Proof. exact w_parse. Qed.

(** ** C40 *)
(** Misspelled rules are accepted, but with a lexicon that gives no word the class BADTOKEN a
    rule with a misspelled input name takes no part in a row.  Missing: rejection; misspelled
    output names; addresses with tabs, for which it is false (C40_misspelled_used_refuted). *)
Theorem C40_misspelled_unused_partial : forall e g x locale filt address r, is_loaded g -> built x -> plain_blank (e_uni e) ->
  ~ In TAB (search_text e x (prepared e locale address)) -> blank_lines (e_uni e) (search_text e x (prepared e locale address)) ->
  (forall w le, In le (lex_find x w) -> ~ In I_BADTOKEN (le_type le)) -> standardize_addr e g x locale filt address = Ok (Some r) ->
  exists phrases ph k rs ws, make_phrases e x locale filt address = Ok phrases /\ In ph phrases /\
    derives g [ADDRESS] k rs /\ chooses ph (rule_inputs rs) /\ standards x ph (rule_inputs rs) ws /\
    sa_fields r = map (fun c => content c (combine (rule_outputs rs) ws)) columns /\
    sa_pattern r = join [SP] (pattern_words (rule_inputs rs) (rule_outputs rs)) /\
    Forall (fun rl => ~ In I_BADTOKEN (r_in rl)) rs.
Proof. exact misspelled_unused. Qed.
Print Assumptions C40_misspelled_unused_partial.
Example C40_example : exists r, is_loaded bad_g /\ built w_x /\ plain_blank ascii_uni /\
  ~ In TAB (search_text ascii_env w_x (prepared ascii_env en (s2t "12 Main st"))) /\
  blank_lines ascii_uni (search_text ascii_env w_x (prepared ascii_env en (s2t "12 Main st"))) /\
  (forall w le, In le (lex_find w_x w) -> ~ In I_BADTOKEN (le_type le)) /\
  (exists sec rl, In sec (g_rules bad_g) /\ In rl (rs_rules sec) /\ In I_BADTOKEN (r_in rl)) /\
  standardize_addr ascii_env bad_g w_x en w_filter (s2t "12 Main st") = Ok (Some r) /\ nth_error (sa_fields r) 5 = Some (some "MAIN").
Proof. exact bad_example. Qed.

(** ** C53 *)
(** The first row of a pattern can have a number other than 1. *)
Theorem C53_position_refuted : exists e lx locale filt address rows n r, parse_table (std_parse_address e address lx locale filt) = Ok rows /\
  nth_error rows n = Some r /\ (forall m s, (m < n)%nat -> nth_error rows m = Some s -> pr_pat s <> pr_pat r) /\ pr_seq r <> 1%N.
Proof. exact seq_not_position. Qed.
Print Assumptions C53_position_refuted.
(** In the first pattern it is the position.  Later patterns continue the count (C52). *)
Theorem C53_position_partial : forall e x locale filt address rows n r, parse_table (parse_addr e x locale filt address) = Ok rows ->
  nth_error rows n = Some r -> pr_pat r = 1%N -> pr_seq r = N.of_nat (S n) /\
    exists first phrases k, make_phrases e x locale filt address = Ok (first :: phrases) /\ nth_error first n = Some k /\ pr_word r = t_text k.
Proof. exact first_pattern. Qed.
Print Assumptions C53_position_partial.

(** ** C61 *)
(** The row comes from a derivation of one of the tokenizations. *)
Theorem C61_derived : forall e g x locale filt address r, is_loaded g -> standardize_addr e g x locale filt address = Ok (Some r) ->
  exists phrases ph k rs ws, make_phrases e x locale filt address = Ok phrases /\ In ph phrases /\
    derives g [ADDRESS] k rs /\ chooses ph (rule_inputs rs) /\ (k <= List.length ph + 2)%nat /\ standards x ph (rule_inputs rs) ws /\
    sa_fields r = map (fun c => content c (combine (rule_outputs rs) ws)) columns /\
    sa_pattern r = join [SP] (pattern_words (rule_inputs rs) (rule_outputs rs)).
Proof. exact row_sound. Qed.
Print Assumptions C61_derived.
(** No derivation of any tokenization has a higher average. *)
Theorem C61_best : forall e g x locale filt address r phrases, is_loaded g -> no_nan_scores g -> Forall (sizes_ok g) phrases ->
  make_phrases e x locale filt address = Ok phrases -> standardize_addr e g x locale filt address = Ok (Some r) ->
  exists ph k rs ws, In ph phrases /\ derives g [ADDRESS] k rs /\ chooses ph (rule_inputs rs) /\ (k <= List.length ph + 2)%nat /\
    standards x ph (rule_inputs rs) ws /\
    sa_fields r = map (fun c => content c (combine (rule_outputs rs) ws)) columns /\
    sa_pattern r = join [SP] (pattern_words (rule_inputs rs) (rule_outputs rs)) /\
    forall ph' k' rs', In ph' phrases -> (combinations ph' <= 2 ^ 32)%N -> derives g [ADDRESS] k' rs' -> chooses ph' (rule_inputs rs') ->
      (k' <= List.length ph' + 2)%nat -> SFltb (average32 rs) (average32 rs') = false.
Proof. exact row_best. Qed.
Print Assumptions C61_best.
Example C61_example : is_loaded w_g /\ no_nan_scores w_g /\
  (exists ks alts, get_tokens ascii_env (mkTz w_x (as_type w_filter)) (prepared ascii_env en w_addr) = Ok ks /\ (phrases ks <= 31)%nat /\
  get_alt_tokens ascii_uni w_x ks = Ok alts /\ List.length alts = 1%nat /\ Forall (sizes_ok w_g) (ks :: alts) /\ make_phrases ascii_env w_x en w_filter w_addr = Ok (ks :: alts)) /\
  standardize_addr ascii_env w_g w_x en w_filter w_addr =
  Ok (Some (mkStd [None; some "12"; None; None; None; some "MAIN"; some "STREET"; None; None; None; None; None; None; None; some "PO BOX 7"; None]
                  (s2t "NUMBER WORD TYPE BOXH NUMBER -> HOUSE STREET SUFTYP BOXH BOXT"))).
Proof. exact (conj w_g_loaded (conj w_g_scores (conj w_tokens w_direct))). Qed.

(** ** C62 *)
Theorem C62_answers : forall e g x locale filt address, is_loaded g -> no_nan_scores g -> built x -> simple_words x ->
  blank_lines (e_uni e) (search_text e x (prepared e locale address)) ->
  exists ks, get_tokens e (mkTz x (as_type filt)) (prepared e locale address) = Ok ks /\
    ((phrases ks <= 31)%nat -> exists alts, get_alt_tokens (e_uni e) x ks = Ok alts /\
      (Forall (sizes_ok g) (ks :: alts) -> exists o, standardize_addr e g x locale filt address = Ok o /\
        (o <> None -> exists ph k rs, In ph (ks :: alts) /\ matches g ADDRESS ph k rs) /\
        (o = None -> forall ph k rs, In ph (ks :: alts) -> (combinations ph <= 2 ^ 32)%N -> (k <= List.length ph + 2)%nat -> ~ matches g ADDRESS ph k rs))).
Proof. exact answer_total. Qed.
Print Assumptions C62_answers.
Example C62_example : is_loaded w_g /\ no_nan_scores w_g /\ built w_x /\ simple_words w_x /\
  blank_lines ascii_uni (search_text ascii_env w_x (prepared ascii_env en w_addr)) /\
  standardize_addr ascii_env w_g w_x en w_filter (s2t "Main 12") = Ok None.
Proof. exact (conj w_g_loaded (conj w_g_scores (conj w_x_built (conj w_x_simple (conj w_lines_blank w_nothing))))). Qed.

(** ** C63 *)
(** Patterns stored while other addresses were tokenized make no difference. *)
Theorem C63_history : forall e g x h locale filt address, Forall asks h ->
  standardize_addr e g (run x h) locale filt address = standardize_addr e g x locale filt address /\
  parse_addr e (run x h) locale filt address = parse_addr e x locale filt address /\
  forall sort, match_addr e sort g (run x h) locale filt address = match_addr e sort g x locale filt address.
Proof. exact warm_results. Qed.
Print Assumptions C63_history.
Example C63_example : Forall asks [Regex; Suf; Pre] /\ x_regex w_x = [] /\ x_regex (run w_x [Regex; Suf; Pre]) <> [].
Proof. split; [repeat constructor|]. split; [vm_compute; reflexivity|vm_compute; discriminate]. Qed.

(** ** C64 *)
Theorem C64_row : forall o row, address_row o = Ok row ->
  (exists a, o = Ok (Some a) /\ row = (sa_fields a ++ [Some (sa_pattern a)])%list) \/ ((o = Ok None \/ exists m, o = Throw m) /\ row = repeat None 17).
Proof. exact row_shape. Qed.
Print Assumptions C64_row.
Example C64_example : address_row (standardize_addr ascii_env w_g w_x en w_filter (s2t "Main 12")) = Ok (repeat None 17).
Proof. rewrite w_nothing. reflexivity. Qed.

(** ** C65 *)
Theorem C65_rows : forall e sort g x locale filt address phrases, is_loaded g -> make_phrases e x locale filt address = Ok phrases ->
  (forall rows, search_all g phrases = Ok rows -> sorted_rows rows (sort rows)) ->
  exists found rows out, Forall2 (fun ph ps => search g ph = Ok ps) phrases found /\ match_addr e sort g x locale filt address = Ok out /\
    sorted_rows rows out /\ out <> [] /\
    (List.concat found = [] -> out = [mkMR (s2t "Failed to match to grammar!") f64_m1 f64_m1]) /\
    (List.concat found <> [] -> Forall2 (fun p row => reports (p_rules p) (m_matched row) (m_score row) (m_nrules row)) (List.concat found) rows).
Proof. exact match_rows. Qed.
Print Assumptions C65_rows.
Example C65_example : let address := s2t "12 Main" in is_loaded w_g3 /\ exists phrases r1 r2, make_phrases ascii_env w_x en w_filter address = Ok phrases /\
  (forall rows, search_all w_g3 phrases = Ok rows -> sorted_rows rows (by_score rows)) /\
  match_addr ascii_env by_score w_g3 w_x en w_filter address = Ok [r1; r2] /\
  m_matched r1 = s2t "NUMBER WORD -> POSTAL CITY" /\ m_matched r2 = s2t "NUMBER WORD -> HOUSE STREET".
Proof. exact (conj w_g3_loaded w_match). Qed.

(** ** C56 for whole calls *)
Theorem C56_same_results : forall e d src a, serialize_lexicon e src = Ok a ->
  exists x y, load_lexicon e query_lex src = Ok x /\ get_lexicon d a = Ok y /\
    forall c g locale filt address,
      standardize_addr c g y locale filt address = standardize_addr c g x locale filt address /\
      parse_addr c y locale filt address = parse_addr c x locale filt address /\
      forall sort, match_addr c sort g y locale filt address = match_addr c sort g x locale filt address.
Proof. exact compiled_results. Qed.
Print Assumptions C56_same_results.
Example C56_same_example : serialize_lexicon ascii_env w_lexicon = Ok w_archive /\
  std_standardize ascii_env sample_atof w_addr w_grammar w_archive en w_filter = std_standardize ascii_env sample_atof w_addr w_grammar w_lexicon en w_filter.
Proof. exact w_compiled. Qed.
