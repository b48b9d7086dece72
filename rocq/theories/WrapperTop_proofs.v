(** From the address to the row (C61-C65). *)
From Coq Require Import String List NArith ZArith Bool Lia Sorting.Permutation Floats.SpecFloat.
From Verif Require Import Base_model Class_model Float_model Uni_model Token_model Rule_model Search_model Grammar_model Regex_model Trie_model Lexicon_model
  Tokenizer_model Archive_model Wrapper_model Wrapper_spec Sample_model Search_spec Loaded_spec Lexicon_spec LexText_spec Tokenizer_spec
  Search_proofs SearchTop_proofs SearchBest_proofs Pattern_proofs Loaded_proofs Classify_proofs LexMap_proofs LexSame_proofs Trie_proofs
  TrieRegex_proofs TrieWords_proofs TrieLang_proofs TokParse_proofs Match_proofs TokMatch_proofs TokScan_proofs TokRead_proofs TokPieces_proofs TokSplit_proofs
  Archive_spec Archive_proofs Wrapper_proofs.
Import ListNotations.

(** ** The best match *)
Lemma best_loop_from : forall g phrases cur b, search_best_loop g cur phrases = Ok b -> b = cur \/ exists ph, In ph phrases /\ search_best1 g [] ph = Ok b.
Proof.
  induction phrases as [|ph phs IH]; intros cur b H; cbn [search_best_loop] in H; [injection H as <-; left; reflexivity|].
  destruct (search_best1 g [] ph) as [r| |] eqn:E; cbn [obind] in H; try discriminate. apply IH in H.
  destruct H as [->|(ph' & I & H)]; [|right; exists ph'; split; [right; exact I|exact H]].
  destruct (f_lt _ _); [right; exists ph; split; [left; reflexivity|exact E]|left; reflexivity].
Qed.
Lemma best_step_in : forall l st, In (fst (fst (fold_left best_step l st))) (fst (fst st) :: l).
Proof.
  induction l as [|p l IH]; intros st; [left; reflexivity|]. cbn [fold_left]. destruct (IH (best_step st p)) as [H|H]; [|right; right; exact H].
  rewrite <- H. destruct st as [[b sc] nr]. unfold best_step. destruct (f_lt sc (avg32 p)); cbn [fst]; [right; left; reflexivity|left; reflexivity].
Qed.
Lemma best1_from : forall g old ph b, search_best1 g old ph = Ok b -> f_le f_zero (b_score b) = true ->
  exists ps p, search g ph = Ok ps /\ In p ps /\ reclass_tokens ph p = Ok (b_tokens b, true) /\ b_matched b = pattern_str (b_tokens b).
Proof.
  intros g old ph b H L. unfold search_best1 in H. destruct (search g ph) as [ps| |] eqn:E; cbn [obind] in H; try discriminate.
  destruct ps as [|p0 ps]; [injection H as <-; discriminate L|]. pose proof (best_step_in (p0 :: ps) (p0, f_zero, f32_m1)) as I.
  fold (select_best p0 (p0 :: ps)) in I. destruct (select_best p0 (p0 :: ps)) as [[q sc] nr]. cbn [fst] in I.
  destruct (reclass_tokens ph q) as [[ts ok]| |] eqn:R; cbn [obind] in H; try discriminate. destruct ok; injection H as <-; [|discriminate L].
  exists (p0 :: ps), q. split; [reflexivity|]. split; [destruct I as [<-|I]; [left; reflexivity|exact I]|]. split; [exact R|reflexivity].
Qed.
Lemma best_from : forall g phrases b, search_best g phrases = Ok b -> f_le f_zero (b_score b) = true ->
  exists ph ps p, In ph phrases /\ search g ph = Ok ps /\ In p ps /\ reclass_tokens ph p = Ok (b_tokens b, true) /\ b_matched b = pattern_str (b_tokens b).
Proof.
  intros g phrases b H L. apply best_loop_from in H. destruct H as [->|(ph & I & H)]; [discriminate L|].
  destruct (best1_from _ _ _ _ H L) as (ps & p & A). exists ph, ps, p. auto.
Qed.

(** ** Standard words *)
Lemma find_split : forall A (f : A -> bool) l, (exists l1 y l2, l = l1 ++ y :: l2 /\ f y = true /\ forall z, In z l1 -> f z = false) \/ forall z, In z l -> f z = false.
Proof.
  induction l as [|a l IH]; [right; intros z []|]. destruct (f a) eqn:E; [left; exists [], a, l; repeat split; [exact E|intros z []]|].
  destruct IH as [(l1 & y & l2 & -> & Y & Z)|Z]; [left; exists (a :: l1), y, l2|right].
  - split; [reflexivity|]. split; [exact Y|]. intros z [<-|I]; [exact E|apply Z; exact I].
  - intros z [<-|I]; [exact E|apply Z; exact I].
Qed.
Lemma standard_one : forall x k q c q', standardize_word x q = Ok q' -> t_in q = [c] -> t_text q = t_text k -> t_std q = t_std k -> standard_of x k c (t_std q').
Proof.
  intros x k q c q' H I T D. destruct (standard_word x q c I) as (r & R & _ & _ & _ & R1 & R2). rewrite H in R. injection R as <-. rewrite T in *. rewrite D in *.
  destruct (find_split _ (fun le => iset_mem c (le_type le)) (lex_find x (t_text k))) as [(l1 & y & l2 & E & Y & Z)|Z].
  - left. exists l1, y, l2. split; [exact E|]. rewrite iset_mem_In in Y. split; [exact Y|].
    assert (Z' : forall f, In f l1 -> ~ In c (le_type f)). { intros f J K. apply iset_mem_In in K. rewrite (Z f J) in K. discriminate. }
    split; [exact Z'|]. rewrite (R1 l1 y l2 E Y Z'). destruct (le_std y); reflexivity.
  - right. assert (Z' : forall f, In f (lex_find x (t_text k)) -> ~ In c (le_type f)). { intros f J K. apply iset_mem_In in K. rewrite (Z f J) in K. discriminate. }
    split; [exact Z'|]. rewrite (R2 Z'). destruct (t_std k); reflexivity.
Qed.
Lemma standards_all : forall x qs qs', Forall2 (fun q q' => standardize_word x q = Ok q') qs qs' -> forall ks cs, map t_in qs = map (fun c => [c]) cs ->
  map t_text qs = map t_text ks -> map t_std qs = map t_std ks -> standards x ks cs (map t_std qs').
Proof.
  intros x qs qs' F. induction F as [|q q' qs qs' H F IH]; intros ks cs I T D; destruct ks as [|k ks]; try discriminate T; destruct cs as [|c cs]; try discriminate I; [constructor|].
  cbn [map] in *. injection I as I1 I2. injection T as T1 T2. injection D as D1 D2. constructor; [eapply standard_one; eauto|apply IH; assumption].
Qed.
Lemma combine_placed : forall ks, combine (map t_out ks) (map t_std ks) = placed ks.
Proof. induction ks as [|k ks IH]; [reflexivity|]. cbn [map combine placed]. f_equal. exact IH. Qed.

(** ** The row comes from a derivation *)
Lemma row_sound : forall e g x locale filt address r, is_loaded g -> standardize_addr e g x locale filt address = Ok (Some r) ->
  exists phrases ph k rs ws, make_phrases e x locale filt address = Ok phrases /\ In ph phrases /\
    derives g [ADDRESS] k rs /\ chooses ph (rule_inputs rs) /\ (k <= List.length ph + 2)%nat /\ standards x ph (rule_inputs rs) ws /\
    sa_fields r = map (fun c => content c (combine (rule_outputs rs) ws)) columns /\
    sa_pattern r = join [SP] (pattern_words (rule_inputs rs) (rule_outputs rs)).
Proof.
  intros e g x locale filt address r HL H. apply address_columns in H. destruct H as (phrases & b & ks & P & B & L & F & E & EP).
  destruct (best_from _ _ _ B L) as (ph & ps & p & I & S' & J & R & M).
  destruct (search_sound g ADDRESS ph ps p (loaded_linked g HL) S' J) as (k & (D & C) & K).
  destruct (reclass_faithful g ADDRESS ph ps p (loaded_linked g HL) (loaded_balanced g HL) S' J) as (ts & R' & T1 & T2 & _ & _ & T3 & _ & T4).
  rewrite R in R'. injection R' as <-. exists phrases, ph, k, (p_rules p), (map t_std ks). do 5 (split; [assumption|]). split.
  - eapply standards_all; [exact F|assumption..].
  - split; [|rewrite EP, M, (pattern_str_spec _ _ T3), T4; reflexivity]. rewrite E. apply map_ext. intros c.
    destruct (words_kept _ _ _ F) as (O & _). rewrite <- T4, <- O, combine_placed. reflexivity.
Qed.

(** ** It is the best one *)
Lemma Forall2_left : forall A B (R : A -> B -> Prop) l l' a, Forall2 R l l' -> In a l -> exists b, In b l' /\ R a b.
Proof. intros A B R l l' a F. induction F as [|a0 b0 l l' H F IH]; intros I; [destruct I|]. destruct I as [<-|I]; [exists b0; split; [left; reflexivity|exact H]|].
  destruct (IH I) as (b & J & K). exists b. split; [right; exact J|exact K]. Qed.
Lemma Forall2_right : forall A B (R : A -> B -> Prop) l l' b, Forall2 R l l' -> In b l' -> exists a, In a l /\ R a b.
Proof. intros A B R l l' b F. induction F as [|a0 b0 l l' H F IH]; intros I; [destruct I|]. destruct I as [<-|I]; [exists a0; split; [left; reflexivity|exact H]|].
  destruct (IH I) as (a & J & K). exists a. split; [right; exact J|exact K]. Qed.
Lemma row_best : forall e g x locale filt address r phrases, is_loaded g -> no_nan_scores g -> Forall (sizes_ok g) phrases ->
  make_phrases e x locale filt address = Ok phrases -> standardize_addr e g x locale filt address = Ok (Some r) ->
  exists ph k rs ws, In ph phrases /\ derives g [ADDRESS] k rs /\ chooses ph (rule_inputs rs) /\ (k <= List.length ph + 2)%nat /\
    standards x ph (rule_inputs rs) ws /\
    sa_fields r = map (fun c => content c (combine (rule_outputs rs) ws)) columns /\
    sa_pattern r = join [SP] (pattern_words (rule_inputs rs) (rule_outputs rs)) /\
    forall ph' k' rs', In ph' phrases -> (combinations ph' <= 2 ^ 32)%N -> derives g [ADDRESS] k' rs' -> chooses ph' (rule_inputs rs') ->
      (k' <= List.length ph' + 2)%nat -> SFltb (average32 rs) (average32 rs') = false.
Proof.
  intros e g x locale filt address r phrases HL HN HS P H. apply address_columns in H. destruct H as (phrases' & b & ks & P' & B & L & F & E & EP).
  rewrite P in P'. injection P' as <-. assert (SO := loaded_search_ok g HL HN).
  assert (X : exists ph ps p, In ph phrases /\ search g ph = Ok ps /\ In p ps /\ reclass_tokens ph p = Ok (b_tokens b, true) /\
     b_matched b = pattern_str (b_tokens b) /\ b_score b = average32 (p_rules p)).
  { pose proof B as B'. apply best_loop_from in B'. destruct B' as [->|(ph & I & B')]; [discriminate L|].
    destruct (best1_from _ _ _ _ B' L) as (ps & p0 & S' & I0 & _).
    destruct (best1_some g [] ph ps SO) as (p & ts & nr & FM & R & Q & _); [rewrite Forall_forall in HS; apply HS; exact I|exact S'|intros ->; destruct I0|].
    rewrite B' in Q. injection Q as ->. exists ph, ps, p. split; [exact I|]. split; [exact S'|]. split; [eapply first_max_In; exact FM|].
    split; [exact R|]. split; reflexivity. }
  destruct X as (ph & ps & p & I & S' & J & R & M & SC).
  destruct (search_sound g ADDRESS ph ps p (loaded_linked g HL) S' J) as (k & (D & C) & K).
  destruct (reclass_faithful g ADDRESS ph ps p (loaded_linked g HL) (loaded_balanced g HL) S' J) as (ts & R' & T1 & T2 & _ & _ & T3 & _ & T4).
  rewrite R in R'. injection R' as <-. exists ph, k, (p_rules p), (map t_std ks). do 4 (split; [assumption|]).
  split; [eapply standards_all; [exact F|assumption..]|].
  split. { rewrite E. apply map_ext. intros c. destruct (words_kept _ _ _ F) as (O & _). rewrite <- T4, <- O, combine_placed. reflexivity. }
  split; [rewrite EP, M, (pattern_str_spec _ _ T3), T4; reflexivity|].
  intros ph' k' rs' I' CB D' C' K'.
  destruct (search_all_spec g phrases (loaded_linked g HL) (loaded_balanced g HL) (loaded_address g HL)) as (f0 & rows & _ & A & _).
  destruct (best_is_row g phrases b rows SO HS B L A) as (_ & _ & found & FF & _ & _ & _ & _ & _ & _ & MX).
  rewrite <- SC. destruct (search_complete g ADDRESS ph' k' rs' (loaded_linked g HL) CB (conj D' C') K') as (ps' & p' & S2 & J2 & <-).
  apply MX. destruct (Forall2_left _ _ _ _ _ _ FF I') as (ps2 & I2 & S3). change (search g ph') with (search_node g ADDRESS ph') in S3. rewrite S2 in S3. injection S3 as <-. apply in_concat. exists ps'. auto.
Qed.

(** ** There is always an answer *)
Lemma collect_defined : forall x ks v, (forall k, In k ks -> exists c, t_in k = [c]) -> exists v', collect x v ks = Ok v'.
Proof.
  induction ks as [|k ks IH]; intros v H; [eexists; reflexivity|]. cbn [collect]. destruct (H k (or_introl eq_refl)) as (c & E).
  destruct (standard_word x k c E) as (k' & -> & _). cbn [obind]. apply IH. intros q I. apply H. right. exact I.
Qed.
Lemma answered : forall e g x locale filt address phrases, is_loaded g -> no_nan_scores g -> Forall (sizes_ok g) phrases ->
  make_phrases e x locale filt address = Ok phrases ->
  exists o, standardize_addr e g x locale filt address = Ok o /\
    (o = None <-> forall ph ps, In ph phrases -> search g ph = Ok ps -> ps = []).
Proof.
  intros e g x locale filt address phrases HL HN HS P. assert (SO := loaded_search_ok g HL HN).
  destruct (best_score_sign g phrases SO HS) as (b & B & SG). unfold standardize_addr. rewrite P. cbn [obind]. rewrite B. cbn [obind].
  destruct (f_le f_zero (b_score b)) eqn:L.
  - destruct (best_from _ _ _ B L) as (ph & ps & p & I & S' & J & R & M).
    destruct (reclass_faithful g ADDRESS ph ps p (loaded_linked g HL) (loaded_balanced g HL) S' J) as (ts & R' & _ & _ & _ & _ & T3 & _ & _).
    rewrite R in R'. injection R' as <-. destruct (collect_defined x (b_tokens b) (repeat [] 16)) as (v & V).
    { intros k IK. apply (in_map t_in) in IK. rewrite T3 in IK. apply in_map_iff in IK. destruct IK as (c & <- & _). exists c. reflexivity. }
    rewrite V. cbn [obind]. eexists. split; [reflexivity|]. split; [discriminate|]. intros N. specialize (N ph ps I S'). subst ps. destruct J.
  - exists None. split; [reflexivity|]. split; [|reflexivity]. intros _ ph ps I S'. destruct ps as [|p ps]; [reflexivity|exfalso].
    assert (false = true) by (apply SG; exists ph, (p :: ps); repeat split; [exact I|exact S'|discriminate]). discriminate.
Qed.

(** ** Tokenizing succeeds *)
Lemma trie_parses : forall ws, all_words plain_char ws -> exists l, parses (get_regexp (trie_of ws)) l.
Proof.
  intros ws H. destruct (existsb (fun w : text => match w with [] => false | _ => true end) ws) eqn:E.
  - apply existsb_exists in E. destruct E as (w & I & N). destruct (words_lang ascii_uni false plain_char ws) as (l & L & _); [auto|exact H|exists w; split; [exact I|destruct w; [discriminate|discriminate]]|].
    exists l. exact L.
  - exists [(REmpty, true)]. rewrite empty_trie; [apply parses_none|]. intros w I. destruct w as [|c w]; [reflexivity|exfalso].
    assert (existsb (fun w : text => match w with [] => false | _ => true end) ws = true) by (apply existsb_exists; exists (c :: w); auto). congruence.
Qed.
Lemma att_plain : forall x f, simple_words x -> lex_wf (x_lex x) -> all_words plain_char (att_words f (x_lex x)).
Proof.
  intros x f S' W w I c J. unfold att_words in I. apply in_flat_map in I. destruct I as (kv & I & K). apply in_map_iff in K. destruct K as (le & <- & _).
  apply (S' (fst kv) c); [|exact J]. apply listed_in; [exact W|]. apply in_map. exact I.
Qed.
Lemma pre_parses : forall T l, parses (get_regexp T) l -> parse_re (s2t "(" ++ (s2t "^" ++ get_regexp T ++ s2t "\B") ++ s2t ")(.+)") <> None.
Proof.
  intros T l H. unfold parse_re.
  change (parse_go 0 MNormal (s2t "(" ++ (s2t "^" ++ get_regexp T ++ s2t "\B") ++ s2t ")(.+)") p_start) with
    (parse_go 0 MNormal ((get_regexp T ++ s2t "\B") ++ s2t ")(.+)") (mkP [(RBol, false)] [] [(GCap 1, [], [])] 1)).
  rewrite <- app_assoc, H. discriminate.
Qed.
Lemma suf_parses : forall T l, parses (get_regexp T) l -> parse_re (s2t "(.+)(" ++ get_regexp T ++ s2t ")") <> None.
Proof.
  intros T l H. unfold parse_re.
  assert (F : forall t, no_mark t -> parse_go 0 MNormal (s2t "(.+)(" ++ t) p_start =
    parse_go 0 MNormal t (mkP [] [] [(GCap 2, [(RCap 1 rest_re, true)], [])] 2)).
  { intros t M. change (parse_go 0 MNormal (s2t "(.+)(" ++ t) p_start) with
      (match starts_with (s2t "?:") t, starts_with (s2t "?!") t, starts_with (s2t "?") t with
       | Some _, _, _ => parse_go 2 MNormal t (mkP [] [] [(GPlain, [(RCap 1 rest_re, true)], [])] 1)
       | _, Some _, _ => parse_go 2 MNormal t (mkP [] [] [(GNot, [(RCap 1 rest_re, true)], [])] 1)
       | _, _, Some _ => None
       | None, None, None => parse_go 0 MNormal t (mkP [] [] [(GCap 2, [(RCap 1 rest_re, true)], [])] 2)
       end).
    destruct t as [|c t]; [reflexivity|]. simpl in M.
    assert (K : forall p, starts_with (63%N :: p) (c :: t) = None).
    { intros p. cbn [starts_with]. replace (63 =? c)%N with false by (symmetry; apply N.eqb_neq; congruence). reflexivity. }
    change (s2t "?:") with (63%N :: [58%N]). change (s2t "?!") with (63%N :: [33%N]). change (s2t "?") with (63%N :: []). rewrite !K. reflexivity. }
  rewrite F by (apply mark_app2; [apply trie_mark|discriminate]). rewrite H. discriminate.
Qed.
Lemma split_defined : forall u x k, built x -> simple_words x -> exists ks, split_token u x k = Ok ks.
Proof.
  intros u x k B S'. apply built_ok in B. destruct B as (W & C). destruct (patterns_of x C) as (_ & E1 & E2).
  unfold split_token, split_parts. destruct (is_in_class k I_MIXED); [eexists; reflexivity|]. rewrite E1, E2. unfold make_pre, make_suf, two_groups.
  destruct (trie_parses _ (att_plain x is_prefix_att S' W)) as (l1 & L1). destruct (trie_parses _ (att_plain x is_suffix_att S' W)) as (l2 & L2).
  pose proof (pre_parses _ _ L1) as P1. pose proof (suf_parses _ _ L2) as P2.
  destruct (parse_re (s2t "(" ++ _)) as [r1|]; [|congruence]. destruct (parse_re (s2t "(.+)(" ++ _)) as [r2|]; [|congruence].
  cbn [obind]. destruct (match match_all u false r1 (t_text k) with Some s => _ | None => _ end) as (a, b).
  destruct (match match_all u false r2 (t_text k) with Some s => _ | None => _ end) as (c, d).
  destruct a; [destruct d; eexists; reflexivity|]. repeat match goal with |- context [if ?q then _ else _] => destruct q end; eexists; reflexivity.
Qed.
Lemma tokens_ok : forall e x str, built x -> simple_words x -> blank_lines (e_uni e) (search_text e x str) -> exists ks, all_tokens e x str = Ok ks.
Proof.
  intros e x str B S' BL. unfold all_tokens. destruct (pieces_end e x str B BL) as [K|(ps & E & _)]; [exfalso; exact (simple_no_throw e x str B S' K)|].
  rewrite E. cbn [obind]. clear E. induction ps as [|p ps (rest & IH)]; [eexists; reflexivity|]. cbn [piece_tokens].
  assert (W : exists ks, word_tokens (e_uni e) x (pc_tok p) = Ok ks).
  { unfold word_tokens. destruct (pc_tok p); [eexists; reflexivity|]. cbv zeta. destruct (t_inlex _); [eexists; reflexivity|].
    destruct (split_defined (e_uni e) x (classify (e_uni e) x (token_of_text (n :: t)) I_WORD) B S') as (ks & ->). cbn [obind]. eexists. reflexivity. }
  destruct W as (ks & ->). cbn [obind]. rewrite IH. cbn [obind]. eexists. reflexivity.
Qed.
Lemma phrases_ok : forall e x locale filt address, built x -> simple_words x -> blank_lines (e_uni e) (search_text e x (prepared e locale address)) ->
  exists ks, get_tokens e (mkTz x (as_type filt)) (prepared e locale address) = Ok ks /\
    ((phrases ks <= 31)%nat -> exists alts, make_phrases e x locale filt address = Ok (ks :: alts)).
Proof.
  intros e x locale filt address B S' BL. destruct (tokens_ok e x _ B S' BL) as (all & A). unfold make_phrases, get_tokens, set_filter. cbn [z_lex z_filter].
  rewrite A. cbn [obind]. eexists. split; [reflexivity|]. intros PH. unfold get_alt_tokens. destruct (phrases _) as [|n]; [eexists; reflexivity|].
  replace (Nat.ltb 31 (S n)) with false by (symmetry; apply Nat.ltb_ge; exact PH). cbn [obind]. eexists. reflexivity.
Qed.

(** ** Stored patterns do not matter *)
Lemma ask_same : forall h x, Forall asks h -> x_lex (run x h) = x_lex x /\ x_locale (run x h) = x_locale x /\
  fst (lex_regex (run x h)) = fst (lex_regex x) /\ fst (lex_pre (run x h)) = fst (lex_pre x) /\ fst (lex_suf (run x h)) = fst (lex_suf x).
Proof.
  induction h as [|o h IH]; intros x H; [auto|]. inversion H as [|? ? H1 H2]; subst. cbn [run fold_left]. change (fold_left Lexicon_spec.step h (Lexicon_spec.step x o)) with (run (Lexicon_spec.step x o) h).
  destruct (IH (Lexicon_spec.step x o) H2) as (-> & -> & -> & -> & ->). apply asked_patterns. destruct o; try destruct H1; cbn [Lexicon_spec.step]; auto.
Qed.
Lemma same_phrases : forall e x y locale filt address, x_lex x = x_lex y -> x_locale x = x_locale y ->
  fst (lex_regex x) = fst (lex_regex y) /\ fst (lex_pre x) = fst (lex_pre y) /\ fst (lex_suf x) = fst (lex_suf y) ->
  make_phrases e x locale filt address = make_phrases e y locale filt address.
Proof.
  intros e x y locale filt address W L P3. unfold make_phrases, set_filter. cbn [z_lex]. rewrite (same_tokens x y W L P3).
  destruct (get_tokens e _ _) as [ks| |]; [|reflexivity|reflexivity]. cbn [obind]. rewrite (same_alts x y W). reflexivity.
Qed.
Lemma same_collect : forall x y ks v, x_lex x = x_lex y -> collect x v ks = collect y v ks.
Proof.
  intros x y ks v W. revert v. induction ks as [|k ks IH]; intros v; [reflexivity|]. cbn [collect]. rewrite (same_standardize x y W).
  destruct (standardize_word y k); [|reflexivity|reflexivity]. cbn [obind]. apply IH.
Qed.
Lemma warm_results : forall e g x h locale filt address, Forall asks h ->
  standardize_addr e g (run x h) locale filt address = standardize_addr e g x locale filt address /\
  parse_addr e (run x h) locale filt address = parse_addr e x locale filt address /\
  forall sort, match_addr e sort g (run x h) locale filt address = match_addr e sort g x locale filt address.
Proof.
  intros e g x h locale filt address H. destruct (ask_same h x H) as (W & L & P3).
  assert (P := same_phrases e (run x h) x locale filt address W L P3). unfold standardize_addr, parse_addr, match_addr. rewrite P. split; [|split; reflexivity].
  destruct (make_phrases e x locale filt address) as [ph| |]; [|reflexivity|reflexivity]. cbn [obind].
  destruct (search_best g ph) as [b| |]; [|reflexivity|reflexivity]. cbn [obind]. rewrite (same_collect (run x h) x _ _ W). reflexivity.
Qed.

(** ** Compiled lexicons *)
Lemma compiled_results : forall e d src a, serialize_lexicon e src = Ok a ->
  exists x y, load_lexicon e query_lex src = Ok x /\ get_lexicon d a = Ok y /\
    forall c g locale filt address,
      standardize_addr c g y locale filt address = standardize_addr c g x locale filt address /\
      parse_addr c y locale filt address = parse_addr c x locale filt address /\
      forall sort, match_addr c sort g y locale filt address = match_addr c sort g x locale filt address.
Proof.
  intros e d src a H. destruct (compile_same e d src a H) as (x & y & L & G & _ & T1 & T2 & _ & T4).
  exists x, y. split; [exact L|]. split; [exact G|]. intros c g locale filt address.
  assert (P : make_phrases c y locale filt address = make_phrases c x locale filt address).
  { unfold make_phrases, set_filter. cbn [z_lex]. rewrite <- T1. destruct (get_tokens c _ _) as [ks| |]; [|reflexivity|reflexivity]. cbn [obind]. rewrite <- T2. reflexivity. }
  assert (Q : forall ks v, collect y v ks = collect x v ks).
  { induction ks as [|k ks IH]; intros v; [reflexivity|]. cbn [collect]. rewrite T4. destruct (standardize_word y k); [|reflexivity|reflexivity]. apply IH. }
  unfold standardize_addr, parse_addr, match_addr. rewrite P. split; [|split; reflexivity].
  destruct (make_phrases c x locale filt address) as [ph| |]; [|reflexivity|reflexivity]. cbn [obind].
  destruct (search_best g ph) as [b| |]; [|reflexivity|reflexivity]. cbn [obind]. rewrite Q. reflexivity.
Qed.

(** ** The rows of as_match *)
Lemma match_rows : forall e sort g x locale filt address phrases, is_loaded g -> make_phrases e x locale filt address = Ok phrases ->
  (forall rows, search_all g phrases = Ok rows -> sorted_rows rows (sort rows)) ->
  exists found rows out, Forall2 (fun ph ps => search g ph = Ok ps) phrases found /\ match_addr e sort g x locale filt address = Ok out /\
    sorted_rows rows out /\ out <> [] /\
    (List.concat found = [] -> out = [mkMR (s2t "Failed to match to grammar!") f64_m1 f64_m1]) /\
    (List.concat found <> [] -> Forall2 (fun p row => reports (p_rules p) (m_matched row) (m_score row) (m_nrules row)) (List.concat found) rows).
Proof.
  intros e sort g x locale filt address phrases HL P HS.
  destruct (search_all_spec g phrases (loaded_linked g HL) (loaded_balanced g HL) (loaded_address g HL)) as (found & rows & F & A & R0 & R1).
  exists found, rows, (sort rows). split; [exact F|]. unfold match_addr. rewrite P. cbn [obind]. rewrite A. cbn [obind]. split; [reflexivity|].
  specialize (HS rows A). split; [exact HS|]. destruct HS as (PM & _).
  assert (NE : rows <> []).
  { destruct (List.concat found) as [|p l]; [rewrite R0 by reflexivity; discriminate|]. specialize (R1 ltac:(discriminate)). inversion R1. discriminate. }
  split; [intros E; rewrite E in PM; apply Permutation_sym, Permutation_nil in PM; contradiction|]. split; [|exact R1].
  intros E. rewrite (R0 E) in PM |- *. apply Permutation_length_1_inv in PM. exact PM.
Qed.

(** ** The whole call *)
Lemma answer_total : forall e g x locale filt address, is_loaded g -> no_nan_scores g -> built x -> simple_words x ->
  blank_lines (e_uni e) (search_text e x (prepared e locale address)) ->
  exists ks, get_tokens e (mkTz x (as_type filt)) (prepared e locale address) = Ok ks /\
    ((phrases ks <= 31)%nat -> exists alts, get_alt_tokens (e_uni e) x ks = Ok alts /\
      (Forall (sizes_ok g) (ks :: alts) -> exists o, standardize_addr e g x locale filt address = Ok o /\
        (o <> None -> exists ph k rs, In ph (ks :: alts) /\ matches g ADDRESS ph k rs) /\
        (o = None -> forall ph k rs, In ph (ks :: alts) -> (combinations ph <= 2 ^ 32)%N -> (k <= List.length ph + 2)%nat -> ~ matches g ADDRESS ph k rs))).
Proof.
  intros e g x locale filt address HL HN B S' BL. destruct (phrases_ok e x locale filt address B S' BL) as (ks & G & M). exists ks. split; [exact G|].
  intros PH. destruct (M PH) as (alts & P). exists alts. split.
  { unfold make_phrases, set_filter in P. cbn [z_lex] in P. rewrite G in P. cbn [obind] in P. destruct (get_alt_tokens _ _ _); cbn [obind] in P; try discriminate. injection P as ->. reflexivity. }
  intros HS. destruct (answered e g x locale filt address _ HL HN HS P) as (o & E & I). exists o. split; [exact E|].
  destruct (search_all_spec g (ks :: alts) (loaded_linked g HL) (loaded_balanced g HL) (loaded_address g HL)) as (found & rows & F & _).
  assert (D : forall ph, In ph (ks :: alts) -> exists ps, search g ph = Ok ps) by (intros ph J; destruct (Forall2_left _ _ _ _ _ _ F J) as (ps & _ & E'); eauto).
  split.
  - intros NE. destruct (existsb (fun ps => match ps with [] => false | _ => true end) found) eqn:X.
    + apply existsb_exists in X. destruct X as (ps & IP & NP). destruct (Forall2_right _ _ _ _ _ _ F IP) as (ph & J & E2). destruct ps as [|p ps]; [discriminate NP|].
      destruct (search_sound g ADDRESS ph (p :: ps) p (loaded_linked g HL) E2 (or_introl eq_refl)) as (k & MT & _). exists ph, k, (p_rules p). auto.
    + exfalso. apply NE, I. intros ph ps J E2. destruct (Forall2_left _ _ _ _ _ _ F J) as (ps' & IP & E3). rewrite E2 in E3. injection E3 as <-.
      destruct ps as [|p ps]; [reflexivity|]. assert (false = true) by (rewrite <- X; apply existsb_exists; exists (p :: ps); auto). discriminate.
  - intros -> ph k rs J CB K MT. destruct (search_complete g ADDRESS ph k rs (loaded_linked g HL) CB MT K) as (ps & p & E2 & IP & _).
    rewrite (proj1 I eq_refl ph ps J E2) in IP. destruct IP.
Qed.
