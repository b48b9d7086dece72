(** Lemmas about what as_parse tells about the fields of as_standardize. *)
From Coq Require Import String List NArith Bool Lia Arith.
From Verif Require Import Base_model Class_model Uni_model Regex_model Token_model Lexicon_model Tokenizer_model Archive_model Float_model Rule_model Search_model Grammar_model Wrapper_model
  Sample_model Class_spec Grammar_spec Search_spec Loaded_spec LexText_spec Lexicon_spec Tokenizer_spec Address_spec Wrapper_spec Answer_spec End_spec Words_spec Explain_spec
  CString_proofs Class_proofs Search_proofs SearchTop_proofs Loaded_proofs Pattern_proofs Score_proofs Wrapper_proofs WrapperTop_proofs TokSplit_proofs TokExample_proofs WrapperEx_proofs End_proofs Tells_proofs Words_proofs.
Import ListNotations.
Local Open Scope N_scope.

(** ** The rows tell the words *)
Definition wkey (r : prow) : N * text := (pr_pat r, pr_word r).
Lemma phrase_wkeys : forall ks i j, map wkey (fst (phrase_rows i j ks)) = map (fun k => (i, t_text k)) ks.
Proof. induction ks as [|k ks IH]; intros i j; [reflexivity|]. cbn [phrase_rows]. specialize (IH i (j + 1)). destruct (phrase_rows i (j + 1) ks) as (l, j'). cbn [fst map] in *. rewrite IH. reflexivity. Qed.
Lemma wkeys_later : forall phs i j, Forall (fun q => i <= fst q) (map wkey (all_rows i j phs)).
Proof. intros phs i j. apply Forall_map. exact (rows_later phs i j). Qed.
Lemma wkeys_cons : forall p phs i j, exists j', map wkey (all_rows i j (p :: phs)) = map (fun k => (i, t_text k)) p ++ map wkey (all_rows (i + 1) j' phs).
Proof. intros p phs i j. cbn [all_rows]. assert (E := phrase_wkeys p i j). destruct (phrase_rows i j p) as (l, j'). cbn [fst] in E. exists j'. rewrite map_app, E. reflexivity. Qed.
Lemma wnumbered : forall (i : N) (p : list token), Forall (fun q => fst q = i) (map (fun k => (i, t_text k)) p).
Proof. intros i p. apply Forall_map, Forall_forall. reflexivity. Qed.
Lemma wpairs_same : forall (i : N) (p p' : list token), map (fun k => (i, t_text k)) p = map (fun k => (i, t_text k)) p' -> map t_text p = map t_text p'.
Proof. intros i. induction p as [|k p IH]; intros [|k' p'] H; try discriminate; [reflexivity|]. cbn [map] in *. injection H as H1 H2. rewrite H1, (IH p' H2). reflexivity. Qed.
Lemma words_tell : forall phs phs' i j j', List.length phs = List.length phs' -> map wkey (all_rows i j phs) = map wkey (all_rows i j' phs') -> map (map t_text) phs = map (map t_text) phs'.
Proof.
  induction phs as [|p phs IH]; intros [|p' phs'] i j j' L E; try discriminate; [reflexivity|].
  destruct (wkeys_cons p phs i j) as (j2 & K). destruct (wkeys_cons p' phs' i j') as (j3 & K'). rewrite K, K' in E.
  destruct (part_of i _ _ _ _ (wnumbered i p) (wnumbered i p') (wkeys_later phs (i + 1) j2) (wkeys_later phs' (i + 1) j3) E) as (E1 & E2).
  cbn [map]. rewrite (wpairs_same i p p' E1). injection L as L. f_equal. eapply IH; eassumption.
Qed.

(** ** Fresh tokens have no standard text *)
Definition fresh (k : token) : Prop := t_std k = [].
Definition NT (c : N) : Prop := c <> 9.
Lemma nt_dot : NT 46. Proof. discriminate. Qed.
Lemma nt_blank : NT 32. Proof. discriminate. Qed.
Lemma nt_plain : forall w, Forall NT w -> token_of_text w = plain_token w.
Proof. intros w H. apply token_plain. intros I. rewrite Forall_forall in H. exact (H 9 I eq_refl). Qed.
Lemma fresh_part : forall u x w, Forall NT w -> fresh (part_token u x w).
Proof. intros u x w H. unfold fresh, part_token. rewrite (nt_plain w H). apply (classify_rest u x w I_WORD). Qed.
Lemma fresh_parts : forall u x ws, Forall (Forall NT) ws -> Forall fresh (map (part_token u x) ws).
Proof. intros u x ws H. apply Forall_map. eapply Forall_impl; [|exact H]. intros w. apply fresh_part. Qed.
Lemma fresh_word : forall u x w ks, Forall NT w -> word_tokens u x w = Ok ks -> Forall fresh ks.
Proof.
  intros u x w ks T H. unfold word_tokens in H. destruct w as [|c w]; [injection H as <-; constructor|]. change (classify u x (token_of_text (c :: w)) I_WORD) with (part_token u x (c :: w)) in H.
  destruct (t_inlex _); [injection H as <-; constructor; [apply fresh_part; exact T|constructor]|]. unfold split_token in H. destruct (split_parts _ _ _) as [ws|m|] eqn:S; cbn [obind] in H; try discriminate. injection H as <-.
  assert (F := fresh_parts u x ws (ok_parts NT nt_blank _ _ _ _ (proj1 (ok_part NT nt_dot u x _ T)) S)). destruct (map (part_token u x) ws); [constructor; [apply fresh_part; exact T|constructor]|exact F].
Qed.
Lemma fresh_sep : forall u x w, Forall NT w -> Forall fresh (sep_tokens u x w).
Proof.
  intros u x w T. unfold sep_tokens. destruct w as [|c w]; [constructor|]. constructor; [|constructor]. rewrite (nt_plain _ T). unfold trim_token. cbn [plain_token t_text].
  destruct (rev (drop_ws (rev (drop_ws (c :: w))))) as [|d v]; [apply (classify_rest u x [SP] I_PUNCT)|apply (classify_rest u x (d :: v) I_PUNCT)].
Qed.
Lemma fresh_pieces : forall u x ps ks, Forall (fun p => Forall NT (pc_tok p) /\ Forall NT (pc_sep p)) ps -> piece_tokens u x ps = Ok ks -> Forall fresh ks.
Proof.
  intros u x ps ks F. revert ks. induction F as [|p ps (A & B) F IH]; intros ks H; cbn [piece_tokens] in H; [injection H as <-; constructor|]. destruct (word_tokens u x (pc_tok p)) as [w|m|] eqn:W; cbn [obind] in H; try discriminate.
  destruct (piece_tokens u x ps) as [r|m|]; cbn [obind] in H; try discriminate. injection H as <-. apply Forall_app. split; [exact (fresh_word _ _ _ _ A W)|]. apply Forall_app. split; [apply fresh_sep; exact B|apply IH; reflexivity].
Qed.
Lemma fresh_alt : forall u x i ks n, Forall fresh ks -> Forall (tok_ok NT) ks -> Forall fresh (alt_one u x i n ks).
Proof.
  intros u x i ks n F. revert n. induction F as [|k ks H F IH]; intros n T; cbn [alt_one]; [constructor|]. inversion T as [|a b T1 T2]; subst. destruct (is_phrase k); [|constructor; auto]. apply Forall_app. split; [|apply IH; exact T2].
  destruct (_ =? 0); [constructor; [exact H|constructor]|apply fresh_parts, ok_split; exact (proj1 T1)].
Qed.
Lemma fresh_phrases : forall e x locale filt address phs, ~ In 9 (reading e x locale address) -> make_phrases e x locale filt address = Ok phs -> Forall (Forall fresh) phs.
Proof.
  intros e x locale filt address phs T H. assert (T' : Forall NT (search_text e x (prepared e locale address))) by (apply Forall_forall; intros c I ->; exact (T I)). clear T.
  unfold make_phrases in H. destruct (get_tokens _ _ _) as [ks|m|] eqn:G; cbn [obind] in H; try discriminate.
  assert (F : Forall (fun k => fresh k /\ tok_ok NT k) ks).
  { unfold get_tokens in G. destruct (all_tokens _ _ _) as [l|m|] eqn:A; cbn [obind] in G; try discriminate. injection G as <-. cbn [z_lex set_filter] in A.
    assert (O := ok_tokens NT nt_dot nt_blank e x _ l T' A). unfold all_tokens, get_pieces in A. destruct (parse_re _) as [r|]; [|discriminate A]. cbn zeta in A. destruct (scan _ _ _ _) as [ps|] eqn:S; [|discriminate A]. cbn [obind] in A.
    apply fresh_pieces in A; [|eapply ok_scan; eassumption]. unfold apply_filter. apply Forall_forall. intros k I. apply filter_In in I. rewrite Forall_forall in A, O. split; [apply A|apply O]; apply I. }
  assert (F1 : Forall fresh ks) by (eapply Forall_impl; [|exact F]; intros k K; apply K). assert (F2 : Forall (tok_ok NT) ks) by (eapply Forall_impl; [|exact F]; intros k K; apply K).
  destruct (get_alt_tokens _ _ _) as [alts|m|] eqn:E; cbn [obind] in H; try discriminate. injection H as <-. constructor; [exact F1|].
  unfold get_alt_tokens in E. destruct (phrases ks) as [|n]; [injection E as <-; constructor|]. destruct (Nat.ltb 31 (S n)); [discriminate|]. injection E as <-. apply Forall_map, Forall_forall.
  intros i _. exact (fresh_alt (e_uni e) x i ks 0 F1 F2).
Qed.

(** ** The fields *)
Definition core (k : token) : text * text * inset * outtype := (t_text k, t_std k, t_in k, t_out k).
Lemma core_put : forall x k k' v, core k = core k' -> obind (standardize_word x k) (fun q => Ok (put_token v q)) = obind (standardize_word x k') (fun q => Ok (put_token v q)).
Proof.
  intros x [t s i o a l] [t' s' i' o' a' l'] v E. unfold core in E. cbn in E. injection E as -> -> -> ->. unfold standardize_word. cbn [t_text t_in]. destruct (lex_find x t') as [|le les]; cbn [obind].
  - cbn [t_std]. destruct s'; reflexivity.
  - destruct i' as [|c i']; [reflexivity|]. destruct (find _ _) as [e|]; cbn [obind]; [unfold set_std; cbn [t_std t_text t_in t_out]; destruct (le_std e); reflexivity|cbn [t_std]; destruct s'; reflexivity].
Qed.
Lemma collect_step : forall x k ks v, collect x v (k :: ks) = obind (obind (standardize_word x k) (fun q => Ok (put_token v q))) (fun v' => collect x v' ks).
Proof. intros x k ks v. cbn [collect]. destruct (standardize_word x k); reflexivity. Qed.
Lemma core_collect : forall x ks ks' v, map core ks = map core ks' -> collect x v ks = collect x v ks'.
Proof.
  intros x. induction ks as [|k ks IH]; intros [|k' ks'] v E; try discriminate; [reflexivity|]. cbn [map] in E. injection E as E1 E2 E3 E4 E5. rewrite !collect_step.
  rewrite (core_put x k k' v) by (unfold core; congruence). destruct (obind (standardize_word x k') _); cbn [obind]; [apply IH; exact E5|reflexivity|reflexivity].
Qed.
Lemma cores : forall ks ks', map t_text ks = map t_text ks' -> map t_std ks = map t_std ks' -> map t_in ks = map t_in ks' -> map t_out ks = map t_out ks' -> map core ks = map core ks'.
Proof. induction ks as [|k ks IH]; intros [|k' ks'] A B C D; try discriminate; [reflexivity|]. cbn [map] in *. injection A as A1 A2. injection B as B1 B2. injection C as C1 C2. injection D as D1 D2. rewrite (IH ks' A2 B2 C2 D2). unfold core. congruence. Qed.
Definition best_same (b b' : best) : Prop := b_score b = b_score b' /\ b_matched b = b_matched b' /\ map core (b_tokens b) = map core (b_tokens b').
Lemma fresh_std : forall ks ks', Forall fresh ks -> Forall fresh ks' -> map t_text ks = map t_text ks' -> map t_std ks = map t_std ks'.
Proof. intros ks ks' F. revert ks'. induction F as [|k ks H F IH]; intros [|k' ks'] F' E; try discriminate; [reflexivity|]. cbn [map] in *. injection E as _ E. inversion F' as [|a b H' F2]; subst. rewrite (IH ks' F2 E), H, H'. reflexivity. Qed.
Lemma one_same_fields : forall g ph ph' b, is_loaded g -> Forall fresh ph -> Forall fresh ph' -> map t_text ph = map t_text ph' -> map t_in ph = map t_in ph' -> search_best1 g [] ph = Ok b ->
  exists b', search_best1 g [] ph' = Ok b' /\ best_same b b'.
Proof.
  intros g ph ph' b G F F' W E B. unfold search_best1 in *. assert (S := search_same g ph ph' E). destruct (search g ph) as [ps|m|] eqn:Q; cbn [obind] in B; try discriminate. rewrite <- S. cbn [obind].
  destruct ps as [|p0 ps]; [exists b; split; [exact B|repeat split]|]. assert (I := best_step_in (p0 :: ps) (p0, f_zero, f32_m1)). fold (select_best p0 (p0 :: ps)) in I.
  destruct (select_best p0 (p0 :: ps)) as [[q sc] nr]. cbn [fst] in I. assert (J : In q (p0 :: ps)) by (destruct I as [<-|I]; [left; reflexivity|exact I]). symmetry in S.
  destruct (reclass_faithful g ADDRESS ph _ q (loaded_linked g G) (loaded_balanced g G) Q J) as (ts & R & A1 & A2 & _ & _ & A3 & _ & A4).
  destruct (reclass_faithful g ADDRESS ph' _ q (loaded_linked g G) (loaded_balanced g G) S J) as (ts' & R' & B1 & B2 & _ & _ & B3 & _ & B4).
  rewrite R in B. cbn [obind] in B. injection B as <-. rewrite R'. cbn [obind]. eexists. split; [reflexivity|]. split; [reflexivity|]. cbn [b_matched b_tokens].
  split; [rewrite (pattern_str_spec ts _ A3), (pattern_str_spec ts' _ B3); congruence|]. apply cores; [congruence| |congruence|congruence]. rewrite A2, B2. apply fresh_std; assumption.
Qed.
Lemma loop_same_fields : forall g phs phs' c c' b, is_loaded g -> Forall (Forall fresh) phs -> Forall (Forall fresh) phs' -> map (map t_text) phs = map (map t_text) phs' -> map (map t_in) phs = map (map t_in) phs' ->
  best_same c c' -> search_best_loop g c phs = Ok b -> exists b', search_best_loop g c' phs' = Ok b' /\ best_same b b'.
Proof.
  intros g. induction phs as [|ph phs IH]; intros [|ph' phs'] c c' b G F F' W E C B; try discriminate; cbn [search_best_loop] in *; [injection B as <-; exists c'; auto|]. cbn [map] in E, W. injection E as E1 E2. injection W as W1 W2.
  inversion F as [|a d F1 F2]; inversion F' as [|a' d' F1' F2']; subst.
  destruct (search_best1 g [] ph) as [r|m|] eqn:Q; cbn [obind] in B; try discriminate. destruct (one_same_fields g ph ph' r G F1 F1' W1 E1 Q) as (r' & Q' & A). rewrite Q'. cbn [obind]. refine (IH phs' _ _ b G F2 F2' W2 E2 _ B).
  destruct C as (C1 & C2 & C3), A as (A1 & A2 & A3). rewrite C1, A1. destruct (f_lt (b_score c') (b_score r')); repeat split; assumption.
Qed.
Lemma words_columns : forall rows rows', same_words rows rows' -> map key rows = map key rows' /\ map wkey rows = map wkey rows'.
Proof.
  unfold same_words. induction rows as [|r rows IH]; intros [|r' rows'] H; try discriminate; [auto|]. cbn [map] in *. injection H as H1 H2 H3 H4. destruct (IH rows' H4) as (-> & ->). unfold key, wkey. rewrite H1, H2, H3. auto.
Qed.
Lemma words_standardize : forall e atof gr arg address locale filt address' locale' filt' rows rows', uni_ok (e_uni e) ->
  (forall x, get_lexicon e arg = Ok x -> ~ In 9 (reading e x locale address) /\ ~ In 9 (reading e x locale' address')) ->
  std_parse_address e address arg locale filt = Ok rows -> std_parse_address e address' arg locale' filt' = Ok rows' -> same_words rows rows' ->
  std_standardize e atof address gr arg locale filt = std_standardize e atof address' gr arg locale' filt'.
Proof.
  intros e atof gr arg address locale filt address' locale' filt' rows rows' U NT0 P P' S. destruct (parsed _ _ _ _ _ _ P) as (x & phs & X & M & ->). destruct (parsed _ _ _ _ _ _ P') as (x' & phs' & X' & M' & ->).
  rewrite X in X'. injection X' as <-. destruct (NT0 x X) as (N1 & N2). destruct (words_columns _ _ S) as (S1 & S2). assert (T := phrases_tell _ _ _ _ _ _ _ _ _ _ _ M M' S1).
  assert (L : List.length phs = List.length phs') by (rewrite <- (map_length (map t_in) phs), T; apply map_length). assert (W := words_tell phs phs' 0 0 0 L S2).
  unfold std_standardize. rewrite X. destruct (grammar_cases e atof gr U) as [(g & E & _ & G)|(m & E & _)]; rewrite E; [|reflexivity].
  cbn [obind]. unfold standardize_addr. rewrite M, M'. cbn [obind]. destruct (choice_all g phs G) as (_ & b & _ & B & _).
  destruct (loop_same_fields g phs phs' _ _ b G (fresh_phrases _ _ _ _ _ _ N1 M) (fresh_phrases _ _ _ _ _ _ N2 M') W T (conj eq_refl (conj eq_refl eq_refl)) B) as (b' & B' & K1 & K2 & K3).
  unfold search_best in *. rewrite B, B'. cbn [obind]. rewrite K1, K2, (core_collect x _ _ _ K3). reflexivity.
Qed.
Definition spaced_addr : text := s2t "  12, main ST (po box 7"%string.
Lemma words_setting : uni_ok (e_uni ascii_env) /\ (forall x, get_lexicon ascii_env w_lexicon = Ok x -> ~ In 9 (reading ascii_env x en w_addr) /\ ~ In 9 (reading ascii_env x en spaced_addr)) /\ exists rows rows' a, std_parse_address ascii_env w_addr w_lexicon en w_filter = Ok rows /\
  std_parse_address ascii_env spaced_addr w_lexicon en w_filter = Ok rows' /\ same_words rows rows' /\ List.length rows = 11%nat /\
  std_standardize ascii_env sample_atof spaced_addr w_grammar w_lexicon en w_filter = Ok (Some a) /\ nth 5 (sa_fields a) None = Some (s2t "MAIN"%string).
Proof.
  split; [exact ascii_uni_ok|]. split; [intros x X; split; vm_compute; intuition discriminate|]. do 3 eexists. split; [vm_compute; reflexivity|]. split; [vm_compute; reflexivity|]. split; [vm_compute; reflexivity|]. split; [vm_compute; reflexivity|]. split; vm_compute; reflexivity.
Qed.
Lemma shown_words : forall l l', same_words (map shown l) (map shown l') -> same_words l l'.
Proof.
  unfold same_words. induction l as [|r l IH]; intros [|r' l'] H; try discriminate; [reflexivity|]. cbn [map] in *. injection H as H1 H2 H3 H4. rewrite (IH l' H4). f_equal.
  change (pr_pat (shown r)) with (pr_pat r + 1) in H1. change (pr_pat (shown r')) with (pr_pat r' + 1) in H1. f_equal; [f_equal; [lia|exact H2]|exact H3].
Qed.
Lemma words_tables : forall e atof gr arg address locale filt address' locale' filt' rows rows', uni_ok (e_uni e) ->
  (forall x, get_lexicon e arg = Ok x -> ~ In 9 (reading e x locale address) /\ ~ In 9 (reading e x locale' address')) -> rows <> [] ->
  parse_table (std_parse_address e address arg locale filt) = Ok rows -> parse_table (std_parse_address e address' arg locale' filt') = Ok rows' -> same_words rows rows' ->
  address_row (std_standardize e atof address gr arg locale filt) = address_row (std_standardize e atof address' gr arg locale' filt').
Proof.
  intros e atof gr arg address locale filt address' locale' filt' rows rows' U T N P P' S. assert (N' : rows' <> []) by (intros ->; destruct rows; [congruence|discriminate]).
  destruct (table_rows _ _ P N) as (l & Q & ->). destruct (table_rows _ _ P' N') as (l' & Q' & ->). apply shown_words in S. f_equal. eapply words_standardize; eassumption.
Qed.
Lemma words_tables_setting : uni_ok (e_uni ascii_env) /\ (forall x, get_lexicon ascii_env w_lexicon = Ok x -> ~ In 9 (reading ascii_env x en w_addr) /\ ~ In 9 (reading ascii_env x en spaced_addr)) /\
  exists rows rows', parse_table (std_parse_address ascii_env w_addr w_lexicon en w_filter) = Ok rows /\ rows <> [] /\
    parse_table (std_parse_address ascii_env spaced_addr w_lexicon en w_filter) = Ok rows' /\ same_words rows rows' /\
    exists row, address_row (std_standardize ascii_env sample_atof spaced_addr w_grammar w_lexicon en w_filter) = Ok row /\ nth 14 row None = Some (s2t "PO BOX 7"%string).
Proof.
  split; [exact ascii_uni_ok|]. split; [intros x X; split; vm_compute; intuition discriminate|]. do 2 eexists. split; [vm_compute; reflexivity|]. split; [discriminate|]. split; [vm_compute; reflexivity|]. split; [vm_compute; reflexivity|].
  eexists. split; vm_compute; reflexivity.
Qed.
(** With tabs a separator can bring a standard text that as_parse does not show. *)
Definition hash_addr : text := (s2t "12"%string ++ [9] ++ s2t "# Main"%string)%list.
Definition bang_addr : text := (s2t "12"%string ++ [9] ++ s2t "! Main"%string)%list.
Definition punct_grammar : text := s2t "[ADDRESS]
NUMBER PUNCT WORD -> HOUSE EXTRA STREET -> 0.5
"%string.
Lemma tabs_differ : exists rows rows' a a', std_parse_address ascii_env hash_addr w_lexicon en [] = Ok rows /\ std_parse_address ascii_env bang_addr w_lexicon en [] = Ok rows' /\ same_words rows rows' /\
  std_standardize ascii_env sample_atof hash_addr punct_grammar w_lexicon en [] = Ok (Some a) /\ std_standardize ascii_env sample_atof bang_addr punct_grammar w_lexicon en [] = Ok (Some a') /\
  nth 9 (sa_fields a) None = Some (s2t "# "%string) /\ nth 9 (sa_fields a') None = Some (s2t "! "%string).
Proof. do 4 eexists. split; [vm_compute; reflexivity|]. split; [vm_compute; reflexivity|]. split; [vm_compute; reflexivity|]. split; [vm_compute; reflexivity|]. split; [vm_compute; reflexivity|]. split; vm_compute; reflexivity. Qed.
