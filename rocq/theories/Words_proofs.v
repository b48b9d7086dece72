(** Lemmas about what of an address counts for the search. *)
From Coq Require Import String List NArith Bool Lia Arith.
From Verif Require Import Base_model Class_model Uni_model Token_model Lexicon_model Tokenizer_model Archive_model Float_model Rule_model Search_model Grammar_model Wrapper_model
  Sample_model Class_spec Grammar_spec Search_spec Loaded_spec LexText_spec Lexicon_spec Tokenizer_spec Address_spec Wrapper_spec Answer_spec End_spec Words_spec
  Class_proofs Search_proofs SearchTop_proofs Loaded_proofs Pattern_proofs Score_proofs Wrapper_proofs WrapperTop_proofs TokSplit_proofs TokExample_proofs WrapperEx_proofs End_proofs Tells_proofs.
Import ListNotations.
Local Open Scope N_scope.

(** ** The class column *)
Lemma in_str_same : forall l l', map in_str l = map in_str l' -> l = l'.
Proof.
  induction l as [|c l IH]; intros [|c' l'] H; try discriminate; [reflexivity|]. cbn [map] in H. injection H as H1 H2. rewrite (IH l' H2). f_equal.
  rewrite <- (in_name_ok c), <- (in_name_ok c'), H1. reflexivity.
Qed.
Lemma plain_names : forall l, Forall no_comma (map in_str l).
Proof. intros l. apply Forall_forall. intros p I. apply in_map_iff in I. destruct I as (z & <- & _). exact (proj1 (in_str_plain z)). Qed.
Lemma joined_some : forall c l, join [COMMA_CH] (map in_str (c :: l)) <> [].
Proof. intros c l. cbn [map join]. destruct (map in_str l); intros H; [|apply app_eq_nil in H; destruct H as (H & _)]; exact (proj1 (proj2 (in_str_plain c)) H). Qed.
Lemma iset_same : forall s s', iset_str s = iset_str s' -> s = s'.
Proof.
  intros s s' H. unfold iset_str in H. destruct s as [|c s], s' as [|c' s']; [reflexivity|symmetry in H; destruct (joined_some _ _ H)|destruct (joined_some _ _ H)|].
  apply in_str_same. rewrite <- (comma_pieces_join (map in_str (c :: s)) ltac:(discriminate) (plain_names _)), H. apply comma_pieces_join; [discriminate|apply plain_names].
Qed.

(** ** The rows tell the classes *)
Definition key (r : prow) : N * text := (pr_pat r, pr_class r).
Lemma phrase_keys : forall ks i j, map key (fst (phrase_rows i j ks)) = map (fun k => (i, iset_str (t_in k))) ks.
Proof. induction ks as [|k ks IH]; intros i j; [reflexivity|]. cbn [phrase_rows]. specialize (IH i (j + 1)). destruct (phrase_rows i (j + 1) ks) as (l, j'). cbn [fst map] in *. rewrite IH. reflexivity. Qed.
Lemma keys_later : forall phs i j, Forall (fun q => i <= fst q) (map key (all_rows i j phs)).
Proof. intros phs i j. apply Forall_map. exact (rows_later phs i j). Qed.
Lemma keys_cons : forall p phs i j, exists j', map key (all_rows i j (p :: phs)) = map (fun k => (i, iset_str (t_in k))) p ++ map key (all_rows (i + 1) j' phs).
Proof. intros p phs i j. cbn [all_rows]. assert (E := phrase_keys p i j). destruct (phrase_rows i j p) as (l, j'). cbn [fst] in E. exists j'. rewrite map_app, E. reflexivity. Qed.
Lemma part_of : forall (i : N) (a a' b b' : list (N * text)), Forall (fun q => fst q = i) a -> Forall (fun q => fst q = i) a' -> Forall (fun q => i + 1 <= fst q) b -> Forall (fun q => i + 1 <= fst q) b' ->
  a ++ b = a' ++ b' -> a = a' /\ b = b'.
Proof.
  intros i a. induction a as [|q a IH]; intros a' b b' A A' B B' E.
  - destruct a' as [|q' a']; [auto|]. cbn [app] in E. subst b. inversion A'; subst. inversion B; subst. lia.
  - inversion A; subst. destruct a' as [|q' a'].
    + cbn [app] in E. subst b'. inversion B'; subst. lia.
    + cbn [app] in E. injection E as -> E. inversion A'; subst. destruct (IH a' b b' H2 ltac:(assumption) B B' E) as (-> & ->). auto.
Qed.
Lemma numbered : forall (i : N) (p : list token), Forall (fun q => fst q = i) (map (fun k => (i, iset_str (t_in k))) p).
Proof. intros i p. apply Forall_map, Forall_forall. reflexivity. Qed.
Lemma pairs_same : forall (i : N) (p p' : list token), map (fun k => (i, iset_str (t_in k))) p = map (fun k => (i, iset_str (t_in k))) p' -> map t_in p = map t_in p'.
Proof. intros i. induction p as [|k p IH]; intros [|k' p'] H; try discriminate; [reflexivity|]. cbn [map] in *. injection H as H1 H2. rewrite (iset_same _ _ H1), (IH p' H2). reflexivity. Qed.
Lemma rows_tell : forall phs phs' i j j', Forall (fun p => p <> []) phs -> Forall (fun p => p <> []) phs' -> map key (all_rows i j phs) = map key (all_rows i j' phs') ->
  map (map t_in) phs = map (map t_in) phs'.
Proof.
  induction phs as [|p phs IH]; intros [|p' phs'] i j j' F F' E; [reflexivity| | |].
  - destruct (keys_cons p' phs' i j') as (j2 & K). rewrite K in E. destruct p' as [|k p']; [inversion F'; congruence|discriminate].
  - destruct (keys_cons p phs i j) as (j2 & K). rewrite K in E. destruct p as [|k p]; [inversion F; congruence|discriminate].
  - destruct (keys_cons p phs i j) as (j2 & K). destruct (keys_cons p' phs' i j') as (j3 & K'). rewrite K, K' in E.
    destruct (part_of i _ _ _ _ (numbered i p) (numbered i p') (keys_later phs (i + 1) j2) (keys_later phs' (i + 1) j3) E) as (E1 & E2).
    cbn [map]. rewrite (pairs_same i p p' E1). inversion F; inversion F'; subst. f_equal. eapply IH; eassumption.
Qed.

(** ** The tokenizations have tokens *)
Lemma alt_some : forall u x i ks n, ks <> [] -> alt_one u x i n ks <> [].
Proof.
  intros u x i [|k ks] n H; [congruence|]. cbn [alt_one]. destruct (is_phrase k); [|discriminate]. destruct ((i / 2 ^ n) mod 2 =? 0); [discriminate|].
  destruct (split_some (t_text k)) as (w & ws & ->). discriminate.
Qed.
Lemma phrases_some : forall e x locale filt address phs, make_phrases e x locale filt address = Ok phs -> phs = [[]] \/ Forall (fun p => p <> []) phs.
Proof.
  intros e x locale filt address phs H. unfold make_phrases in H. destruct (get_tokens _ _ _) as [ks|m|]; cbn [obind] in H; try discriminate.
  destruct ks as [|k ks]; [injection H as <-; left; reflexivity|]. right. destruct (get_alt_tokens _ _ _) as [alts|m|] eqn:E; cbn [obind] in H; try discriminate. injection H as <-. constructor; [discriminate|].
  unfold get_alt_tokens in E. destruct (phrases (k :: ks)) as [|n]; [injection E as <-; constructor|]. destruct (Nat.ltb 31 (S n)); [discriminate|]. injection E as <-. apply Forall_map, Forall_forall.
  intros i _. exact (alt_some (e_uni e) x i (k :: ks) 0 ltac:(discriminate)).
Qed.
Lemma some_row : forall phs i j, phs <> [] -> Forall (fun p => p <> []) phs -> all_rows i j phs <> [].
Proof.
  intros [|p phs] i j N F E; [congruence|]. destruct (keys_cons p phs i j) as (j' & K). rewrite E in K. inversion F; subst. destruct p; [congruence|discriminate].
Qed.
Lemma phrases_there : forall e x locale filt address phs, make_phrases e x locale filt address = Ok phs -> phs <> [].
Proof.
  intros e x locale filt address phs H E. subst. unfold make_phrases in H. destruct (get_tokens _ _ _) as [ks|m|]; cbn [obind] in H; try discriminate.
  destruct (get_alt_tokens _ _ _); cbn [obind] in H; discriminate.
Qed.
Lemma phrases_tell : forall e x locale filt address phs x' locale' filt' address' phs',
  make_phrases e x locale filt address = Ok phs -> make_phrases e x' locale' filt' address' = Ok phs' -> map key (all_rows 0 0 phs) = map key (all_rows 0 0 phs') -> map (map t_in) phs = map (map t_in) phs'.
Proof.
  intros e x locale filt address phs x' locale' filt' address' phs' P P' E. assert (N := phrases_there _ _ _ _ _ _ P). assert (N' := phrases_there _ _ _ _ _ _ P').
  apply phrases_some in P. apply phrases_some in P'. destruct P as [->|F], P' as [->|F']; [reflexivity| | |eapply rows_tell; eassumption].
  - destruct (some_row phs' 0 0 N' F'). cbn in E. symmetry in E. apply map_eq_nil in E. exact E.
  - destruct (some_row phs 0 0 N F). cbn in E. apply map_eq_nil in E. exact E.
Qed.

(** ** The search sees the classes only *)
Lemma same_size : forall k k', t_in k = t_in k' -> in_size k = in_size k'.
Proof. intros k k' E. unfold in_size. rewrite E. reflexivity. Qed.
Lemma count_same : forall ts ts' c, map t_in ts = map t_in ts' -> fold_left (fun cnt k => mul64 cnt (in_size k)) ts c = fold_left (fun cnt k => mul64 cnt (in_size k)) ts' c.
Proof. induction ts as [|k ts IH]; intros [|k' ts'] c H; try discriminate; [reflexivity|]. cbn [map] in H. injection H as H1 H2. cbn [fold_left]. rewrite (same_size k k' H1). apply IH. exact H2. Qed.
Lemma one_same : forall i c ts ts' n, map t_in ts = map t_in ts' -> enum_one i c n ts = enum_one i c n ts'.
Proof.
  intros i c. induction ts as [|k ts IH]; intros [|k' ts'] n H; try discriminate; [reflexivity|]. cbn [map] in H. injection H as H1 H2. cbn [enum_one]. unfold token_in. rewrite (same_size k k' H1), H1, (IH ts' _ H2). reflexivity.
Qed.
Lemma enumerate_same : forall ts ts', map t_in ts = map t_in ts' -> enumerate ts = enumerate ts'.
Proof. intros ts ts' H. unfold enumerate, enum_count. rewrite (count_same ts ts' 1 H). apply map_ext. intros i. apply one_same. exact H. Qed.
Lemma search_same : forall g ts ts', map t_in ts = map t_in ts' -> search g ts = search g ts'.
Proof.
  intros g ts ts' H. unfold search, search_node. rewrite (enumerate_same ts ts' H). assert (L : List.length ts = List.length ts') by (rewrite <- (map_length t_in ts), H; apply map_length). rewrite L. reflexivity.
Qed.
Lemma found_same : forall g phs phs' found found', map (map t_in) phs = map (map t_in) phs' -> Forall2 (fun ph ps => search g ph = Ok ps) phs found -> Forall2 (fun ph ps => search g ph = Ok ps) phs' found' -> found = found'.
Proof.
  intros g phs phs' found found' E F. revert phs' found' E. induction F as [|ph ps phs found H F IH]; intros phs' found' E F'; destruct phs' as [|ph' phs']; try discriminate; inversion F' as [|a b c d H' F2]; subst; [reflexivity|].
  cbn [map] in E. injection E as E1 E2. rewrite (search_same g ph ph' E1), H' in H. injection H as ->. f_equal. eapply IH; eassumption.
Qed.
Lemma reports_same : forall l r r', Forall2 (fun p row => reports (p_rules p) (m_matched row) (m_score row) (m_nrules row)) l r -> Forall2 (fun p row => reports (p_rules p) (m_matched row) (m_score row) (m_nrules row)) l r' -> r = r'.
Proof.
  intros l r r' F. revert r'. induction F as [|p q l r H F IH]; intros r' F'; inversion F' as [|a b c d H' F2]; subst; [reflexivity|]. f_equal; [|apply IH; assumption].
  destruct q, b. destruct H as (A1 & A2 & A3), H' as (B1 & B2 & B3). cbn in *. congruence.
Qed.
Lemma all_same : forall g phs phs', is_loaded g -> map (map t_in) phs = map (map t_in) phs' -> search_all g phs = search_all g phs'.
Proof.
  intros g phs phs' G E. destruct (search_all_spec g phs (loaded_linked g G) (loaded_balanced g G) (loaded_address g G)) as (f & o & F & -> & A & B).
  destruct (search_all_spec g phs' (loaded_linked g G) (loaded_balanced g G) (loaded_address g G)) as (f' & o' & F' & -> & A' & B'). f_equal. assert (K := found_same g phs phs' f f' E F F'). subst f'.
  destruct (List.concat f) as [|p l] eqn:Q; [rewrite (A eq_refl), (A' eq_refl); reflexivity|]. specialize (B ltac:(discriminate)). specialize (B' ltac:(discriminate)). eapply reports_same; eassumption.
Qed.
Definition best_alike (b b' : best) : Prop := b_score b = b_score b' /\ b_matched b = b_matched b'.
Lemma one_alike : forall g ph ph' b, is_loaded g -> map t_in ph = map t_in ph' -> search_best1 g [] ph = Ok b -> exists b', search_best1 g [] ph' = Ok b' /\ best_alike b b'.
Proof.
  intros g ph ph' b G E B. unfold search_best1 in *. assert (S := search_same g ph ph' E). destruct (search g ph) as [ps|m|] eqn:Q; cbn [obind] in B; try discriminate. rewrite <- S. cbn [obind].
  destruct ps as [|p0 ps]; [exists b; split; [exact B|split; reflexivity]|]. assert (I := best_step_in (p0 :: ps) (p0, f_zero, f32_m1)). fold (select_best p0 (p0 :: ps)) in I.
  destruct (select_best p0 (p0 :: ps)) as [[q sc] nr]. cbn [fst] in I. assert (J : In q (p0 :: ps)) by (destruct I as [<-|I]; [left; reflexivity|exact I]).
  destruct (match_pattern g ph _ q (loaded_linked g G) (loaded_balanced g G) Q J) as (ts & R & M & _). symmetry in S. destruct (match_pattern g ph' _ q (loaded_linked g G) (loaded_balanced g G) S J) as (ts' & R' & M' & _).
  rewrite R in B. cbn [obind] in B. injection B as <-. rewrite R'. cbn [obind]. eexists. split; [reflexivity|]. split; [reflexivity|]. cbn [b_matched]. congruence.
Qed.
Lemma loop_alike : forall g phs phs' c c' b, is_loaded g -> map (map t_in) phs = map (map t_in) phs' -> best_alike c c' -> search_best_loop g c phs = Ok b -> exists b', search_best_loop g c' phs' = Ok b' /\ best_alike b b'.
Proof.
  intros g. induction phs as [|ph phs IH]; intros [|ph' phs'] c c' b G E C B; try discriminate; cbn [search_best_loop] in *; [injection B as <-; exists c'; auto|]. cbn [map] in E. injection E as E1 E2.
  destruct (search_best1 g [] ph) as [r|m|] eqn:Q; cbn [obind] in B; try discriminate. destruct (one_alike g ph ph' r G E1 Q) as (r' & Q' & A). rewrite Q'. cbn [obind]. refine (IH phs' _ _ b G E2 _ B).
  destruct C as (C1 & C2), A as (A1 & A2). rewrite C1, A1. destruct (f_lt (b_score c') (b_score r')); split; assumption.
Qed.

Lemma best_alike_all : forall g phs phs' b, is_loaded g -> map (map t_in) phs = map (map t_in) phs' -> search_best g phs = Ok b -> exists b', search_best g phs' = Ok b' /\ best_alike b b'.
Proof. intros g phs phs' b G E B. apply (loop_alike g phs phs' _ _ b G E (conj eq_refl eq_refl) B). Qed.
Lemma fields_there : forall g phs b x, is_loaded g -> search_best g phs = Ok b -> f_le f_zero (b_score b) = true -> exists v, collect x (repeat [] 16) (b_tokens b) = Ok v.
Proof.
  intros g phs b x G Q Z. destruct (best_loop_from g phs _ b Q) as [->|(ph & Iph & B)]; [discriminate Z|]. destruct (best1_from g [] ph b B Z) as (ps & p & S & Ip & R & _).
  destruct (reclass_faithful g ADDRESS ph ps p (loaded_linked g G) (loaded_balanced g G) S Ip) as (ts & R' & _ & _ & _ & _ & T & _). rewrite R in R'. injection R' as ->. apply collect_defined.
  intros k I. apply (in_map t_in) in I. rewrite T in I. apply in_map_iff in I. destruct I as (c & <- & _). exists c. reflexivity.
Qed.
Lemma answer_of : forall e g x locale filt address phs b, is_loaded g -> make_phrases e x locale filt address = Ok phs -> search_best g phs = Ok b ->
  shown_pattern (standardize_addr e g x locale filt address) = Ok (if f_le f_zero (b_score b) then Some (b_matched b) else None).
Proof.
  intros e g x locale filt address phs b G P B. unfold standardize_addr. rewrite P. cbn [obind]. rewrite B. cbn [obind]. destruct (f_le f_zero (b_score b)) eqn:Z; [|reflexivity].
  destruct (fields_there g phs b x G B Z) as (v & ->). reflexivity.
Qed.
Lemma parsed : forall e address arg locale filt rows, std_parse_address e address arg locale filt = Ok rows -> exists x phs, get_lexicon e arg = Ok x /\ make_phrases e x locale filt address = Ok phs /\ rows = all_rows 0 0 phs.
Proof.
  intros e address arg locale filt rows P. unfold std_parse_address in P. destruct (get_lexicon e arg) as [x|m|]; cbn [obind] in P; try discriminate. unfold parse_addr in P.
  destruct (make_phrases e x locale filt address) as [phs|m|] eqn:E; cbn [obind] in P; try discriminate. injection P as <-. exists x, phs. auto.
Qed.
Lemma columns_match : forall e atof sort gr address arg locale filt address' arg' locale' filt' rows rows', uni_ok (e_uni e) ->
  std_parse_address e address arg locale filt = Ok rows -> std_parse_address e address' arg' locale' filt' = Ok rows' -> same_columns rows rows' ->
  std_match_address e atof sort address gr arg locale filt = std_match_address e atof sort address' gr arg' locale' filt'.
Proof.
  intros e atof sort gr address arg locale filt address' arg' locale' filt' rows rows' U P P' S. destruct (parsed _ _ _ _ _ _ P) as (x & phs & X & M & ->). destruct (parsed _ _ _ _ _ _ P') as (x' & phs' & X' & M' & ->).
  assert (T := phrases_tell _ _ _ _ _ _ _ _ _ _ _ M M' S). unfold std_match_address. rewrite X, X'. destruct (grammar_cases e atof gr U) as [(g & E & _ & G)|(m & E & _)]; rewrite E; [|reflexivity].
  cbn [obind]. unfold match_addr. rewrite M, M'. cbn [obind]. rewrite (all_same g phs phs' G T). reflexivity.
Qed.
Lemma columns_standardize : forall e atof gr address arg locale filt address' arg' locale' filt' rows rows', uni_ok (e_uni e) ->
  std_parse_address e address arg locale filt = Ok rows -> std_parse_address e address' arg' locale' filt' = Ok rows' -> same_columns rows rows' ->
  shown_pattern (std_standardize e atof address gr arg locale filt) = shown_pattern (std_standardize e atof address' gr arg' locale' filt').
Proof.
  intros e atof gr address arg locale filt address' arg' locale' filt' rows rows' U P P' S. destruct (parsed _ _ _ _ _ _ P) as (x & phs & X & M & ->). destruct (parsed _ _ _ _ _ _ P') as (x' & phs' & X' & M' & ->).
  assert (T := phrases_tell _ _ _ _ _ _ _ _ _ _ _ M M' S). unfold std_standardize. rewrite X, X'. destruct (grammar_cases e atof gr U) as [(g & E & _ & G)|(m & E & _)]; rewrite E; [|reflexivity].
  cbn [obind]. destruct (choice_all g phs G) as (_ & b & _ & B & _). destruct (best_alike_all g phs phs' b G T B) as (b' & B' & K1 & K2).
  rewrite (answer_of e g x locale filt address phs b G M B), (answer_of e g x' locale' filt' address' phs' b' G M' B'), K1, K2. reflexivity.
Qed.
(** An example: other words of the same classes, in another case and with another filter. *)
Definition other_addr : text := s2t "7 elm St. PO box 95".
Lemma columns_setting : uni_ok (e_uni ascii_env) /\ exists rows rows', std_parse_address ascii_env w_addr w_lexicon en w_filter = Ok rows /\
  std_parse_address ascii_env other_addr w_lexicon en w_filter = Ok rows' /\ same_columns rows rows' /\ map pr_word rows <> map pr_word rows' /\ List.length rows = 11%nat /\
  shown_pattern (std_standardize ascii_env sample_atof other_addr w_grammar w_lexicon en w_filter) = Ok (Some (s2t "NUMBER WORD TYPE BOXH NUMBER -> HOUSE STREET SUFTYP BOXH BOXT"%string)).
Proof.
  split; [exact ascii_uni_ok|]. do 2 eexists. split; [vm_compute; reflexivity|]. split; [vm_compute; reflexivity|]. split; [vm_compute; reflexivity|]. split; [vm_compute; discriminate|]. split; vm_compute; reflexivity.
Qed.
Lemma shown_keys : forall l l', same_columns (map shown l) (map shown l') -> same_columns l l'.
Proof.
  unfold same_columns. induction l as [|r l IH]; intros [|r' l'] H; try discriminate; [reflexivity|]. cbn [map] in *. injection H as H1 H2 H3. rewrite (IH l' H3). f_equal.
  change (pr_pat (shown r)) with (pr_pat r + 1) in H1. change (pr_pat (shown r')) with (pr_pat r' + 1) in H1. f_equal; [lia|exact H2].
Qed.
Lemma table_rows : forall p rows, parse_table p = Ok rows -> rows <> [] -> exists l, p = Ok l /\ rows = map shown l.
Proof. intros [l|m|] rows P N; cbn [parse_table] in P; [injection P as <-; exists l; auto|injection P as <-; congruence|discriminate]. Qed.
Lemma columns_tables : forall e atof sort gr address arg locale filt address' arg' locale' filt' rows rows', uni_ok (e_uni e) -> rows <> [] ->
  parse_table (std_parse_address e address arg locale filt) = Ok rows -> parse_table (std_parse_address e address' arg' locale' filt') = Ok rows' -> same_columns rows rows' ->
  match_table (std_match_address e atof sort address gr arg locale filt) = match_table (std_match_address e atof sort address' gr arg' locale' filt') /\
  shown_pattern (std_standardize e atof address gr arg locale filt) = shown_pattern (std_standardize e atof address' gr arg' locale' filt').
Proof.
  intros e atof sort gr address arg locale filt address' arg' locale' filt' rows rows' U N P P' S. assert (N' : rows' <> []) by (intros ->; destruct rows; [congruence|discriminate]).
  destruct (table_rows _ _ P N) as (l & Q & ->). destruct (table_rows _ _ P' N') as (l' & Q' & ->). apply shown_keys in S. split.
  - f_equal. eapply columns_match; eassumption.
  - eapply columns_standardize; eassumption.
Qed.
Lemma tables_setting : uni_ok (e_uni ascii_env) /\ exists rows rows', parse_table (std_parse_address ascii_env w_addr w_lexicon en w_filter) = Ok rows /\ rows <> [] /\
  parse_table (std_parse_address ascii_env other_addr w_lexicon en w_filter) = Ok rows' /\ same_columns rows rows' /\ map pr_word rows <> map pr_word rows'.
Proof.
  split; [exact ascii_uni_ok|]. do 2 eexists. split; [vm_compute; reflexivity|]. split; [discriminate|]. split; [vm_compute; reflexivity|]. split; [vm_compute; reflexivity|vm_compute; discriminate].
Qed.
(** Without rows it is false: the lexicon may be wrong. *)
Lemma no_rows : exists row, parse_table (std_parse_address ascii_env [] w_lexicon en w_filter) = Ok [] /\ parse_table (std_parse_address ascii_env [] (s2t "LEXENTRY:"%string) en w_filter) = Ok [] /\
  match_table (std_match_address ascii_env sample_atof (@rev mresult) [] w_grammar w_lexicon en w_filter) = Ok [row] /\
  match_table (std_match_address ascii_env sample_atof (@rev mresult) [] w_grammar (s2t "LEXENTRY:"%string) en w_filter) = Ok [].
Proof. eexists. split; [vm_compute; reflexivity|]. split; [vm_compute; reflexivity|]. split; vm_compute; reflexivity. Qed.
(** The words count for the fields. *)
Lemma other_fields : exists a a', std_standardize ascii_env sample_atof w_addr w_grammar w_lexicon en w_filter = Ok (Some a) /\
  std_standardize ascii_env sample_atof other_addr w_grammar w_lexicon en w_filter = Ok (Some a') /\ sa_fields a <> sa_fields a' /\ sa_pattern a = sa_pattern a'.
Proof. do 2 eexists. split; [vm_compute; reflexivity|]. split; [vm_compute; reflexivity|]. split; [vm_compute; discriminate|vm_compute; reflexivity]. Qed.
