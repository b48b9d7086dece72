(** From the text arguments to the rows. *)
From Coq Require Import String List NArith ZArith Bool Lia Arith Floats.SpecFloat.
From Verif Require Import Base_model Class_model Float_model Uni_model Token_model Rule_model Search_model Grammar_model Lexicon_model Tokenizer_model Md5_model Archive_model Wrapper_model
  Search_spec Grammar_spec Diagnosis_spec Loaded_spec Lexicon_spec LexText_spec LexFile_spec LexDiag_spec Tokenizer_spec Wrapper_spec Split_spec Read_spec Address_spec Order_spec Answer_spec End_spec
  GrammarMore_proofs GrammarTop_proofs Diagnosis_proofs Loaded_proofs LexDiag_proofs Archive_proofs Wrapper_proofs WrapperTop_proofs TokAlt_proofs Address_proofs Answer_proofs.
Import ListNotations.

(** ** Grammars with the same contents *)
Definition alike (g g' : grammar) : Prop := plain (g_metas g) = plain (g_metas g') /\ g_rules g = g_rules g'.
Lemma alike_sym : forall g g', alike g g' -> alike g' g.
Proof. intros g g' (A & B). split; symmetry; assumption. Qed.
Lemma plain_in : forall ms l l', plain l = plain l' -> In ms l -> exists ms', In ms' l' /\ ms_name ms' = ms_name ms /\ map (map f_name) (ms_rules ms') = map (map f_name) (ms_rules ms).
Proof.
  intros ms l l' E H. assert (K : In (ms_name ms, map (map f_name) (ms_rules ms)) (plain l)). { unfold plain. apply (in_map (fun m => (ms_name m, map (map f_name) (ms_rules m)))). exact H. }
  rewrite E in K. unfold plain in K. apply in_map_iff in K. destruct K as (ms' & Q & I). injection Q as Q1 Q2. exists ms'. auto.
Qed.
Lemma traced_alike : forall g g', alike g g' -> forall names pat k cs rs n rem, traced g names pat k cs rs n rem -> traced g' names pat k cs rs n rem.
Proof.
  intros g g' (A & B) names pat k cs rs n rem H. induction H as [rem|ms i refs rest pat k cs rs n rem I E H IH|sec i r rest pat k cs rs n rem I E H IH].
  - constructor.
  - destruct (plain_in ms _ _ A I) as (ms' & I' & N' & R'). rewrite <- N'. assert (E' : nth_error (map (map f_name) (ms_rules ms)) i = Some (map f_name refs)) by (exact (map_nth_error (map f_name) i (ms_rules ms) E)).
    rewrite <- R', List.nth_error_map in E'. match type of E' with option_map _ ?z = _ => destruct z as [refs'|] eqn:F; [|discriminate E'] end. cbn [option_map] in E'. injection E' as E'.
    apply (tr_meta g' ms' i refs'); [exact I'|exact F|]. rewrite E'. exact IH.
  - rewrite B in I. apply (tr_rule g' sec i r); assumption.
Qed.
Lemma listed_alike : forall g g' node ph m, alike g g' -> listed_match g node ph m -> listed_match g' node ph m.
Proof. intros g g' node ph m A (C & k & K & T). split; [exact C|]. exists k. split; [exact K|]. exact (traced_alike g g' A _ _ _ _ _ _ _ T). Qed.
Lemma candidate_alike : forall g g' phs i m, alike g g' -> candidate g phs i m -> candidate g' phs i m.
Proof. intros g g' phs i m A (ph & E & L). exists ph. split; [exact E|exact (listed_alike g g' _ _ _ A L)]. Qed.
Lemma best_alike : forall g g' phs i m, alike g g' -> first_best g phs i m -> first_best g' phs i m.
Proof.
  intros g g' phs i m A (C & F). split; [exact (candidate_alike g g' _ _ _ A C)|]. intros i' m' C'. apply F. exact (candidate_alike g' g _ _ _ (alike_sym _ _ A) C').
Qed.
Lemma answer_alike : forall g g' x phs o, alike g g' -> answer g x phs o -> answer g' x phs o.
Proof.
  intros g g' x phs [r|] A H.
  - destruct H as (i & m & ph & ws & F & R). exists i, m, ph, ws. split; [exact (best_alike g g' _ _ _ A F)|exact R].
  - intros i m C. apply (H i m). exact (candidate_alike g' g _ _ _ (alike_sym _ _ A) C).
Qed.
Lemma grammar_loads : forall e atof gr g, uni_ok (e_uni e) -> get_grammar e atof gr = Ok g -> grammar_of (e_uni e) atof gr g /\ is_loaded g.
Proof.
  intros e atof gr g U H. unfold get_grammar in H. destruct (load_grammar (e_uni e) atof gr) as [L| |] eqn:E; try discriminate. cbn [obind] in H. injection H as <-. split.
  - destruct (accepted _ _ _ _ U E) as (src & ms & rs & A1 & A2 & A3 & A4 & A5 & A6 & _). exists src, ms, rs. auto 10.
  - exists (e_uni e), atof, gr, L. auto.
Qed.
Lemma grammar_exists : forall e atof gr g, uni_ok (e_uni e) -> grammar_of (e_uni e) atof gr g -> exists g', get_grammar e atof gr = Ok g' /\ alike g g'.
Proof.
  intros e atof gr g U (src & ms & rs & A1 & A2 & A3 & A4 & A5 & A6). destruct (proj2 (proj1 (load_iff (e_uni e) atof gr U))) as (L & E); [exists src, ms, rs; auto|].
  destruct (accepted _ _ _ _ U E) as (src' & ms' & rs' & B1 & B2 & B3 & B4 & B5 & B6 & _). rewrite (effective_det _ _ _ B1 A1) in B2. destruct (means_det _ _ _ _ _ _ _ U A2 B2) as (-> & ->).
  exists (gl_grammar L). split; [unfold get_grammar; rewrite E; reflexivity|]. split; congruence.
Qed.
Lemma grammar_cases : forall e atof gr, uni_ok (e_uni e) ->
  (exists g, get_grammar e atof gr = Ok g /\ grammar_of (e_uni e) atof gr g /\ is_loaded g) \/ exists m, get_grammar e atof gr = Throw m /\ grammar_refused (e_uni e) atof gr m.
Proof.
  intros e atof gr U. destruct (get_grammar e atof gr) as [g|m|] eqn:E.
  - left. exists g. split; [reflexivity|apply grammar_loads; assumption].
  - right. exists m. split; [reflexivity|]. unfold get_grammar in E. destruct (load_grammar (e_uni e) atof gr) as [L|m'|] eqn:F; try discriminate. cbn [obind] in E. injection E as ->. apply (rejected _ _ _ _ U). exact F.
  - exfalso. unfold get_grammar in E. destruct (load_grammar (e_uni e) atof gr) as [L|m'|] eqn:F; try discriminate. exact (proj2 (load_iff (e_uni e) atof gr U) F).
Qed.
Lemma grammar_refusal : forall e atof gr m, uni_ok (e_uni e) -> (get_grammar e atof gr = Throw m <-> grammar_refused (e_uni e) atof gr m).
Proof.
  intros e atof gr m U. split.
  - intros H. destruct (grammar_cases e atof gr U) as [(g & E & _)|(m' & E & R)]; rewrite H in E; [discriminate|injection E as <-; exact R].
  - intros H. apply (rejected _ _ _ _ U) in H. unfold get_grammar. rewrite H. reflexivity.
Qed.

(** ** Lexicons *)
Lemma lexicon_loads : forall e lx x, load_lexicon e query_lex lx = Ok x <-> lexicon_of e lx x.
Proof. intros e lx x. apply loads. Qed.
Lemma lexicon_built : forall e lx x, lexicon_of e lx x -> built x.
Proof. intros e lx x H. apply lexicon_loads in H. exact (built_load _ _ _ _ H). Qed.
Lemma white_space : forall c, c_isspace c = true <-> white c.
Proof.
  intros c. unfold c_isspace, white. rewrite orb_true_iff, andb_true_iff, N.eqb_eq, !N.leb_le. split.
  - intros H. assert (c = 9 \/ c = 10 \/ c = 11 \/ c = 12 \/ c = 13 \/ c = 32)%N by lia. simpl. intuition.
  - intros H. simpl in H. lia.
Qed.
Lemma drop_space_spec : forall t, exists a, t = (a ++ drop_space t)%list /\ Forall white a.
Proof.
  induction t as [|c t (a & E & F)]; [exists []; split; [reflexivity|constructor]|]. cbn [drop_space]. destruct (c_isspace c) eqn:Q.
  - exists (c :: a). split; [cbn [app]; rewrite <- E; reflexivity|constructor; [apply white_space; exact Q|exact F]].
  - exists []. split; [reflexivity|constructor].
Qed.
(** What the calls do with the argument. *)
Lemma lexicon_given : forall e lx arg, given_as e lx arg ->
  (exists x y, lexicon_of e lx x /\ get_lexicon e arg = Ok y /\ forall g locale filt address,
      standardize_addr e g y locale filt address = standardize_addr e g x locale filt address /\
      parse_addr e y locale filt address = parse_addr e x locale filt address /\
      forall sort, match_addr e sort g y locale filt address = match_addr e sort g x locale filt address) \/
  exists m, rejection e lx m /\ get_lexicon e arg = Throw m.
Proof.
  intros e lx arg [(-> & H)|H].
  - assert (G : get_lexicon e lx = load_lexicon e query_lex lx).
    { apply not_archive. exact H. }
    rewrite G. destruct (load_lexicon e query_lex lx) as [x|m|] eqn:E.
    + left. exists x, x. split; [apply lexicon_loads; exact E|]. split; [reflexivity|]. intros g locale filt address. auto.
    + right. exists m. split; [apply (rejects e query_lex lx m); exact E|reflexivity].
    + exfalso. exact (no_ub e query_lex lx E).
  - left. destruct (compiled_results e e lx arg H) as (x & y & E & G & R). exists x, y. split; [apply lexicon_loads; exact E|]. split; [exact G|]. intros g locale filt address. apply (R e g).
Qed.
Lemma lexicon_exclusive : forall e lx x m, lexicon_of e lx x -> rejection e lx m -> False.
Proof. intros e lx x m H R. apply lexicon_loads in H. apply (rejects e query_lex lx m) in R. congruence. Qed.
Lemma lexicon_one : forall e lx x y, lexicon_of e lx x -> lexicon_of e lx y -> x = y.
Proof. intros e lx x y H K. apply lexicon_loads in H, K. congruence. Qed.

(** A word is a column, so it contains no tab. *)
Lemma columns_no_tab : forall t cs, LexFile_spec.columns 9%N t cs -> forall i, ~ In 9%N (nth i cs []).
Proof.
  intros t cs H. induction H as [t N|a t cs N H IH]; intros i.
  - destruct i as [|[|i]]; cbn [nth]; [exact N|intros []|intros []].
  - destruct i as [|i]; cbn [nth]; [exact N|apply IH].
Qed.
Lemma accepted_no_tab : forall e loc l es left le, LexDiag_spec.accepted e loc l es left -> In le es -> ~ In 9%N (le_word le).
Proof.
  intros e loc l es left le [(_ & -> & _)|(le1 & t & (t1 & _ & _ & (cs & cs1 & C & Q & W & _) & _) & _ & -> & _)] I; [destruct I|]. destruct I as [<-|[]]. rewrite W.
  destruct Q as [(E & _)|(-> & _)]; [|apply (columns_no_tab _ _ C)]. subst cs. exact (columns_no_tab _ _ C 1%nat).
Qed.
Lemma entries_no_tab : forall e loc ls es le, entries_of e loc ls es -> In le es -> ~ In 9%N (le_word le).
Proof.
  intros e loc ls es le H. induction H as [|l ls a left b A H IH]; intros I; [destruct I|]. apply in_app_iff in I. destruct I as [I|I]; [exact (accepted_no_tab _ _ _ _ _ _ A I)|exact (IH I)].
Qed.
Lemma lexicon_tabs : forall e lx x, lexicon_of e lx x -> tab_free x.
Proof.
  intros e lx x (lg & loc & es & dg & M & _ & _ & _ & _ & _ & _ & _ & _ & F) w L.
  assert (N : forall le, In le es -> ~ In 9%N (le_word le)).
  { intros le I. destruct M as (ls & ended & pre & h & post & _ & _ & _ & _ & [(_ & E & _)|(_ & post' & r & es' & e1 & l1 & e2 & l2 & _ & E & A1 & A2 & -> & _)]).
    - exact (entries_no_tab _ _ _ _ _ E I).
    - rewrite !in_app_iff in I. destruct I as [I|[I|I]]; [exact (entries_no_tab _ _ _ _ _ E I)|exact (accepted_no_tab _ _ _ _ _ _ A1 I)|exact (accepted_no_tab _ _ _ _ _ _ A2 I)]. }
  destruct (F w) as (sub & W & O). unfold listed in L. destruct (lex_find x w) as [|le k] eqn:E; [congruence|].
  assert (I : In le sub). { assert (G : forall (a : list lexentry) l k', once a l k' -> forall y, In y k' -> In y l). { intros a l k' H. induction H; intros y J; [exact J| |right; auto]. destruct J as [->|J]; [left; reflexivity|right; auto]. }
    apply (G _ _ _ O). left. reflexivity. }
  assert (J : le_word le = w /\ In le es). { clear - W I. induction W as [|le' l k' Q W IH|le' l k' Q W IH]; [destruct I| |destruct (IH I); split; [assumption|right; assumption]].
    destruct I as [->|I]; [split; [exact Q|left; reflexivity]|]. destruct (IH I). split; [assumption|right; assumption]. }
  destruct J as (<- & J). exact (N le J).
Qed.

(** ** Tokenizations *)
Lemma reading_eq : forall e x locale address, search_text e x (prepared e locale address) = reading e x locale address.
Proof. reflexivity. Qed.
Lemma phrases_cases : forall e x locale filt address, built x -> simple_words x -> apart_tables (e_uni e) -> word_tables (e_uni e) ->
  let t := reading e x locale address in blank_lines (e_uni e) t -> case_clear (e_uni e) x t -> tabs_apart (e_uni e) x ->
  (exists phs, make_phrases e x locale filt address = Ok phs /\ read_address (e_uni e) x filt t phs /\ ~ crowded (e_uni e) x filt t) \/
  (make_phrases e x locale filt address = UB /\ crowded (e_uni e) x filt t /\ forall phs, ~ read_address (e_uni e) x filt t phs).
Proof.
  intros e x locale filt address B SW AT WT t BL CE NT.
  assert (R := fun phs => make_phrases_are e x locale filt address phs B SW AT WT BL CE NT). fold (reading e x locale address) t in R.
  destruct (phrases_ok e x locale filt address B SW BL) as (ks & G & M).
  assert (A := fun ks => all_tokens_are e x (prepared e locale address) ks B SW AT WT BL CE NT). fold t in A.
  apply tokens_sifted in G. destruct G as (all & Ea & Sf). cbn [z_lex z_filter] in Ea, Sf.
  assert (Sf' := sifted_ext _ _ _ _ (filter_iff filt) Sf).
  assert (TA := proj1 (A all) Ea).
  assert (NT' : Forall (fun k => ~ In 9%N (t_text k)) ks).
  { apply Forall_forall. intros k I. assert (F := tokens_no_tab e x _ all B SW WT BL NT Ea). rewrite Forall_forall in F. apply F. exact (sifted_in _ _ _ _ Sf I). }
  assert (U : forall all' ks', tokens_are (e_uni e) x t all' -> sifted (fun k => exists c, In c (t_in k) /\ in_list filt c) all' ks' -> phrases ks' = phrases ks).
  { intros all' ks' T' S'. apply A in T'. rewrite Ea in T'. injection T' as <-. f_equal. clear - Sf' S'. revert ks' S'. induction Sf' as [|k a b Q Sf IH|k a b Q Sf IH]; intros ks' S'; inversion S'; subst; auto; try contradiction. f_equal. auto. }
  destruct (le_gt_dec (phrases ks) 31) as [L|L].
  - left. destruct (M L) as (alts & P). exists (ks :: alts). split; [exact P|]. split; [apply R; exact P|]. intros (all' & ks' & bs & a & T' & S' & Pk & Lb).
    rewrite (picked_len _ _ _ _ _ Pk), (U all' ks' T' S') in Lb. lia.
  - right. assert (P : make_phrases e x locale filt address = UB).
    { unfold make_phrases. assert (G : get_tokens e (set_filter (mkTz x []) (as_type filt)) (prepared e locale address) = Ok ks) by (apply tokens_sifted; exists all; auto).
      rewrite G. cbn [obind]. unfold set_filter. cbn [z_lex]. rewrite (too_many (e_uni e) x ks L). reflexivity. }
    split; [exact P|]. split.
    + exists all, ks. eexists. eexists. split; [exact TA|]. split; [exact Sf'|]. split; [exact (alt_picked (e_uni e) x 0 ks 0 NT')|]. rewrite bits_length. exact L.
    + intros phs K. apply R in K. congruence.
Qed.

(** ** The calls *)
Lemma standardize_end : forall e atof address gr lx arg locale filt, real_tables (e_uni e) -> given_as e lx arg -> readable_with e lx locale address ->
  manageable e atof gr lx locale filt address ->
  (forall row, address_row (std_standardize e atof address gr arg locale filt) = Ok row <-> standardize_row e atof address gr lx locale filt row) /\
  (std_standardize e atof address gr arg locale filt = UB <->
     exists g x, grammar_of (e_uni e) atof gr g /\ lexicon_of e lx x /\ crowded (e_uni e) x filt (reading e x locale address)).
Proof.
  intros e atof address gr lx arg locale filt (U & AT & WT & TT) GA RD MG. unfold std_standardize.
  destruct (grammar_cases e atof gr U) as [(g & Eg & Gg & Lg)|(m & Eg & Rg)]; rewrite Eg; cbn [obind].
  - destruct (lexicon_given e lx arg GA) as [(x & y & Lx & Ey & Q)|(m & Rx & Ey)]; rewrite Ey; cbn [obind].
    + rewrite (proj1 (Q g locale filt address)). destruct (RD x Lx) as (SW & BL & CE). assert (NT : tabs_apart (e_uni e) x) by exact (conj TT (lexicon_tabs _ _ _ Lx)). assert (B := lexicon_built _ _ _ Lx).
      assert (NR : (exists m, grammar_refused (e_uni e) atof gr m) \/ (exists m, rejection e lx m) -> False).
      { intros [(m & K)|(m & K)]; [apply (grammar_refusal e atof gr m U) in K; congruence|exact (lexicon_exclusive _ _ _ _ Lx K)]. }
      destruct (phrases_cases e x locale filt address B SW AT WT BL CE NT) as [(phs & P & R & NC)|(P & C & NR')].
      * destruct (MG g x phs Gg Lx R) as (NN & SZ & CB).
        assert (AN := fun o => address_answer e g x locale filt address phs o Lg NN B SW AT WT BL CE NT R SZ CB).
        assert (DD : exists o, standardize_addr e g x locale filt address = Ok o).
        { destruct (answer_total e g x locale filt address Lg NN B SW BL) as (ks & G & M).
          unfold make_phrases, set_filter in P. cbn [z_lex] in P. rewrite G in P. cbn [obind] in P. destruct (get_alt_tokens (e_uni e) x ks) as [alts| |] eqn:Ea; cbn [obind] in P; try discriminate. injection P as <-.
          assert (L31 : (phrases ks <= 31)%nat). { destruct (le_gt_dec (phrases ks) 31) as [L|L]; [exact L|]. rewrite (too_many (e_uni e) x ks L) in Ea. discriminate. }
          destruct (M L31) as (alts' & Ea' & M'). injection Ea' as <-. destruct (M' SZ) as (o & Eo & _). exists o. exact Eo. }
        destruct DD as (o & Eo). rewrite Eo. assert (Ao := proj1 (AN o) Eo). split.
        -- intros row. split.
           ++ intros H. left. exists g, x, phs, o. split; [exact Gg|]. split; [exact Lx|]. split; [exact R|]. split; [exact Ao|]. destruct o as [r|]; cbn [address_row] in H; injection H as <-; reflexivity.
           ++ intros [(g' & x' & phs' & o' & G' & L' & R' & A' & ->)|(K & _)]; [|destruct (NR K)].
              rewrite <- (lexicon_one _ _ _ _ Lx L') in R', A'. destruct (grammar_exists e atof gr g' U G') as (g2 & E2 & AL). rewrite Eg in E2. injection E2 as <-.
              assert (phs' = phs) as ->. { apply (make_phrases_are e x locale filt address phs' B SW AT WT BL CE NT) in R'. congruence. }
              apply (answer_alike _ _ _ _ _ AL) in A'. apply AN in A'. rewrite Eo in A'. injection A' as <-. destruct o; reflexivity.
        -- split; [discriminate|]. intros (g' & x' & _ & L' & C). exfalso. rewrite <- (lexicon_one _ _ _ _ Lx L') in C. exact (NC C).
      * assert (E : standardize_addr e g x locale filt address = UB) by (unfold standardize_addr; rewrite P; reflexivity). rewrite E. cbn [address_row]. split.
        -- intros row. split; [discriminate|]. intros [(g' & x' & phs' & o' & _ & L' & R' & _)|(K & _)]; [|destruct (NR K)]. exfalso. rewrite <- (lexicon_one _ _ _ _ Lx L') in R'. exact (NR' phs' R').
        -- split; [|reflexivity]. intros _. exists g, x. auto.
    + cbn [address_row]. split.
      * intros row. split; [intros H; injection H as <-; right; split; [right; exists m; exact Rx|reflexivity]|].
        intros [(g' & x' & phs' & o' & _ & L' & _)|(_ & ->)]; [destruct (lexicon_exclusive _ _ _ _ L' Rx)|reflexivity].
      * split; [discriminate|]. intros (g' & x' & _ & L' & _). destruct (lexicon_exclusive _ _ _ _ L' Rx).
  - cbn [address_row]. split.
    + intros row. split; [intros H; injection H as <-; right; split; [left; exists m; exact Rg|reflexivity]|].
      intros [(g' & x' & phs' & o' & G' & _)|(_ & ->)]; [|reflexivity]. exfalso. destruct (grammar_exists e atof gr g' U G') as (g2 & E2 & _). congruence.
    + split; [discriminate|]. intros (g' & x' & G' & _). exfalso. destruct (grammar_exists e atof gr g' U G') as (g2 & E2 & _). congruence.
Qed.
Lemma standardize_message : forall e atof address gr lx arg locale filt m, real_tables (e_uni e) -> given_as e lx arg -> readable_with e lx locale address ->
  manageable e atof gr lx locale filt address ->
  (std_standardize e atof address gr arg locale filt = Throw m <->
     grammar_refused (e_uni e) atof gr m \/ ((exists g, grammar_of (e_uni e) atof gr g) /\ rejection e lx m)).
Proof.
  intros e atof address gr lx arg locale filt m RT GA RD MG. assert (RT' := RT). destruct RT' as (U & AT & WT & TT).
  destruct (grammar_cases e atof gr U) as [(g & Eg & Gg & Lg)|(m' & Eg & Rg)].
  - assert (NG : forall m, ~ grammar_refused (e_uni e) atof gr m) by (intros m' K; apply (grammar_refusal e atof gr m' U) in K; congruence).
    destruct (lexicon_given e lx arg GA) as [(x & y & Lx & Ey & Q)|(m' & Rx & Ey)].
    + split; [|intros [K|(_ & K)]; [destruct (NG _ K)|destruct (lexicon_exclusive _ _ _ _ Lx K)]]. intros H. exfalso.
      destruct (standardize_end e atof address gr lx arg locale filt RT GA RD MG) as (SE & _).
      destruct (proj1 (SE (repeat None 17))) as [(g' & x' & phs' & o' & G' & L' & R' & A' & _)|([(m' & K)|(m' & K)] & _)]; [rewrite H; reflexivity| |exact (NG _ K)|exact (lexicon_exclusive _ _ _ _ Lx K)].
      rewrite <- (lexicon_one _ _ _ _ Lx L') in R'. destruct (RD x Lx) as (SW & BL & CE). assert (NT : tabs_apart (e_uni e) x) by exact (conj TT (lexicon_tabs _ _ _ Lx)). assert (B := lexicon_built _ _ _ Lx).
      destruct (MG g x phs' Gg Lx R') as (NN & SZ & CB).
      destruct (grammar_exists e atof gr g' U G') as (g2 & E2 & AL). rewrite Eg in E2. injection E2 as <-. rewrite <- (lexicon_one _ _ _ _ Lx L') in A'. apply (answer_alike _ _ _ _ _ AL) in A'.
      apply (address_answer e g x locale filt address phs' o' Lg NN B SW AT WT BL CE NT R' SZ CB) in A'.
      unfold std_standardize in H. rewrite Eg in H. cbn [obind] in H. rewrite Ey in H. cbn [obind] in H. rewrite (proj1 (Q g locale filt address)), A' in H. discriminate.
    + unfold std_standardize. rewrite Eg. cbn [obind]. rewrite Ey. cbn [obind]. split.
      * intros H. injection H as <-. right. split; [exists g; exact Gg|exact Rx].
      * intros [K|(_ & K)]; [destruct (NG _ K)|]. apply (rejects e query_lex lx m) in K. apply (rejects e query_lex lx m') in Rx. rewrite K in Rx. injection Rx as <-. reflexivity.
  - unfold std_standardize. rewrite Eg. cbn [obind]. split.
    + intros H. injection H as <-. left. exact Rg.
    + intros [K|((g & K) & _)]; [apply (grammar_refusal e atof gr m U) in K; congruence|]. destruct (grammar_exists e atof gr g U K) as (g2 & E2 & _). congruence.
Qed.
Lemma parse_end : forall e address lx arg locale filt, real_tables (e_uni e) -> given_as e lx arg -> readable_with e lx locale address ->
  (forall rows, parse_table (std_parse_address e address arg locale filt) = Ok rows <-> parse_rows_of e address lx locale filt rows) /\
  (std_parse_address e address arg locale filt = UB <-> exists x, lexicon_of e lx x /\ crowded (e_uni e) x filt (reading e x locale address)) /\
  (forall m, std_parse_address e address arg locale filt = Throw m <-> rejection e lx m).
Proof.
  intros e address lx arg locale filt (U & AT & WT & TT) GA RD. unfold std_parse_address.
  destruct (lexicon_given e lx arg GA) as [(x & y & Lx & Ey & Q)|(m & Rx & Ey)]; rewrite Ey; cbn [obind].
  - rewrite (proj1 (proj2 (Q (mkGrammar [] [] []) locale filt address))). destruct (RD x Lx) as (SW & BL & CE). assert (NT : tabs_apart (e_uni e) x) by exact (conj TT (lexicon_tabs _ _ _ Lx)). assert (B := lexicon_built _ _ _ Lx).
    destruct (phrases_cases e x locale filt address B SW AT WT BL CE NT) as [(phs & P & R & NC)|(P & C & NR')].
    + assert (AP := fun rows => address_parse e x locale filt address phs rows B SW AT WT BL CE NT R). split; [|split].
      * intros rows. rewrite AP. split.
        -- intros H. left. exists x, phs. auto.
        -- intros [(x' & phs' & L' & R' & K)|((m & K) & _)]; [|destruct (lexicon_exclusive _ _ _ _ Lx K)]. rewrite <- (lexicon_one _ _ _ _ Lx L') in R'.
           apply (make_phrases_are e x locale filt address phs' B SW AT WT BL CE NT) in R'. rewrite P in R'. injection R' as <-. exact K.
      * unfold parse_addr. rewrite P. cbn [obind]. split; [discriminate|]. intros (x' & L' & C). exfalso. rewrite <- (lexicon_one _ _ _ _ Lx L') in C. exact (NC C).
      * intros m. unfold parse_addr. rewrite P. cbn [obind]. split; [discriminate|]. intros K. destruct (lexicon_exclusive _ _ _ _ Lx K).
    + assert (E : parse_addr e x locale filt address = UB) by (unfold parse_addr; rewrite P; reflexivity). rewrite E. cbn [parse_table]. split; [|split].
      * intros rows. split; [discriminate|]. intros [(x' & phs' & L' & R' & _)|((m & K) & _)]; [|destruct (lexicon_exclusive _ _ _ _ Lx K)].
        exfalso. rewrite <- (lexicon_one _ _ _ _ Lx L') in R'. exact (NR' phs' R').
      * split; [|reflexivity]. intros _. exists x. auto.
      * intros m. split; [discriminate|]. intros K. destruct (lexicon_exclusive _ _ _ _ Lx K).
  - cbn [parse_table]. split; [|split].
    + intros rows. split; [intros H; injection H as <-; right; split; [exists m; exact Rx|reflexivity]|].
      intros [(x' & phs' & L' & _)|(_ & ->)]; [destruct (lexicon_exclusive _ _ _ _ L' Rx)|reflexivity].
    + split; [discriminate|]. intros (x' & L' & _). destruct (lexicon_exclusive _ _ _ _ L' Rx).
    + intros m'. split; [intros H; injection H as <-; exact Rx|]. intros K. apply (rejects e query_lex lx m') in K. apply (rejects e query_lex lx m) in Rx. congruence.
Qed.
Lemma match_end : forall e atof sort address gr lx arg locale filt, real_tables (e_uni e) -> given_as e lx arg -> readable_with e lx locale address ->
  manageable e atof gr lx locale filt address ->
  (forall g x phs rows, get_grammar e atof gr = Ok g -> lexicon_of e lx x -> read_address (e_uni e) x filt (reading e x locale address) phs -> search_all g phs = Ok rows -> sorted_rows rows (sort rows)) ->
  (forall out, match_table (std_match_address e atof sort address gr arg locale filt) = Ok out -> match_rows_of e atof address gr lx locale filt out) /\
  (std_match_address e atof sort address gr arg locale filt = UB <->
     exists g x, grammar_of (e_uni e) atof gr g /\ lexicon_of e lx x /\ crowded (e_uni e) x filt (reading e x locale address)) /\
  (forall m, std_match_address e atof sort address gr arg locale filt = Throw m <->
     grammar_refused (e_uni e) atof gr m \/ ((exists g, grammar_of (e_uni e) atof gr g) /\ rejection e lx m)).
Proof.
  intros e atof sort address gr lx arg locale filt (U & AT & WT & TT) GA RD MG HS. unfold std_match_address.
  destruct (grammar_cases e atof gr U) as [(g & Eg & Gg & Lg)|(m & Eg & Rg)]; rewrite Eg; cbn [obind].
  - assert (NG : forall m, ~ grammar_refused (e_uni e) atof gr m) by (intros m' K; apply (grammar_refusal e atof gr m' U) in K; congruence).
    destruct (lexicon_given e lx arg GA) as [(x & y & Lx & Ey & Q)|(m & Rx & Ey)]; rewrite Ey; cbn [obind].
    + rewrite (proj2 (proj2 (Q g locale filt address)) sort). destruct (RD x Lx) as (SW & BL & CE). assert (NT : tabs_apart (e_uni e) x) by exact (conj TT (lexicon_tabs _ _ _ Lx)). assert (B := lexicon_built _ _ _ Lx).
      destruct (phrases_cases e x locale filt address B SW AT WT BL CE NT) as [(phs & P & R & NC)|(P & C & NR')].
      * destruct (MG g x phs Gg Lx R) as (NN & SZ & CB).
        destruct (address_matches e sort g x locale filt address phs Lg B SW AT WT BL CE NT R CB (fun rows => HS g x phs rows Eg Lx R)) as (out & Eo & Ro). rewrite Eo. cbn [match_table]. split; [|split].
        -- intros out' H. injection H as <-. left. exists g, x, phs. auto.
        -- split; [discriminate|]. intros (g' & x' & _ & L' & C). exfalso. rewrite <- (lexicon_one _ _ _ _ Lx L') in C. exact (NC C).
        -- intros m. split; [discriminate|]. intros [K|(_ & K)]; [destruct (NG _ K)|destruct (lexicon_exclusive _ _ _ _ Lx K)].
      * assert (E : match_addr e sort g x locale filt address = UB) by (unfold match_addr; rewrite P; reflexivity). rewrite E. cbn [match_table]. split; [|split].
        -- discriminate.
        -- split; [|reflexivity]. intros _. exists g, x. auto.
        -- intros m. split; [discriminate|]. intros [K|(_ & K)]; [destruct (NG _ K)|destruct (lexicon_exclusive _ _ _ _ Lx K)].
    + cbn [match_table]. split; [|split].
      * intros out H. injection H as <-. right. split; [right; exists m; exact Rx|reflexivity].
      * split; [discriminate|]. intros (g' & x' & _ & L' & _). destruct (lexicon_exclusive _ _ _ _ L' Rx).
      * intros m'. split; [intros H; injection H as <-; right; split; [exists g; exact Gg|exact Rx]|]. intros [K|(_ & K)]; [destruct (NG _ K)|].
        apply (rejects e query_lex lx m') in K. apply (rejects e query_lex lx m) in Rx. congruence.
  - cbn [match_table]. assert (NG : forall g', ~ grammar_of (e_uni e) atof gr g'). { intros g' G'. destruct (grammar_exists e atof gr g' U G') as (g2 & E2 & _). congruence. } split; [|split].
    + intros out H. injection H as <-. right. split; [left; exists m; exact Rg|reflexivity].
    + split; [discriminate|]. intros (g' & x' & G' & _). destruct (NG g' G').
    + intros m'. split; [intros H; injection H as <-; left; exact Rg|]. intros [K|((g' & G') & _)]; [|destruct (NG g' G')]. apply (grammar_refusal e atof gr m' U) in K. congruence.
Qed.
