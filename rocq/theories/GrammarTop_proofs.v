(** Loading a grammar: success is characterized, the result is closed and well formed. *)
From Coq Require Import String List NArith ZArith Bool Lia.
From Verif Require Import Base_model Class_model Float_model Uni_model Token_model Rule_model Search_model Grammar_model
  Search_spec Grammar_spec Search_proofs SearchTop_proofs GrammarLine_proofs GrammarLoad_proofs GrammarLink_proofs.
Import ListNotations.
Local Open Scope N_scope.

Lemma kept_unlinked : forall u d rules, kept u d rules -> Forall unlinked rules.
Proof.
  induction 1; auto. constructor; auto. split; eauto. destruct H as (_ & H). destruct ns; [congruence|discriminate].
Qed.

Lemma defines_facts : forall u atof bs ms rs, defines u atof bs ms rs ->
  Forall (fun m => Forall unlinked (ms_rules m)) ms /\
  Forall (fun sec => Forall (fun r => rule_valid r = true) (rs_rules sec)) rs.
Proof.
  induction 1 as [|n bs ms rs H IH|n ls rules bs ms rs Hn Ha Hk H IH|n ls rules bs ms rs Hn Ha H1 H IH];
    try (split; constructor; fail); try exact IH; destruct IH; split; auto; constructor; auto; simpl.
  - eapply kept_unlinked; eauto.
  - clear - H1. induction H1; constructor; auto. apply rule_parse_spec in H. unfold rule_parse in H.
    destruct (rule_loop _ _ _ _ _) as [[k r]|]; [|discriminate].
    destruct (rule_valid r) eqn:E; [|discriminate]. injection H; intros; subst. exact E.
Qed.

Lemma new_ref_inj : forall ns ns', map new_ref ns = map new_ref ns' -> ns = ns'.
Proof.
  induction ns as [|n ns IH]; intros [|n' ns'] H; simpl in H; try discriminate; auto.
  injection H; intros. f_equal; auto.
Qed.
Lemma kept_det : forall u d r, uni_ok u -> kept u d r -> forall r', kept u d r' -> r = r'.
Proof.
  intros u d r Hu H. induction H as [|l ns ls ms Hl Hk IH|l ls ms Hl Hk IH]; intros r' H'.
  - inversion H'; auto.
  - inversion H' as [|l1 ns1 ls1 ms1 Hl1 Hk1|l1 ls1 ms1 Hl1 Hk1]; subst.
    + rewrite (IH _ Hk1). f_equal.
      rewrite <- (meta_rule_of_spec u l ns Hu Hl). apply meta_rule_of_spec; auto.
    + exfalso. exact (Hl1 _ Hl).
  - inversion H' as [|l1 ns1 ls1 ms1 Hl1 Hk1|l1 ls1 ms1 Hl1 Hk1]; subst.
    + exfalso. exact (Hl _ Hl1).
    + auto.
Qed.
Lemma rule_lines_det : forall atof d r, Forall2 (rule_line atof) d r -> forall r', Forall2 (rule_line atof) d r' -> r = r'.
Proof.
  intros atof d r H. induction H as [|l x ls rs Hx Hr IH]; intros r' H'; inversion H' as [|? y ? ? Hy Hr']; subst; auto.
  f_equal; auto. apply rule_parse_spec in Hx. apply rule_parse_spec in Hy. congruence.
Qed.
Lemma defines_det : forall u atof bs ms rs, uni_ok u -> defines u atof bs ms rs ->
  forall ms' rs', defines u atof bs ms' rs' -> ms' = ms /\ rs' = rs.
Proof.
  intros u atof bs ms rs Hu H.
  induction H as [|n bs ms rs H IH|n ls rules bs ms rs Hn Ha Hk H IH|n ls rules bs ms rs Hn Ha Hk H IH]; intros ms' rs' H';
    inversion H' as [|n1 bs1 ms1 rs1 H1|n1 ls1 rules1 bs1 ms1 rs1 Hn1 Ha1 Hk1 H1|n1 ls1 rules1 bs1 ms1 rs1 Hn1 Ha1 Hk1 H1]; subst;
    try congruence; auto; destruct (IH _ _ H1); subst.
  - rewrite (kept_det _ _ _ Hu Hk _ Hk1). auto.
  - exfalso. destruct ls; [congruence|]. inversion Ha; inversion Ha1; contradiction.
  - exfalso. destruct ls; [congruence|]. inversion Ha; inversion Ha1; contradiction.
  - rewrite (rule_lines_det _ _ _ Hk _ Hk1). auto.
Qed.
Lemma means_det : forall u atof src ms rs ms' rs', uni_ok u -> means u atof src ms rs -> means u atof src ms' rs' ->
  ms' = ms /\ rs' = rs.
Proof.
  intros u atof src ms rs ms' rs' Hu (bs & D & _ & H) (bs' & D' & _ & H').
  destruct (doc_det u _ _ _ Hu D _ _ D'); subst. eapply defines_det; eauto.
Qed.

Lemma load_sections_spec : forall u atof file src, uni_ok u -> effective file src ->
  match load_sections u atof file with
  | Ok s => means u atof src (l_metas s) (l_rsecs s) /\ inv s
  | Throw _ => forall ms rs, ~ means u atof src ms rs
  | UB => False
  end.
Proof.
  intros u atof file src Hu Hb. rewrite (load_sections_effective u atof file src Hb).
  destruct (doc_exists u (seen_lines src) Hu) as (o & bs & Hdoc).
  assert (R := run_spec u atof Hu _ _ _ Hdoc load0 []).
  assert (Hcur0 : cur u atof load0 []) by (unfold cur; simpl; auto).
  specialize (R Hcur0 inv0 (fun K => K) (fun _ => eq_refl)).
  destruct (run u atof (seen_lines src) load0) as [s|m|]; cbn [obind]; auto.
  - destruct R as (R1 & R2 & R3 & ms & rs & R4 & R5 & R6). split; auto.
    specialize (R1 eq_refl). subst o. simpl in *. rewrite R5, R6.
    exists bs. split; auto. apply fresh_inv in R2. destruct R2 as (_ & R2). split; auto.
    inversion R4; subst; auto; congruence.
  - intros ms rs (bs' & M1 & M2 & M3). destruct (doc_det u _ _ _ Hu Hdoc _ _ M1). subst.
    apply R. split; auto. simpl. split.
    + constructor; auto.
    + exists ms, rs. apply df_empty. auto.
Qed.

Definition base (s : loadst) : grammar := mkGrammar (l_metas s) (l_rsecs s) (l_index s).

Lemma inv_prelinked : forall u atof src s, inv s -> means u atof src (l_metas s) (l_rsecs s) -> prelinked (base s).
Proof.
  intros u atof src s H (bs & _ & _ & M). destruct (defines_facts _ _ _ _ _ M) as (F1 & F2). destruct H.
  constructor; auto. intros ms r H1 H2. rewrite Forall_forall in F1. specialize (F1 ms H1).
  rewrite Forall_forall in F1. apply F1. exact H2.
Qed.

Lemma meta_rel_plain : forall g ms ms', Forall2 (meta_rel g) ms ms' -> plain ms' = plain ms.
Proof.
  induction 1; simpl; auto. unfold plain in *. simpl. rewrite IHForall2. f_equal.
  destruct H as (-> & H). f_equal. clear - H. induction H; simpl; auto. rewrite IHForall2. f_equal.
  clear - H. induction H; simpl; auto. destruct H as (-> & _). congruence.
Qed.

Lemma Forall2_nth : forall {A B} (R : A -> B -> Prop) l l' i x, Forall2 R l l' -> nth_error l i = Some x ->
  exists y, nth_error l' i = Some y /\ R x y.
Proof.
  intros A B R l l' i x H. revert i. induction H; intros [|i] K; simpl in *; try discriminate.
  - injection K; intros; subst. eauto.
  - eauto.
Qed.
Lemma Forall2_In_r : forall {A B} (R : A -> B -> Prop) l l' y, Forall2 R l l' -> In y l' -> exists x, In x l /\ R x y.
Proof.
  intros A B R l l' y H. induction H; simpl; intros K; [contradiction|]. destruct K as [<-|K]; eauto.
  destruct (IHForall2 K) as (z & H1 & H2). eauto.
Qed.

Lemma link_result : forall g g', prelinked g -> Forall2 (meta_rel g) (g_metas g) (g_metas g') ->
  g_rules g' = g_rules g -> g_index g' = g_index g -> Forall (meta_def g) (g_metas g) -> linked g'.
Proof.
  intros g g' Hg Hm Hr Hi Hd.
  assert (Hnames : map ms_name (g_metas g') = map ms_name (g_metas g)).
  { clear - Hm. induction Hm; simpl; auto. destruct H as (-> & _). congruence. }
  assert (Hsn : section_names g' = section_names g) by (unfold section_names; rewrite Hnames, Hr; reflexivity).
  assert (Hnth : forall i ms, nth_error (g_metas g) i = Some ms ->
            exists ms', nth_error (g_metas g') i = Some ms' /\ ms_name ms' = ms_name ms).
  { intros i ms K. destruct (Forall2_nth _ _ _ _ _ Hm K) as (y & Y1 & (Y2 & _)). eauto. }
  constructor.
  - rewrite Hsn. apply (pl_unique g Hg).
  - intros ms refs r H1 H2 H3.
    destruct (Forall2_In_r _ _ _ _ Hm H1) as (m & M1 & (M2 & M3)).
    destruct (Forall2_In_r _ _ _ _ M3 H2) as (refs0 & N1 & N2).
    destruct (Forall2_In_r _ _ _ _ N2 H3) as (r0 & O1 & (O2 & O3)).
    assert (K : ref_def g r0).
    { rewrite Forall_forall in Hd. specialize (Hd m M1). unfold meta_def in Hd. rewrite Forall_forall in Hd.
      specialize (Hd refs0 N1). rewrite Forall_forall in Hd. apply Hd. exact O1. }
    destruct (O3 K) as [(i & ms1 & P1 & P2 & P3)|(P0 & i & rs1 & P1 & P2 & P3)].
    + left. destruct (Hnth _ _ P2) as (ms' & Q1 & Q2). exists i, ms'. repeat split; auto. congruence.
    + right. split; auto. exists i, rs1. rewrite Hr. auto.
  - intros ms refs H1 H2.
    destruct (Forall2_In_r _ _ _ _ Hm H1) as (m & M1 & (M2 & M3)).
    destruct (Forall2_In_r _ _ _ _ M3 H2) as (refs0 & N1 & N2).
    destruct (pl_unlinked g Hg m refs0 M1 N1) as (K & _). intros ->. inversion N2; subst. congruence.
  - rewrite Hi. apply (pl_index_unique g Hg).
  - intros n i K. rewrite Hi in K. rewrite Hr. destruct (pl_index g Hg n i K) as [(ms & P1 & P2)|P]; auto.
    left. destruct (Hnth _ _ P1) as (ms' & Q1 & Q2). exists ms'. split; auto. congruence.
  - intros n K. rewrite Hsn in K. rewrite Hi. apply (pl_indexed g Hg) in K. apply in_map_iff in K.
    destruct K as ((m & i) & <- & K). exists i. exact K.
Qed.

Lemma closed_def : forall g, Forall (meta_def g) (g_metas g) <-> closed (g_metas g) (g_rules g).
Proof.
  intros g. unfold closed, refers, meta_def, ref_def. split.
  - intros H n (m & refs & r & H1 & H2 & H3 & <-). rewrite Forall_forall in H. specialize (H m H1).
    rewrite Forall_forall in H. specialize (H refs H2). rewrite Forall_forall in H. apply H. exact H3.
  - intros H. apply Forall_forall. intros m H1. apply Forall_forall. intros refs H2. apply Forall_forall.
    intros r H3. apply H. exists m, refs, r. auto.
Qed.

Lemma load_grammar_spec : forall u atof file src, uni_ok u -> effective file src ->
  match load_grammar u atof file with
  | Ok L => let g := gl_grammar L in exists ms rs,
      means u atof src ms rs /\ closed ms rs /\ In ADDRESS (names_of ms rs) /\
      plain (g_metas g) = plain ms /\ g_rules g = rs /\ linked g /\ section_names g = names_of ms rs /\
      rules_checked rs /\
      gl_status L <> CHECK_FATAL /\
      (gl_status L = CHECK_OK <-> forall n, In n (names_of ms rs) -> refers ms n \/ n = ADDRESS) /\
      (gl_status L = CHECK_OK -> gl_issues L = [])
  | Throw _ => ~ exists ms rs, means u atof src ms rs /\ closed ms rs /\ In ADDRESS (names_of ms rs)
  | UB => False
  end.
Proof.
  intros u atof file src Hu Hb. unfold load_grammar.
  assert (S := load_sections_spec u atof file src Hu Hb).
  destruct (load_sections u atof file) as [s|m|]; cbn [obind].
  - destruct S as (M & I). assert (P := inv_prelinked u atof src s I M).
    assert (M' := M). destruct M' as (bs & D1 & D2 & D3). destruct (defines_facts _ _ _ _ _ D3) as (F1 & F2).
    destruct (update_pointers_spec (base s) P F2) as (g' & st & issues & E & R1 & R2 & R3 & R4 & R5 & R6).
    unfold base in E. rewrite E. cbn [obind].
    assert (Hc : st <> CHECK_FATAL <-> closed (l_metas s) (l_rsecs s) /\ In ADDRESS (names_of (l_metas s) (l_rsecs s))).
    { rewrite R4. rewrite closed_def. reflexivity. }
    assert (Hok : st <> CHECK_FATAL -> let g := g' in exists ms rs,
      means u atof src ms rs /\ closed ms rs /\ In ADDRESS (names_of ms rs) /\
      plain (g_metas g) = plain ms /\ g_rules g = rs /\ linked g /\ section_names g = names_of ms rs /\
      rules_checked rs /\
      st <> CHECK_FATAL /\
      (st = CHECK_OK <-> forall n, In n (names_of ms rs) -> refers ms n \/ n = ADDRESS) /\
      (st = CHECK_OK -> issues = [])).
    { intros Hst g. exists (l_metas s), (l_rsecs s). destruct (proj1 Hc Hst) as (C1 & C2).
      assert (Hnames : map ms_name (g_metas g') = map ms_name (l_metas s)).
      { change (l_metas s) with (g_metas (base s)). clear - R1. induction R1; simpl; auto. destruct H as (-> & _). congruence. }
      split; auto. split; auto. split; auto. split. { apply (meta_rel_plain (base s)). exact R1. }
      split; auto. split. { apply (link_result (base s)); auto. apply R4. exact Hst. }
      split. { unfold section_names, names_of, g. rewrite Hnames, R2. reflexivity. }
      split.
      { intros sec r K1 K2. rewrite Forall_forall in F2. specialize (F2 sec K1). rewrite Forall_forall in F2.
        apply rule_valid_spec. apply F2. exact K2. }
      split; auto. }
    destruct st; cbn [gl_grammar gl_status gl_issues].
    + intros (ms & rs & K1 & K2 & K3).
      assert (ms = l_metas s /\ rs = l_rsecs s) as (-> & ->).
      { eapply means_det; eauto. }
      assert (CHECK_FATAL <> CHECK_FATAL) by (apply Hc; auto). congruence.
    + apply Hok. discriminate.
    + apply Hok. discriminate.
  - intros (ms & rs & K1 & _). exact (S ms rs K1).
  - exact S.
Qed.

Lemma load_grammar_effective : forall u atof file L, load_grammar u atof file = Ok L -> exists src, effective file src.
Proof.
  intros u atof file L H.
  assert (D : effective file file \/ (exists d t, file = 0xFEFF :: d :: t /\ d < 128 /\ d <> 10) \/ (forall t, ~ effective file t)).
  { destruct file as [|c r]. { left. constructor. intros (t & K). discriminate. }
    destruct (N.eq_dec c 0xFEFF) as [->|Hc].
    2: { left. constructor. intros (t & K). injection K; intros; congruence. }
    destruct r as [|d t].
    - right. right. intros t K. inversion K; subst. apply H0. exists []. reflexivity.
    - destruct (N.lt_ge_cases d 128) as [H1|H1]; [destruct (N.eq_dec d 10) as [->|H2]|].
      + right. right. intros t' K. inversion K; subst; [|congruence]. apply H0. exists (10 :: t). reflexivity.
      + right. left. exists d, t. auto.
      + right. right. intros t' K. inversion K; subst; [|lia]. apply H0. exists (d :: t). reflexivity. }
  destruct D as [D|[(d & t & -> & H1 & H2)|D]]; eauto.
  - exists t. constructor; auto.
  - destruct (load_sections_ineffective u atof file D) as (m & E). unfold load_grammar in H. rewrite E in H. discriminate.
Qed.

(** What every loaded grammar satisfies. *)
Lemma loaded_facts : forall u atof file L, uni_ok u -> load_grammar u atof file = Ok L ->
  linked (gl_grammar L) /\ In ADDRESS (section_names (gl_grammar L)) /\ rules_checked (g_rules (gl_grammar L)).
Proof.
  intros u atof file L Hu H. destruct (load_grammar_effective _ _ _ _ H) as (src & E).
  assert (S := load_grammar_spec u atof file src Hu E). rewrite H in S. cbv zeta in S.
  destruct S as (ms & rs & _ & _ & A & _ & E2 & LK & N & RC & _). rewrite N, E2. auto.
Qed.

Lemma load_grammar_no_UB : forall u atof file, uni_ok u -> load_grammar u atof file <> UB.
Proof.
  intros u atof file Hu H.
  assert (D : (exists src, effective file src) \/ (forall t, ~ effective file t)).
  { destruct file as [|c r]. { left. exists []. constructor. intros (t & K). discriminate. }
    destruct (N.eq_dec c 0xFEFF) as [->|Hc].
    2: { left. exists (c :: r). constructor. intros (t & K). injection K; intros; congruence. }
    destruct r as [|d t].
    - right. intros t K. inversion K; subst. apply H0. exists []. reflexivity.
    - destruct (N.lt_ge_cases d 128) as [H1|H1]; [destruct (N.eq_dec d 10) as [->|H2]|].
      + right. intros t' K. inversion K; subst; [|congruence]. apply H0. exists (10 :: t). reflexivity.
      + left. exists t. constructor; auto.
      + right. intros t' K. inversion K; subst; [|lia]. apply H0. exists (d :: t). reflexivity. }
  destruct D as [(src & E)|D].
  - assert (S := load_grammar_spec u atof file src Hu E). rewrite H in S. exact S.
  - destruct (load_sections_ineffective u atof file D) as (m & E). unfold load_grammar in H. rewrite E in H. discriminate.
Qed.
