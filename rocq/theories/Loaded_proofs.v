(** The search theorems for loaded grammars, and the data of their examples. *)
From Coq Require Import String List NArith ZArith Bool Lia Floats.SpecFloat.
From Verif Require Import Base_model Class_model Float_model Uni_model Token_model Rule_model Search_model Grammar_model
  Sample_model Search_spec Grammar_spec Loaded_spec Search_proofs Enum_proofs SearchTop_proofs Float_proofs SearchBest_proofs
  Pattern_proofs GrammarTop_proofs.
Import ListNotations.

Lemma ascii_uni_ok : uni_ok ascii_uni.
Proof.
  constructor; try reflexivity. intros c H K. unfold ident_char in K. simpl in *.
  unfold a_space, c_isspace in H. unfold a_word, a_alpha, a_upper, a_lower, a_digit in K.
  rewrite !orb_true_iff, !andb_true_iff, !N.leb_le, !N.eqb_eq in *. lia.
Qed.

Lemma loaded_linked : forall g, is_loaded g -> linked g.
Proof. intros g (u & atof & file & L & Hu & H & <-). exact (proj1 (loaded_facts _ _ _ _ Hu H)). Qed.
Lemma loaded_address : forall g, is_loaded g -> In ADDRESS (section_names g).
Proof. intros g (u & atof & file & L & Hu & H & <-). exact (proj1 (proj2 (loaded_facts _ _ _ _ Hu H))). Qed.
Lemma loaded_checked : forall g, is_loaded g -> rules_checked (g_rules g).
Proof. intros g (u & atof & file & L & Hu & H & <-). exact (proj2 (proj2 (loaded_facts _ _ _ _ Hu H))). Qed.
Lemma loaded_balanced : forall g, is_loaded g -> rules_balanced g.
Proof. intros g H sec r K1 K2. apply (loaded_checked g H sec r); auto. Qed.
Lemma checked_positive : forall f, not_le_zero f -> f <> S754_nan -> positive_score f.
Proof.
  intros f H K. unfold not_le_zero in H. destruct f as [s|s| |s m e]; simpl in *; auto; try congruence;
    destruct s; simpl in *; try discriminate; auto.
Qed.
Lemma loaded_search_ok : forall g, is_loaded g -> no_nan_scores g -> search_ok g.
Proof.
  intros g H K. constructor.
  - apply loaded_linked; auto.
  - apply loaded_balanced; auto.
  - intros sec r K1 K2. apply checked_positive; [apply (loaded_checked g H sec r); auto|apply (K sec r); auto].
  - apply loaded_address; auto.
Qed.

(** Nesting. *)
Lemma max_refs_le : forall g w, width g w -> max_refs g <= w.
Proof.
  intros g w. unfold width, max_refs. induction (g_metas g) as [|m ms IH]; simpl; intros H; [lia|].
  assert (B : fold_right (fun ms a => fold_right (fun r b => Nat.max (List.length r) b) a (ms_rules ms)) 0 ms <= w).
  { apply IH. intros; eapply H; eauto. }
  assert (C : forall l, (forall r, In r l -> List.length r <= w) ->
    forall a, a <= w -> fold_right (fun (r : metarule) b => Nat.max (List.length r) b) a l <= w).
  { induction l as [|r l IHl]; simpl; intros Hl a Ha; auto. specialize (IHl ltac:(intros; apply Hl; auto) a Ha).
    specialize (Hl r (or_introl eq_refl)). lia. }
  apply C; auto. intros r Hr. eapply H; eauto.
Qed.
Lemma match_depth_bound : forall w d q, match_depth w d q <= d * (q + w * d + 2) + 1.
Proof.
  intros w d. induction d as [|d IH]; intros q; simpl; [lia|]. specialize (IH (q + w)).
  enough (q + w + 2 + (d * (q + w + w * d + 2) + 1) <= S d * (q + w * S d + 2) + 1) by (simpl in *; lia).
  nia.
Qed.
Lemma match_depth_mono_w : forall w w' d q, w <= w' -> match_depth w d q <= match_depth w' d q.
Proof.
  intros w w' d. induction d as [|d IH]; intros q H; simpl; [lia|].
  specialize (IH (q + w) H). pose proof (match_depth_mono_q w' d (q + w) (q + w') ltac:(lia)). lia.
Qed.

Lemma search_depth : forall g w sp pat n f, width g w ->
  (n + 3) * (w * (n + 3) + 2) + 1 <= f ->
  do_match f g (n + 2) sp (mkPath [] [] pat) 0 <> NoFuel /\
  forall f', f <= f' -> do_match f' g (n + 2) sp (mkPath [] [] pat) 0 = do_match f g (n + 2) sp (mkPath [] [] pat) 0.
Proof.
  intros g w sp pat n f Hw Hf.
  assert (E : do_match f g (n + 2) sp (mkPath [] [] pat) 0 <> NoFuel).
  { apply (proj1 (fuel_enough f)). simpl List.length. replace (S (n + 2) - 0) with (n + 3) by lia.
    pose proof (match_depth_mono_w _ _ (n + 3) 0 (max_refs_le g w Hw)).
    pose proof (match_depth_bound w (n + 3) 0). lia. }
  split; auto. intros f' Hf'. apply fuel_mono_le; auto.
Qed.

(** Completeness of the branching class, restated. *)
Lemma branching_same : forall g, branching_grammar g -> branching g.
Proof. intros g H. exact H. Qed.

(** Set of matches. *)
Lemma search_set : forall g node phrase ps, linked g -> (combinations phrase <= 2 ^ 32)%N ->
  search_node g node phrase = Ok ps ->
  forall rs, In rs (map p_rules ps) <-> exists k, matches g node phrase k rs /\ k <= List.length phrase + 2.
Proof.
  intros g node phrase ps Hg Hc H rs. split.
  - intros K. apply in_map_iff in K. destruct K as (p & <- & K). eapply search_sound; eauto.
  - intros (k & K1 & K2). destruct (search_complete g node phrase k rs Hg Hc K1 K2) as (ps' & p & E & I & <-).
    rewrite H in E. injection E; intros; subst. apply in_map. exact I.
Qed.

(** Samples. *)
Definition sample_g : grammar := grammar_of (load_sample sample_src).
Lemma sample_loaded : is_loaded sample_g.
Proof.
  unfold sample_g. remember (load_sample sample_src) as o eqn:E. destruct o as [L|m|].
  - exists ascii_uni, sample_atof, (s2t sample_src), L. split; [apply ascii_uni_ok|]. split; auto.
  - exfalso. vm_compute in E. discriminate.
  - exfalso. vm_compute in E. discriminate.
Qed.
Definition chain_g : grammar := grammar_of (load_sample chain_src).
Lemma chain_loaded : is_loaded chain_g.
Proof.
  unfold chain_g. remember (load_sample chain_src) as o eqn:E. destruct o as [L|m|].
  - exists ascii_uni, sample_atof, (s2t chain_src), L. split; [apply ascii_uni_ok|]. split; auto.
  - exfalso. vm_compute in E. discriminate.
  - exfalso. vm_compute in E. discriminate.
Qed.
Definition twice_g : grammar := grammar_of (load_sample twice_src).
Lemma twice_loaded : is_loaded twice_g.
Proof.
  unfold twice_g. remember (load_sample twice_src) as o eqn:E. destruct o as [L|m|].
  - exists ascii_uni, sample_atof, (s2t twice_src), L. split; [apply ascii_uni_ok|]. split; auto.
  - exfalso. vm_compute in E. discriminate.
  - exfalso. vm_compute in E. discriminate.
Qed.
Definition close_g : grammar := grammar_of (load_sample close_src).
Lemma close_loaded : is_loaded close_g.
Proof.
  unfold close_g. remember (load_sample close_src) as o eqn:E. destruct o as [L|m|].
  - exists ascii_uni, sample_atof, (s2t close_src), L. split; [apply ascii_uni_ok|]. split; auto.
  - exfalso. vm_compute in E. discriminate.
  - exfalso. vm_compute in E. discriminate.
Qed.

Definition width_b (g : grammar) (w : nat) : bool :=
  forallb (fun m => forallb (fun r : metarule => Nat.leb (List.length r) w) (ms_rules m)) (g_metas g).
Lemma width_b_ok : forall g w, width_b g w = true -> width g w.
Proof.
  intros g w H ms refs H1 H2. unfold width_b in H. rewrite forallb_forall in H. specialize (H ms H1).
  rewrite forallb_forall in H. apply Nat.leb_le. apply H. exact H2.
Qed.
Definition nonan_b (g : grammar) : bool :=
  forallb (fun m => forallb (fun r => match r_score r with S754_nan => false | _ => true end) (rs_rules m)) (g_rules g).
Lemma nonan_b_ok : forall g, nonan_b g = true -> no_nan_scores g.
Proof.
  intros g H m r H1 H2 K. unfold nonan_b in H. rewrite forallb_forall in H. specialize (H m H1).
  rewrite forallb_forall in H. specialize (H r H2). rewrite K in H. discriminate.
Qed.
Definition branching_b (g : grammar) : bool :=
  forallb (fun m => forallb (fun r : metarule => Nat.leb 2 (List.length r)) (ms_rules m)) (g_metas g) &&
  forallb (fun m => forallb (fun r => match r_in r with [] => false | _ => true end) (rs_rules m)) (g_rules g).
Lemma branching_b_ok : forall g, branching_b g = true -> branching_grammar g.
Proof.
  intros g H. unfold branching_b in H. apply andb_true_iff in H. destruct H as (Ha & Hb). rewrite forallb_forall in Ha, Hb. split.
  - intros m r H1 H2. specialize (Ha m H1). rewrite forallb_forall in Ha. apply Nat.leb_le. apply Ha. exact H2.
  - intros m r H1 H2 K. specialize (Hb m H1). rewrite forallb_forall in Hb. specialize (Hb r H2). rewrite K in Hb. discriminate.
Qed.

(** Derivations of the chain grammar. *)
Definition rule_ws : rule := mkRule [I_WORD] [O_STREET] (f32_dec 5 1).
Lemma chain_matches : matches chain_g ADDRESS sample_nomatch 4 [rule_ws].
Proof.
  split.
  - unfold chain_g. 
    set (g := grammar_of (load_sample chain_src)). vm_compute in g. subst g.
    assert (E : ADDRESS = ms_name (mkMeta ADDRESS [])) by reflexivity.
    eapply (d_meta _ (mkMeta (s2t "ADDRESS") _)); [left; reflexivity|left; reflexivity|]. cbn [map app f_name].
    eapply (d_meta _ (mkMeta (s2t "a") _)); [right; left; reflexivity|left; reflexivity|]. cbn [map app f_name].
    eapply (d_meta _ (mkMeta (s2t "b") _)); [right; right; left; reflexivity|left; reflexivity|]. cbn [map app f_name].
    eapply (d_meta _ (mkMeta (s2t "c") _)); [right; right; right; left; reflexivity|left; reflexivity|]. cbn [map app f_name].
    eapply (d_rule _ (mkRules (s2t "d") _)); [left; reflexivity|left; reflexivity|]. constructor.
  - repeat constructor.
Qed.

(** Twice. *)
Lemma twice_derivations : forall ss, matching_derivation twice_g ADDRESS twice_phrase ss ->
  In ss [[by_meta ADDRESS [s2t "a"; s2t "b"]; by_rule (s2t "a") (mkRule [I_WORD] [O_STREET] (f32_dec 5 1));
          by_rule (s2t "b") (mkRule [I_NUMBER] [O_HOUSE] (f32_dec 5 1))];
         [by_meta ADDRESS [s2t "a"; s2t "b"]; by_rule (s2t "a") (mkRule [I_WORD] [O_CITY] (f32_dec 5 1));
          by_rule (s2t "b") (mkRule [I_NUMBER] [O_HOUSE] (f32_dec 5 1))]].
Proof.
  intros ss (H & _).
  assert (M : g_metas twice_g = [mkMeta ADDRESS [[mkRef (s2t "a") None (Some 0); mkRef (s2t "b") None (Some 1)]]]) by (vm_compute; reflexivity).
  assert (R : g_rules twice_g = [mkRules (s2t "a") [mkRule [I_WORD] [O_STREET] (f32_dec 5 1); mkRule [I_WORD] [O_CITY] (f32_dec 5 1)];
    mkRules (s2t "b") [mkRule [I_NUMBER] [O_HOUSE] (f32_dec 5 1)]]) by (vm_compute; reflexivity).
  remember twice_g as g eqn:Eg. clear Eg.
  assert (Nil : forall s, derivation g [] s -> s = []) by (intros s K; inversion K; auto).
  assert (B : forall s, derivation g [s2t "b"] s -> s = [by_rule (s2t "b") (mkRule [I_NUMBER] [O_HOUSE] (f32_dec 5 1))]).
  { intros s K. inversion K as [|ms refs rest s' I1 I2 D E1 E2|sec r rest s' I1 I2 D E1 E2]; subst.
    - rewrite M in I1. destruct I1 as [<-|[]]. discriminate.
    - rewrite R in I1. destruct I1 as [<-|[<-|[]]]; try discriminate. destruct I2 as [<-|[]].
      rewrite (Nil _ D). reflexivity. }
  assert (A : forall s, derivation g [s2t "a"; s2t "b"] s -> 
     s = [by_rule (s2t "a") (mkRule [I_WORD] [O_STREET] (f32_dec 5 1)); by_rule (s2t "b") (mkRule [I_NUMBER] [O_HOUSE] (f32_dec 5 1))] \/
     s = [by_rule (s2t "a") (mkRule [I_WORD] [O_CITY] (f32_dec 5 1)); by_rule (s2t "b") (mkRule [I_NUMBER] [O_HOUSE] (f32_dec 5 1))]).
  { intros s K. inversion K as [|ms refs rest s' I1 I2 D E1 E2|sec r rest s' I1 I2 D E1 E2]; subst.
    - rewrite M in I1. destruct I1 as [<-|[]]. discriminate.
    - rewrite R in I1. destruct I1 as [<-|[<-|[]]]; try discriminate. rewrite (B _ D).
      destruct I2 as [<-|[<-|[]]]; auto. }
  inversion H as [|ms refs rest s' I1 I2 D E1 E2|sec r rest s' I1 I2 D E1 E2]; subst.
  - rewrite M in I1. destruct I1 as [<-|[]]. destruct I2 as [<-|[]]. simpl in D.
    destruct (A _ D) as [->| ->]; simpl; auto.
  - rewrite R in I1. destruct I1 as [<-|[<-|[]]]; discriminate.
Qed.

(** Derivations as data agree with [derives]. *)
Definition metas_in (ss : list step) : nat :=
  List.length (filter (fun s => match s with by_meta _ _ => true | _ => false end) ss).
Lemma derivation_derives : forall g ns ss, derivation g ns ss -> derives g ns (metas_in ss) (step_rules ss).
Proof.
  induction 1; simpl.
  - constructor.
  - unfold metas_in; simpl. eapply d_meta; eauto.
  - eapply d_rule; eauto.
Qed.
Lemma derives_derivation : forall g ns k rs, derives g ns k rs ->
  exists ss, derivation g ns ss /\ metas_in ss = k /\ step_rules ss = rs.
Proof.
  induction 1 as [|ms refs rest k rs I1 I2 D (ss & H1 & H2 & H3)|sec r rest k rs I1 I2 D (ss & H1 & H2 & H3)].
  - exists []. repeat split. constructor.
  - exists (by_meta (ms_name ms) (map f_name refs) :: ss). repeat split; auto.
    + econstructor; eauto.
    + unfold metas_in in *; simpl; congruence.
  - exists (by_rule (rs_name sec) r :: ss). repeat split; auto.
    + econstructor; eauto.
    + simpl. congruence.
Qed.

(** Enumeration. *)
Lemma enumerate_exact : forall ts, (combinations ts <= 2 ^ 32)%N ->
  Forall (fun k => Sorted.StronglySorted class_lt (t_in k)) ts ->
  (forall pat, In pat (enumerate ts) <-> chooses ts pat) /\ NoDup (enumerate ts) /\
  Sorted.StronglySorted lex_lt (enumerate ts).
Proof.
  intros ts Hc Hs. split; [|split].
  - intros pat. split; [apply enumerate_sound|apply enumerate_complete; auto].
  - rewrite enumerate_cart by auto. apply cart_NoDup. apply Forall_forall. intros l Hl. apply in_map_iff in Hl.
    destruct Hl as (k & <- & Hk). rewrite Forall_forall in Hs. specialize (Hs k Hk).
    induction Hs as [|a l Hs IH F]; constructor; auto. intros K. rewrite Forall_forall in F. specialize (F a K).
    unfold class_lt in F. lia.
  - apply enumerate_sorted; auto.
Qed.
Lemma enumerate_no_class : forall ts k, In k ts -> t_in k = [] -> enumerate ts = [].
Proof.
  intros ts k H K. destruct (enumerate ts) as [|p l] eqn:E; auto. exfalso.
  assert (C : chooses ts p) by (apply enumerate_sound; rewrite E; left; auto).
  unfold chooses in C. clear E. induction C as [|k' c ts' p' H1 H2 IH]; [destruct H|].
  destruct H as [->|H]; [rewrite K in H1; destruct H1|auto].
Qed.
Lemma enumerate_nil : enumerate [] = [[]].
Proof. vm_compute. reflexivity. Qed.

(** Rule::match. *)
Lemma match_from_spec : forall ins pat, match_from ins pat = true <-> exists rest, pat = ins ++ rest.
Proof.
  induction ins as [|e ins IH]; intros pat; simpl; [split; eauto|].
  destruct pat as [|x pat]; [split; [discriminate|intros (? & ?); discriminate]|].
  destruct (in_eqb e x) eqn:E.
  - apply in_eqb_eq in E. subst x. rewrite IH. split; intros (rest & K); exists rest; simpl in *; congruence.
  - split; [discriminate|]. intros (rest & K). injection K; intros; subst. rewrite in_eqb_refl in E. discriminate.
Qed.
Lemma rule_match_spec : forall r pat, rule_match r pat = true <-> exists rest, pat = r_in r ++ rest.
Proof.
  intros r pat. unfold rule_match. destruct (Nat.ltb_spec (List.length pat) (List.length (r_in r))) as [H|H].
  - split; [discriminate|]. intros (rest & ->). rewrite app_length in H. lia.
  - apply match_from_spec.
Qed.

(** The pattern reported by the best search is a row of the full search. *)
Lemma nonneg_le : forall f, f_nonneg f -> SFleb (S754_zero false) f = true.
Proof. intros [[|]|[|]| |[|] m e] H; try contradiction; reflexivity. Qed.
Lemma first_max_ge : forall {A} (v : A -> spec_float) l x y, first_max v l x -> In y l ->
  SFltb (v x) (v y) = false.
Proof.
  intros A v l x y (l1 & l2 & -> & F1 & F2) H. apply in_app_iff in H. rewrite Forall_forall in F1, F2.
  destruct H as [H|[->|H]].
  - apply (f_lt_asym (v y) (v x)). apply F1. exact H.
  - apply f_lt_irrefl.
  - apply F2. exact H.
Qed.
Lemma Forall2_In_l : forall {A B} (R : A -> B -> Prop) l1 l2 x, Forall2 R l1 l2 -> In x l1 -> exists y, In y l2 /\ R x y.
Proof.
  intros A B R l1 l2 x H. induction H as [|a b l1 l2 H1 H2 IH]; intros K; [destruct K|].
  destruct K as [->|K]; [exists b; simpl; auto|]. destruct (IH K) as (y & ? & ?). exists y; simpl; auto.
Qed.
Lemma Forall2_In_r : forall {A B} (R : A -> B -> Prop) l1 l2 y, Forall2 R l1 l2 -> In y l2 -> exists x, In x l1 /\ R x y.
Proof.
  intros A B R l1 l2 x H. induction H as [|a b l1 l2 H1 H2 IH]; intros K; [destruct K|].
  destruct K as [->|K]; [exists a; simpl; auto|]. destruct (IH K) as (y & ? & ?). exists y; simpl; auto.
Qed.
Lemma best_is_row : forall g phrases b rows, search_ok g -> Forall (sizes_ok g) phrases ->
  search_best g phrases = Ok b -> SFleb (S754_zero false) (b_score b) = true ->
  search_all g phrases = Ok rows ->
  exists p row found, Forall2 (fun ph ps => search g ph = Ok ps) phrases found /\
    Forall2 row_of (List.concat found) rows /\
    In p (List.concat found) /\ In row rows /\ row_of p row /\
    m_matched row = b_matched b /\ b_score b = average32 (p_rules p) /\
    forall q, In q (List.concat found) -> SFltb (b_score b) (average32 (p_rules q)) = false.
Proof.
  intros g phrases b rows G SZ HB Hle HA.
  destruct (best_all g phrases G SZ) as (rs & b' & F & E & Hm & Hn). rewrite HB in E. injection E as <-.
  destruct (best_score_sign g phrases G SZ) as (b' & E' & Hs). rewrite HB in E'. injection E' as <-.
  pose proof (proj1 Hs Hle) as Hex. destruct (Hm Hex) as (FM & NN).
  destruct (search_all_spec g phrases (so_linked g G) (so_balanced g G) (so_address g G)) as (found & rows' & F2 & EA & R0 & R1).
  rewrite HA in EA. injection EA as <-.
  destruct (Forall2_In_r _ _ _ b F (first_max_In _ _ _ FM)) as (ph & I1 & B1).
  destruct (Forall2_In_l _ _ _ ph F2 I1) as (ps & I2 & S1).
  assert (NE : ps <> []).
  { intros ->. rewrite (best1_none g [] ph S1) in B1. injection B1 as <-. simpl in Hle. discriminate. }
  rewrite Forall_forall in SZ.
  destruct (best1_some g [] ph ps G (SZ ph I1) S1 NE) as (p & ts & nr & FP & RT & BE & NR & NNp).
  rewrite B1 in BE. injection BE as ->. simpl in *.
  assert (IP : In p (List.concat found)) by (apply in_concat; exists ps; split; auto; eapply first_max_In; eauto).
  assert (NC : List.concat found <> []) by (intros K; rewrite K in IP; destruct IP).
  specialize (R1 NC). destruct (Forall2_In_l _ _ _ p R1 IP) as (row & IR & RO).
  exists p, row, found. repeat split; auto; try (apply RO).
  - destruct RO as (RM & _). rewrite RM.
    destruct (reclass_faithful g ADDRESS ph ps p (so_linked g G) (so_balanced g G) S1 (first_max_In _ _ _ FP))
      as (ts' & RT' & _ & _ & _ & _ & TI & _ & TO). rewrite RT in RT'. injection RT' as <-.
    rewrite (pattern_str_spec ts _ TI), TO. reflexivity.
  - intros q IQ. apply in_concat in IQ. destruct IQ as (qs & I3 & I4).
    destruct (Forall2_In_r _ _ _ qs F2 I3) as (ph' & I5 & S2).
    destruct (Forall2_In_l _ _ _ ph' F I5) as (b2 & I6 & B2).
    assert (NE2 : qs <> []) by (intros ->; destruct I4).
    destruct (best1_some g [] ph' qs G (SZ ph' I5) S2 NE2) as (p2 & ts2 & nr2 & FP2 & RT2 & BE2 & NR2 & NNp2).
    rewrite B2 in BE2. injection BE2 as ->.
    pose proof (first_max_ge _ _ _ _ FM I6) as G1. simpl in G1.
    pose proof (first_max_ge _ _ _ _ FP2 I4) as G2. simpl in G2.
    destruct (path_facts g ph' qs q G (SZ ph' I5) S2 I4) as (Q1 & Q2 & Q3).
    apply (f_ge_trans _ (average32 (p_rules p2))); auto; apply nonneg_not_nan; auto. apply average32_nonneg; auto.
Qed.

(** Patterns of matches. *)
Lemma match_pattern : forall g phrase ps p, linked g -> rules_balanced g -> search g phrase = Ok ps -> In p ps ->
  exists ts, reclass_tokens phrase p = Ok (ts, true) /\
    pattern_str ts = join [SP] (pattern_words (rule_inputs (p_rules p)) (rule_outputs (p_rules p))) /\
    List.length (rule_inputs (p_rules p)) = List.length phrase /\
    List.length (rule_outputs (p_rules p)) = List.length phrase.
Proof.
  intros g phrase ps p L B H I.
  destruct (reclass_faithful g ADDRESS phrase ps p L B H I) as (ts & RT & TT & _ & _ & _ & TI & CH & TO).
  exists ts. split; auto. split; [rewrite (pattern_str_spec ts _ TI), TO; reflexivity|].
  pose proof (f_equal (@List.length _) TT) as L1. rewrite !map_length in L1.
  pose proof (f_equal (@List.length _) TI) as L2. rewrite !map_length in L2.
  pose proof (f_equal (@List.length _) TO) as L3. rewrite !map_length in L3. lia.
Qed.

(** Witnesses. *)
Lemma chain_unmatched : exists g phrase k rs, is_loaded g /\
  derives g [ADDRESS] k rs /\ chooses phrase (rule_inputs rs) /\ search g phrase = Ok [].
Proof.
  exists chain_g, sample_nomatch, 4, [rule_ws]. split; [apply chain_loaded|]. split; [apply chain_matches|].
  split; [apply chain_matches|vm_compute; reflexivity].
Qed.
Lemma enumerate_wraps : exists ts, Forall (fun k => t_in k <> []) ts /\ enumerate ts = [].
Proof.
  exists (repeat (tk "ST" [I_WORD; I_TYPE]) 64). split; [|vm_compute; reflexivity].
  apply Forall_forall. intros k H. apply repeat_spec in H. subst. discriminate.
Qed.
Lemma twice_listed : exists g phrase ps ds, is_loaded g /\ search g phrase = Ok ps /\
  (forall ss, matching_derivation g ADDRESS phrase ss -> In ss ds) /\ List.length ds < List.length ps.
Proof.
  exists twice_g, twice_phrase. eexists. eexists. split; [apply twice_loaded|]. split; [vm_compute; reflexivity|].
  split; [apply twice_derivations|simpl; lia].
Qed.
Lemma close_not_top : exists g phrase b rows r1 r2, is_loaded g /\ no_nan_scores g /\ sizes_ok g phrase /\
  search_best g [phrase] = Ok b /\ search_all g [phrase] = Ok rows /\
  rows = [r1; r2] /\ m_matched r1 = b_matched b /\ m_matched r2 <> b_matched b /\
  SFltb (m_score r1) (m_score r2) = true.
Proof.
  exists close_g, close_phrase. do 4 eexists. split; [apply close_loaded|].
  split; [apply nonan_b_ok; vm_compute; reflexivity|].
  split; [exists 2; split; [apply width_b_ok; vm_compute; reflexivity|vm_compute; reflexivity]|].
  split; [vm_compute; reflexivity|]. split; [vm_compute; reflexivity|]. split; [reflexivity|].
  split; [vm_compute; reflexivity|]. split; [vm_compute; discriminate|vm_compute; reflexivity].
Qed.
