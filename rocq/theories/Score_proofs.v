(** Scores that may not be numbers: the order of the rows of as_match, and the choice of the best match. *)
From Coq Require Import String List NArith ZArith Bool Lia Arith Floats.SpecFloat.
From Verif Require Import Base_model Class_model Float_model Token_model Rule_model Grammar_model Search_model Sample_model Search_spec
  Search_proofs Enum_proofs SearchTop_proofs Float_proofs SearchBest_proofs Loaded_spec Loaded_proofs Pattern_proofs
  Score_model Score_spec Uni_model GrammarMore_proofs.
Import ListNotations.

(** ** The comparison of std::sort *)
Lemma before_spec : forall a b, goes_before a b = SFltb (m_score b) (m_score a).
Proof. reflexivity. Qed.
Lemma nan_unordered : forall a b, m_score a = S754_nan -> unordered goes_before a b.
Proof. intros a b H. unfold unordered, goes_before. rewrite H. split; [destruct (m_score b) as [[|]|[|]| |[|] ? ?]|destruct (m_score b) as [[|]|[|]| |[|] ? ?]]; reflexivity. Qed.
Lemma nan_dec : forall f : flt, {f = S754_nan} + {not_nan f}.
Proof. intros [s|s| |s m e]; [right; discriminate|right; discriminate|left; reflexivity|right; discriminate]. Qed.
Lemma numbers_order : forall rows, (forall r, In r rows -> m_score r <> S754_nan) -> strict_weak goes_before rows.
Proof.
  intros rows H. unfold strict_weak, unordered, goes_before. split; [intros; apply f_lt_irrefl|]. split.
  - intros a b c _ _ _ H1 H2. exact (f_lt_trans _ _ _ H2 H1).
  - intros a b c Ia Ib Ic (A1 & A2) (B1 & B2). pose proof (H a Ia) as Na. pose proof (H b Ib) as Nb. pose proof (H c Ic) as Nc. split.
    + exact (f_ge_trans _ _ _ Nc Nb Na B1 A1).
    + exact (f_ge_trans _ _ _ Na Nb Nc A2 B2).
Qed.
Lemma order_exact : forall rows, strict_weak goes_before rows <->
  (forall r, In r rows -> m_score r <> S754_nan) \/ (forall a b, In a rows -> In b rows -> SFltb (m_score a) (m_score b) = false).
Proof.
  intros rows. split.
  - intros (_ & _ & T). destruct (existsb (fun r => if nan_dec (m_score r) then true else false) rows) eqn:E.
    + right. apply existsb_exists in E. destruct E as (n & I & E). destruct (nan_dec (m_score n)) as [Hn|]; [|discriminate].
      intros a b Ia Ib. destruct (T b n a Ib I Ia) as (X & _); [|apply nan_unordered; exact Hn|exact X].
      destruct (nan_unordered n b Hn) as (P & Q). split; assumption.
    + left. intros r I H. assert (false = true); [|discriminate]. rewrite <- E. apply existsb_exists. exists r. split; [exact I|].
      destruct (nan_dec (m_score r)) as [|N]; [reflexivity|contradiction].
  - intros [H|H]; [apply numbers_order; exact H|]. unfold strict_weak, unordered, goes_before.
    split; [intros; apply f_lt_irrefl|]. split.
    + intros a b c Ia Ib _ H1 _. unfold f_lt in H1. rewrite (H b a Ib Ia) in H1. discriminate.
    + intros a b c Ia _ Ic _ _. split; apply H; assumption.
Qed.
Lemma rows_numbers : forall g phrases rows, is_loaded g -> no_nan_scores g -> Forall (sizes_ok g) phrases ->
  search_all g phrases = Ok rows -> forall r, In r rows -> m_score r <> S754_nan.
Proof.
  intros g phrases rows HL HN HS E. assert (SO := loaded_search_ok g HL HN).
  destruct (search_all_spec g phrases (so_linked g SO) (so_balanced g SO) (so_address g SO)) as (found & rows' & F & E' & H0 & H1).
  rewrite E in E'. injection E' as <-. destruct (concat found) as [|p0 l] eqn:EC.
  - rewrite (H0 eq_refl). intros r [<-|[]]. discriminate.
  - assert (HF : Forall2 row_of (p0 :: l) rows) by (apply H1; discriminate). clear H0 H1. rewrite <- EC in HF. intros r I.
    assert (HP : forall p, In p (concat found) -> f_nonneg (average64 (p_rules p))).
    { intros p IP. apply in_concat in IP. destruct IP as (ps & I1 & I2).
      assert (X : exists ph, In ph phrases /\ search g ph = Ok ps).
      { clear - F I1. induction F as [|ph q phs qs S F IH]; [destruct I1|]. destruct I1 as [<-|I1]; [exists ph; split; [left; reflexivity|exact S]|].
        destruct (IH I1) as (ph' & J & K). exists ph'. split; [right; exact J|exact K]. }
      destruct X as (ph & J & K). rewrite Forall_forall in HS. destruct (path_facts g ph ps p SO (HS ph J) K I2) as (A & B & C).
      apply average64_nonneg; assumption. }
    clear - HF HP I. induction HF as [|p q l l' H F IH]; [destruct I|]. destruct I as [<-|I].
    + destruct H as (_ & -> & _). apply nonneg_not_nan, HP. left. reflexivity.
    + apply IH; [exact I|intros; apply HP; right; assumption].
Qed.
Lemma rows_order : forall g phrases rows, is_loaded g -> no_nan_scores g -> Forall (sizes_ok g) phrases ->
  search_all g phrases = Ok rows -> strict_weak goes_before rows.
Proof. intros g phrases rows HL HN HS E. apply numbers_order. eapply rows_numbers; eauto. Qed.

(** ** The best match of a phrase *)
Lemma counted_nonneg : forall s, f_nonneg (counted s).
Proof. intros [[|]|[|]| |[|] m e]; exact I. Qed.
Lemma counted_same : forall s, f_nonneg s -> counted s = s.
Proof. intros [[|]|[|]| |[|] m e] H; try contradiction; reflexivity. Qed.
Lemma above_counted : forall a s, f_nonneg a -> f_lt a s = f_lt a (counted s).
Proof. intros [[|]|[|]| |[|] m e] [[|]|[|]| |[|] m' e'] H; try contradiction; reflexivity. Qed.
Definition mark (p : spath) : flt := counted (average32 (p_rules p)).
Definition rules_said (p : spath) : flt :=
  if SFltb (S754_zero false) (average32 (p_rules p)) then binary_normalize 24 128 (Z.of_nat (List.length (p_rules p))) 0 false else f32_m1.
Lemma mark_above : forall p, f_lt f_zero (avg32 p) = true -> mark p = avg32 p /\ rules_said p = f32_of_nat (List.length (p_rules p)).
Proof. intros p H. unfold mark, rules_said, counted. rewrite <- avg32_spec. unfold f_lt, f_zero in H. rewrite H. split; reflexivity. Qed.
Lemma mark_below : forall p, f_lt f_zero (avg32 p) = false -> mark p = f_zero /\ rules_said p = f32_m1.
Proof. intros p H. unfold mark, rules_said, counted. rewrite <- avg32_spec. unfold f_lt, f_zero in H. rewrite H. split; reflexivity. Qed.
Lemma mark_nonneg : forall p, f_nonneg (mark p).
Proof. intros p. apply counted_nonneg. Qed.

Lemma choice_inv : forall p0 l pre st,
  ((Forall (fun p => f_lt f_zero (avg32 p) = false) pre /\ st = (p0, f_zero, f32_m1)) \/
   (exists b l1 l2, pre = l1 ++ b :: l2 /\ st = (b, avg32 b, f32_of_nat (List.length (p_rules b))) /\
      f_lt f_zero (avg32 b) = true /\
      Forall (fun y => f_lt (mark y) (mark b) = true) l1 /\ Forall (fun y => f_lt (mark b) (mark y) = false) l2)) ->
  let st' := fold_left best_step l st in
  (Forall (fun p => f_lt f_zero (avg32 p) = false) (pre ++ l) /\ st' = (p0, f_zero, f32_m1)) \/
   (exists b l1 l2, pre ++ l = l1 ++ b :: l2 /\ st' = (b, avg32 b, f32_of_nat (List.length (p_rules b))) /\
      f_lt f_zero (avg32 b) = true /\
      Forall (fun y => f_lt (mark y) (mark b) = true) l1 /\ Forall (fun y => f_lt (mark b) (mark y) = false) l2).
Proof.
  intros p0. induction l as [|p l IH]; intros pre st HI; [rewrite app_nil_r; exact HI|].
  cbn [fold_left]. replace (pre ++ p :: l) with ((pre ++ [p]) ++ l) by (rewrite <- app_assoc; reflexivity). apply IH.
  destruct HI as [[HF ->]|(b & l1 & l2 & -> & -> & Hpos & H1 & H2)].
  - cbn [best_step]. destruct (f_lt f_zero (avg32 p)) eqn:E.
    + right. exists p, pre, []. split; [reflexivity|]. split; [reflexivity|]. split; [exact E|]. split; [|constructor].
      eapply Forall_impl; [|exact HF]. intros q Hq. cbv beta in Hq. rewrite (proj1 (mark_below q Hq)), (proj1 (mark_above p E)). exact E.
    + left. split; [|reflexivity]. apply Forall_app. auto.
  - cbn [best_step].
    assert (EQ : f_lt (avg32 b) (avg32 p) = f_lt (mark b) (mark p)).
    { rewrite <- (proj1 (mark_above b Hpos)). rewrite (above_counted (mark b) (avg32 p) (mark_nonneg b)). reflexivity. }
    destruct (f_lt (avg32 b) (avg32 p)) eqn:E; symmetry in EQ.
    + right. exists p, (l1 ++ b :: l2), []. split; [reflexivity|]. split; [reflexivity|]. split; [eapply f_lt_trans; eauto|].
      split; [|constructor]. apply Forall_app. split.
      * eapply Forall_impl; [|exact H1]. intros q Hq. cbv beta in Hq. eapply f_lt_trans; eauto.
      * constructor; [exact EQ|]. eapply Forall_impl; [|exact H2]. intros q Hq. cbv beta in Hq.
        destruct (f_lt (mark q) (mark p)) eqn:F; [reflexivity|].
        rewrite (f_ge_trans (mark b) (mark q) (mark p)) in EQ; try (apply nonneg_not_nan, mark_nonneg); congruence.
    + right. exists b, l1, (l2 ++ [p]). split; [rewrite <- app_assoc; reflexivity|]. split; [reflexivity|]. split; [assumption|].
      split; [assumption|]. apply Forall_app. auto.
Qed.
Lemma choice_spec : forall p0 rest, exists b, select_best p0 (p0 :: rest) = (b, mark b, rules_said b) /\ first_max mark (p0 :: rest) b.
Proof.
  intros p0 rest. unfold select_best.
  destruct (choice_inv p0 (p0 :: rest) [] (p0, f_zero, f32_m1)) as [[HF E]|(b & l1 & l2 & E1 & E2 & Hpos & H1 & H2)].
  - left. split; [constructor|reflexivity].
  - cbn [app] in *. exists p0. rewrite E. inversion HF as [|? ? Z0 ZF]; subst. destruct (mark_below p0 Z0) as (M1 & M2). rewrite M1, M2.
    split; [reflexivity|]. exists [], rest. split; [reflexivity|]. split; [constructor|]. rewrite M1.
    eapply Forall_impl; [|exact ZF]. intros q Hq. cbv beta in Hq. rewrite (proj1 (mark_below q Hq)). reflexivity.
  - cbn [app] in *. exists b. rewrite E2. destruct (mark_above b Hpos) as (M1 & M2). split; [rewrite M1, M2; reflexivity|]. exists l1, l2. auto.
Qed.

Record shape_ok (g : grammar) : Prop := { sh_linked : linked g; sh_balanced : rules_balanced g; sh_address : In ADDRESS (section_names g) }.
Lemma loaded_shape : forall g, is_loaded g -> shape_ok g.
Proof. intros g H. constructor; [apply loaded_linked|apply loaded_balanced|apply loaded_address]; exact H. Qed.

Lemma choice_some : forall g old phrase ps, is_loaded g -> search g phrase = Ok ps -> ps <> [] ->
  exists p ts, first_max (fun p => counted (average32 (p_rules p))) ps p /\ reclass_tokens phrase p = Ok (ts, true) /\
    search_best1 g old phrase = Ok (mkBest ts (counted (average32 (p_rules p))) (pattern_str ts)
      (if SFltb (S754_zero false) (average32 (p_rules p)) then binary_normalize 24 128 (Z.of_nat (List.length (p_rules p))) 0 false else f32_m1)).
Proof.
  intros g old phrase ps HL H HN. apply loaded_shape in HL. destruct ps as [|p0 rest]; [congruence|].
  destruct (choice_spec p0 rest) as (b & E & FM). assert (Hb : In b (p0 :: rest)) by (eapply first_max_In; eauto).
  destruct (reclass_faithful g ADDRESS phrase _ b (sh_linked g HL) (sh_balanced g HL) H Hb) as [ts [Hts _]].
  exists b, ts. split; [exact FM|]. split; [exact Hts|]. unfold search_best1. rewrite H. cbn [obind]. rewrite E, Hts. reflexivity.
Qed.
Lemma choice_defined : forall g ph, is_loaded g -> exists r, search_best1 g [] ph = Ok r /\ not_nan (b_score r) /\
    ((search g ph = Ok [] /\ r = empty_best) \/ (exists ps, search g ph = Ok ps /\ ps <> [] /\ f_nonneg (b_score r) /\
       forall p, In p ps -> f_lt (b_score r) (mark p) = false)).
Proof.
  intros g ph HL. pose proof (loaded_shape g HL) as SH. destruct (search_defined g ADDRESS ph (sh_linked g SH) (sh_address g SH)) as [ps H].
  fold (search g ph) in H. destruct ps as [|p0 rest].
  - exists empty_best. split; [apply best1_none; exact H|]. split; [discriminate|]. left. auto.
  - destruct (choice_some g [] ph _ HL H ltac:(discriminate)) as (p & ts & FM & _ & E). eexists. split; [exact E|]. cbn [b_score].
    split; [apply nonneg_not_nan, counted_nonneg|]. right. exists (p0 :: rest). split; [exact H|]. split; [discriminate|]. split; [apply counted_nonneg|].
    intros q Hq. destruct FM as (l1 & l2 & EL & F1 & F2). rewrite EL in Hq. apply in_app_iff in Hq. destruct Hq as [Hq|[<-|Hq]].
    + rewrite Forall_forall in F1. apply f_lt_asym. exact (F1 q Hq).
    + apply f_lt_irrefl.
    + rewrite Forall_forall in F2. exact (F2 q Hq).
Qed.

(** ** The best phrase *)
Lemma choice_all : forall g phrases, is_loaded g ->
  exists rs b, Forall2 (fun ph r => search_best1 g [] ph = Ok r) phrases rs /\ search_best g phrases = Ok b /\
    ((exists ph ps, In ph phrases /\ search g ph = Ok ps /\ ps <> []) -> first_max b_score rs b /\ f_nonneg (b_score b)) /\
    ((forall ph, In ph phrases -> search g ph = Ok []) -> b = empty_best) /\
    (forall ph ps p, In ph phrases -> search g ph = Ok ps -> In p ps -> f_lt (b_score b) (mark p) = false).
Proof.
  intros g phrases G.
  assert (HR : exists rs, Forall2 (fun ph r => search_best1 g [] ph = Ok r /\ not_nan (b_score r) /\
    ((search g ph = Ok [] /\ r = empty_best) \/
     (exists ps, search g ph = Ok ps /\ ps <> [] /\ f_nonneg (b_score r) /\ forall p, In p ps -> f_lt (b_score r) (mark p) = false))) phrases rs).
  { induction phrases as [|ph phrases IH]; [exists []; constructor|]. destruct IH as [rs IH].
    destruct (choice_defined g ph G) as (r & H1 & H2 & H3). exists (r :: rs). constructor; [|exact IH]. auto. }
  destruct HR as [rs HR].
  assert (HR1 : Forall2 (fun ph r => search_best1 g [] ph = Ok r) phrases rs).
  { clear - HR. induction HR; constructor; [apply H|assumption]. }
  exists rs. eexists. split; [exact HR1|]. unfold search_best. rewrite (best_loop_spec g phrases rs _ HR1).
  split; [reflexivity|].
  assert (HN : forall r, In r ([] ++ rs) -> not_nan (b_score r)).
  { clear - HR. cbn. induction HR; intros r Hr; [destruct Hr|]; destruct Hr as [<-|Hr]; [apply H|apply IHHR; assumption]. }
  assert (HX : forall ph ps, In ph phrases -> search g ph = Ok ps -> ps <> [] ->
     exists r, In r rs /\ f_nonneg (b_score r) /\ forall p, In p ps -> f_lt (b_score r) (mark p) = false).
  { clear - HR. intros ph ps Hin Hs Hne. induction HR; [destruct Hin|]. destruct Hin as [->|Hin].
    - destruct H as (_ & _ & [[H _]|(ps' & H0 & _ & H1 & H2)]); [congruence|]. rewrite Hs in H0. injection H0 as <-. exists y. split; [left; reflexivity|auto].
    - destruct (IHHR Hin) as (r & Hr & Hn). exists r. split; [right; exact Hr|exact Hn]. }
  destruct (fold_first_max empty_best rs [] empty_best ltac:(discriminate) HN) as [[HF E]|[FM HL]].
  - left. split; [constructor|reflexivity].
  - cbn [app] in *. fold empty_best. rewrite E.
    assert (NO : forall ph ps, In ph phrases -> search g ph = Ok ps -> ps <> [] -> False).
    { intros ph ps Hin Hs Hne. destruct (HX ph ps Hin Hs Hne) as (r & Hr & Hn & _). rewrite Forall_forall in HF. specialize (HF r Hr).
      cbn [b_score empty_best] in HF. rewrite m1_lt_nonneg in HF by assumption. discriminate. }
    split; [|split; [reflexivity|]].
    + intros (ph & ps & Hin & Hs & Hne). destruct (NO ph ps Hin Hs Hne).
    + intros ph ps p Hin Hs Hp. exfalso. apply (NO ph ps Hin Hs). intros ->. destruct Hp.
  - cbn [app] in *. fold empty_best.
    assert (HB : forall r, In r rs -> r = empty_best \/ f_nonneg (b_score r)).
    { clear - HR. induction HR; intros r Hr; [destruct Hr|]. destruct Hr as [<-|Hr]; [|apply IHHR; assumption].
      destruct H as (_ & _ & [[_ H]|(ps & _ & _ & H & _)]); auto. }
    revert FM HL. set (res := fold_left _ rs empty_best). clearbody res. intros FM HL. pose proof (first_max_In _ _ _ FM) as IR.
    assert (NN : f_nonneg (b_score res)) by (destruct (HB res IR) as [->|X]; [discriminate HL|exact X]).
    split; [intros _; split; assumption|]. split.
    + intros Hall. exfalso.
      assert (HZ : forall r, In r rs -> r = empty_best).
      { clear - HR Hall. induction HR; intros r Hr; [destruct Hr|]. destruct Hr as [<-|Hr].
        - destruct H as (_ & _ & [[_ H]|(ps & H & Hne & _)]); [exact H|].
          rewrite (Hall x (or_introl eq_refl)) in H. inversion H; congruence.
        - apply IHHR; [|assumption]. intros; apply Hall; right; assumption. }
      rewrite (HZ res IR) in HL. discriminate HL.
    + intros ph ps p Hin Hs Hp. destruct (HX ph ps Hin Hs ltac:(intros ->; destruct Hp)) as (r & Hr & Hn & Hm).
      apply (f_ge_trans (b_score res) (b_score r) (mark p)); try (apply nonneg_not_nan; assumption || apply mark_nonneg); [|apply Hm; exact Hp].
      destruct FM as (l1 & l2 & EL & F1 & F2). rewrite EL in Hr. apply in_app_iff in Hr. destruct Hr as [Hr|[<-|Hr]].
      * rewrite Forall_forall in F1. apply f_lt_asym. exact (F1 r Hr).
      * apply f_lt_irrefl.
      * rewrite Forall_forall in F2. exact (F2 r Hr).
Qed.
Lemma choice_phrase : forall g phrases, is_loaded g ->
  exists rs b, Forall2 (fun ph r => search_best1 g [] ph = Ok r) phrases rs /\ search_best g phrases = Ok b /\
    ((exists ph ps, In ph phrases /\ search g ph = Ok ps /\ ps <> []) -> first_max b_score rs b) /\
    ((forall ph, In ph phrases -> search g ph = Ok []) -> b = mkBest [] f32_m1 [] f32_m1) /\
    (forall ph ps p, In ph phrases -> search g ph = Ok ps -> In p ps -> SFltb (b_score b) (counted (average32 (p_rules p))) = false).
Proof. intros g phrases H. destruct (choice_all g phrases H) as (rs & b & A & B & C & D & E). exists rs, b. repeat (split; [assumption|]). split; [intros X; exact (proj1 (C X))|]. split; [exact D|exact E]. Qed.
Lemma choice_sign : forall g phrases, is_loaded g ->
  exists b, search_best g phrases = Ok b /\
   (SFleb (S754_zero false) (b_score b) = true <-> exists ph ps, In ph phrases /\ search g ph = Ok ps /\ ps <> []).
Proof.
  intros g phrases G. destruct (choice_all g phrases G) as (rs & b & _ & E & Hm & Hn & _). apply loaded_shape in G.
  exists b. split; [exact E|]. split.
  - intros Hle.
    assert (Hdec : (exists ph ps, In ph phrases /\ search g ph = Ok ps /\ ps <> []) \/ (forall ph, In ph phrases -> search g ph = Ok [])).
    { clear - G. induction phrases as [|ph phrases IH]; [right; intros ? []|].
      destruct (search_defined g ADDRESS ph (sh_linked g G) (sh_address g G)) as [ps H]. fold (search g ph) in H. destruct ps as [|p ps].
      - destruct IH as [(ph' & ps & H1 & H2)|IH]; [left; exists ph', ps; split; [right; exact H1|exact H2]|]. right. intros ph' [<-|Hin]; auto.
      - left. exists ph, (p :: ps). split; [left; reflexivity|]. split; [exact H|discriminate]. }
    destruct Hdec as [D|D]; [exact D|]. rewrite (Hn D) in Hle. discriminate Hle.
  - intros D. destruct (Hm D) as [_ NN]. destruct (b_score b) as [[|]|[|]| |[|] m e]; try contradiction; reflexivity.
Qed.

(** ** A grammar with a score that is not a number *)
Definition odd_src : string :=
"[ADDRESS]
@one
@two
@three
[one]
NUMBER WORD -> HOUSE STREET -> 0.5
[two]
NUMBER WORD -> HOUSE CITY -> nan
[three]
NUMBER WORD -> HOUSE PROV -> 0.9
".
Definition odd_g : grammar := match load_grammar ascii_uni nan_atof (s2t odd_src) with Ok L => gl_grammar L | _ => mkGrammar [] [] [] end.
Lemma odd_loaded : is_loaded odd_g.
Proof.
  unfold odd_g. remember (load_grammar ascii_uni nan_atof (s2t odd_src)) as o eqn:E. destruct o as [L|m|].
  - exists ascii_uni, nan_atof, (s2t odd_src), L. split; [apply ascii_uni_ok|]. split; auto.
  - exfalso. vm_compute in E. discriminate.
  - exfalso. vm_compute in E. discriminate.
Qed.
Lemma order_fails : exists g phrases rows, is_loaded g /\ Forall (sizes_ok g) phrases /\ search_all g phrases = Ok rows /\ ~ strict_weak goes_before rows.
Proof.
  exists odd_g, [close_phrase]. eexists. split; [exact odd_loaded|]. split.
  { repeat constructor. exists 2. split; [apply width_b_ok; vm_compute; reflexivity|vm_compute; reflexivity]. }
  split; [vm_compute; reflexivity|]. rewrite order_exact. intros [H|H].
  - eapply H; [right; left; reflexivity|reflexivity].
  - specialize (H _ _ (or_introl eq_refl) (or_intror (or_intror (or_introl eq_refl)))). vm_compute in H. discriminate H.
Qed.
Definition some_nan (g : grammar) : bool :=
  existsb (fun sec => existsb (fun r => match r_score r with S754_nan => true | _ => false end) (rs_rules sec)) (g_rules g).
Lemma some_nan_ok : forall g, some_nan g = true -> ~ no_nan_scores g.
Proof.
  intros g E H. apply existsb_exists in E. destruct E as (sec & I & E). apply existsb_exists in E. destruct E as (r & J & E).
  apply (H sec r I J). destruct (r_score r); try discriminate E. reflexivity.
Qed.
Lemma odd_nan : ~ no_nan_scores odd_g.
Proof. apply some_nan_ok. vm_compute. reflexivity. Qed.
