(** Selecting the best match; rows of as_match; pattern strings. *)
From Coq Require Import String List NArith ZArith Bool Lia Arith Floats.SpecFloat.
From Verif Require Import Base_model Class_model Float_model Token_model Rule_model Search_model Search_spec
  Search_proofs Enum_proofs SearchTop_proofs Float_proofs.
Import ListNotations.

(** ** Averages *)
Lemma avg32_spec : forall p, avg32 p = average32 (p_rules p).
Proof. reflexivity. Qed.
Lemma widen_spec : forall f, f64_of_f32 f = widen f.
Proof. intros [| | |[|] m e]; reflexivity. Qed.
Lemma avg64_spec : forall p, avg64 p = average64 (p_rules p).
Proof. reflexivity. Qed.

Lemma positive_nonneg : forall f, positive_score f -> f_nonneg f.
Proof. intros [[|]|[|]| |[|] m e] H; try contradiction; exact I. Qed.

Lemma average32_nonneg : forall rs, rs <> [] -> (Z.of_nat (List.length rs) < 2 ^ 127)%Z ->
  Forall (fun r => positive_score (r_score r)) rs -> f_nonneg (average32 rs).
Proof.
  intros rs HN HL HP. unfold average32. apply div_nonneg.
  - assert (G : forall l z, f_nonneg z -> Forall (fun r => positive_score (r_score r)) l ->
               f_nonneg (fold_left (fun s r => SFadd 24 128 s (r_score r)) l z)).
    { induction l as [|r l IH]; intros z Hz HF; [exact Hz|]. inversion HF; subst. cbn [fold_left]. apply IH; [|assumption].
      apply add_nonneg; [assumption|]. apply positive_nonneg. assumption. }
    apply G; [exact I|assumption].
  - apply f32_count; [|assumption]. destruct rs; [congruence|cbn; lia].
Qed.
Lemma widen_nonneg : forall f, f_nonneg f -> f_nonneg (widen f).
Proof. intros f H. rewrite <- widen_spec. apply conv_nonneg. assumption. Qed.
Lemma average64_nonneg : forall rs, rs <> [] -> (Z.of_nat (List.length rs) < 2 ^ 127)%Z ->
  Forall (fun r => positive_score (r_score r)) rs -> f_nonneg (average64 rs).
Proof.
  intros rs HN HL HP. unfold average64. apply div_nonneg.
  - assert (G : forall l z, f_nonneg z -> Forall (fun r => positive_score (r_score r)) l ->
               f_nonneg (fold_left (fun s r => SFadd 53 1024 s (widen (r_score r))) l z)).
    { induction l as [|r l IH]; intros z Hz HF; [exact Hz|]. inversion HF; subst. cbn [fold_left]. apply IH; [|assumption].
      apply add_nonneg; [assumption|]. apply widen_nonneg, positive_nonneg. assumption. }
    apply G; [exact I|assumption].
  - apply f64_count; [|assumption]. destruct rs; [congruence|cbn; lia].
Qed.

(** ** Sizes *)
Lemma derives_bound : forall g names k ds w, 
  (forall ms refs, In ms (g_metas g) -> In refs (ms_rules ms) -> List.length refs <= w) ->
  derives g names k ds -> List.length ds <= List.length names + k * w.
Proof.
  intros g names k ds w HW H. induction H.
  - cbn. lia.
  - rewrite app_length, map_length in IHderives. specialize (HW _ _ H H0). cbn [List.length]. lia.
  - cbn [List.length]. lia.
Qed.

Record search_ok (g : grammar) : Prop := {
  so_linked : linked g; so_balanced : rules_balanced g; so_positive : scores_positive g;
  so_address : In ADDRESS (section_names g) }.

Lemma path_facts : forall g phrase ps p, search_ok g -> sizes_ok g phrase ->
  search g phrase = Ok ps -> In p ps ->
  p_rules p <> [] /\ (Z.of_nat (List.length (p_rules p)) < 2 ^ 127)%Z /\
  Forall (fun r => positive_score (r_score r)) (p_rules p).
Proof.
  intros g phrase ps p G [w [HW HL]] H Hp.
  destruct (search_sound g ADDRESS phrase ps p (so_linked g G) H Hp) as [k [[Hd Hc] Hk]].
  split; [|split].
  - apply (derives_nonempty g _ k _ (so_linked g G) Hd). discriminate.
  - pose proof (derives_bound g _ _ _ w HW Hd) as B. cbn [List.length] in B.
    eapply Z.le_lt_trans; [|exact HL]. apply Nat2Z.inj_le. nia.
  - eapply derives_rules; [|exact Hd]. exact (so_positive g G).
Qed.

(** ** The selection loop *)
Lemma nonneg_zero : forall f, f_nonneg f -> f_lt f_zero f = false -> f = f_zero.
Proof. intros [[|]|[|]| |[|] m e] H1 H2; try contradiction; try discriminate; reflexivity. Qed.

Lemma select_best_inv : forall p0 l pre st,
  (forall p, In p (pre ++ l) -> f_nonneg (avg32 p)) ->
  ((Forall (fun p => f_lt f_zero (avg32 p) = false) pre /\ st = (p0, f_zero, f32_m1)) \/
   (exists b l1 l2, pre = l1 ++ b :: l2 /\ st = (b, avg32 b, f32_of_nat (List.length (p_rules b))) /\
      f_lt f_zero (avg32 b) = true /\
      Forall (fun y => f_lt (avg32 y) (avg32 b) = true) l1 /\
      Forall (fun y => f_lt (avg32 b) (avg32 y) = false) l2)) ->
  let st' := fold_left best_step l st in
  (Forall (fun p => f_lt f_zero (avg32 p) = false) (pre ++ l) /\ st' = (p0, f_zero, f32_m1)) \/
   (exists b l1 l2, pre ++ l = l1 ++ b :: l2 /\ st' = (b, avg32 b, f32_of_nat (List.length (p_rules b))) /\
      f_lt f_zero (avg32 b) = true /\
      Forall (fun y => f_lt (avg32 y) (avg32 b) = true) l1 /\
      Forall (fun y => f_lt (avg32 b) (avg32 y) = false) l2).
Proof.
  intros p0. induction l as [|p l IH]; intros pre st HN HI.
  - rewrite app_nil_r. exact HI.
  - cbn [fold_left].
    assert (HNp : f_nonneg (avg32 p)) by (apply HN, in_app_iff; right; left; reflexivity).
    assert (HNpre : forall q, In q pre -> f_nonneg (avg32 q)) by (intros q Hq; apply HN, in_app_iff; auto).
    replace (pre ++ p :: l) with ((pre ++ [p]) ++ l) in * by (rewrite <- app_assoc; reflexivity).
    apply IH; [assumption|].
    destruct HI as [[HF ->]|(b & l1 & l2 & -> & -> & Hpos & H1 & H2)].
    + cbn [best_step]. destruct (f_lt f_zero (avg32 p)) eqn:E.
      * right. exists p, pre, []. split; [reflexivity|]. split; [reflexivity|]. split; [exact E|].
        split; [|constructor]. apply Forall_forall. intros q Hq. rewrite Forall_forall in HF.
        rewrite (nonneg_zero (avg32 q) (HNpre q Hq) (HF q Hq)). exact E.
      * left. split; [|reflexivity]. apply Forall_app. auto.
    + cbn [best_step].
      assert (Hb : f_nonneg (avg32 b)) by (apply HNpre, in_app_iff; right; left; reflexivity).
      destruct (f_lt (avg32 b) (avg32 p)) eqn:E.
      * right. exists p, (l1 ++ b :: l2), []. split; [reflexivity|]. split; [reflexivity|].
        split; [eapply f_lt_trans; eauto|]. split; [|constructor]. apply Forall_app. split.
        -- eapply Forall_impl; [|exact H1]. intros q Hq. cbn in Hq. eapply f_lt_trans; eauto.
        -- constructor; [assumption|]. apply Forall_forall. intros q Hq. rewrite Forall_forall in H2.
           assert (f_nonneg (avg32 q)) by (apply HNpre, in_app_iff; right; right; assumption).
           (* q <= b < p *)
           specialize (H2 q Hq). destruct (f_lt (avg32 q) (avg32 p)) eqn:F; [reflexivity|].
           rewrite (f_ge_trans (avg32 b) (avg32 q) (avg32 p)) in E; try (apply nonneg_not_nan; assumption); congruence.
      * right. exists b, l1, (l2 ++ [p]). split; [rewrite <- app_assoc; reflexivity|].
        split; [reflexivity|]. split; [assumption|]. split; [assumption|]. apply Forall_app. auto.
Qed.

Lemma select_best_spec : forall p0 rest,
  (forall p, In p (p0 :: rest) -> f_nonneg (avg32 p)) ->
  exists b nr, select_best p0 (p0 :: rest) = (b, avg32 b, nr) /\
    first_max avg32 (p0 :: rest) b /\ (f_lt f_zero (avg32 b) = true -> nr = f32_of_nat (List.length (p_rules b))).
Proof.
  intros p0 rest HN. unfold select_best.
  destruct (select_best_inv p0 (p0 :: rest) [] (p0, f_zero, f32_m1) HN) as [[HF E]|(b & l1 & l2 & E1 & E2 & Hpos & H1 & H2)].
  - left. split; [constructor|reflexivity].
  - cbn [app] in *. exists p0, f32_m1. rewrite E. inversion HF; subst.
    assert (E0 : avg32 p0 = f_zero) by (apply nonneg_zero; [apply HN; left; reflexivity|assumption]).
    split; [rewrite E0; reflexivity|]. split.
    + exists [], rest. split; [reflexivity|]. split; [constructor|]. rewrite E0. assumption.
    + rewrite E0. discriminate.
  - cbn [app] in *. exists b, (f32_of_nat (List.length (p_rules b))). rewrite E2. split; [reflexivity|].
    split; [|reflexivity]. exists l1, l2. auto.
Qed.

Lemma first_max_In : forall {A} (v : A -> spec_float) l x, first_max v l x -> In x l.
Proof. intros A v l x (l1 & l2 & -> & _). apply in_app_iff. right. left. reflexivity. Qed.

(** ** searchAndReclassBest(phrase) *)
Lemma best1_none : forall g old phrase, search g phrase = Ok [] ->
  search_best1 g old phrase = Ok (mkBest [] f32_m1 old f32_m1).
Proof. intros g old phrase H. unfold search_best1. rewrite H. reflexivity. Qed.

Lemma best1_some : forall g old phrase ps, search_ok g -> sizes_ok g phrase ->
  search g phrase = Ok ps -> ps <> [] ->
  exists p ts nr, first_max (fun p => average32 (p_rules p)) ps p /\
    reclass_tokens phrase p = Ok (ts, true) /\
    search_best1 g old phrase = Ok (mkBest ts (average32 (p_rules p)) (pattern_str ts) nr) /\
    (f_lt f_zero (average32 (p_rules p)) = true -> nr = f32_of_nat (List.length (p_rules p))) /\
    f_nonneg (average32 (p_rules p)).
Proof.
  intros g old phrase ps G SZ H HN.
  assert (HA : forall p, In p ps -> f_nonneg (avg32 p)).
  { intros p Hp. rewrite avg32_spec. destruct (path_facts g phrase ps p G SZ H Hp) as [A [B C]].
    apply average32_nonneg; assumption. }
  destruct ps as [|p0 rest]; [congruence|].
  destruct (select_best_spec p0 rest HA) as (b & nr & E & FM & Hnr).
  assert (Hb : In b (p0 :: rest)) by (eapply first_max_In; eauto).
  destruct (reclass_faithful g ADDRESS phrase _ b (so_linked g G) (so_balanced g G) H Hb) as [ts [Hts _]].
  exists b, ts, nr. split; [exact FM|]. split; [exact Hts|].
  split; [|split; [exact Hnr|apply HA; assumption]].
  unfold search_best1. rewrite H. cbn [obind]. rewrite E. rewrite Hts. reflexivity.
Qed.

Definition empty_best : best := mkBest [] f32_m1 [] f32_m1.

Lemma best1_defined : forall g old phrase, search_ok g -> sizes_ok g phrase ->
  exists r, search_best1 g old phrase = Ok r /\ not_nan (b_score r) /\
    ((exists p, search g phrase = Ok [] /\ p = tt /\ r = mkBest [] f32_m1 old f32_m1) \/
     (exists ps, search g phrase = Ok ps /\ ps <> [] /\ f_nonneg (b_score r))).
Proof.
  intros g old phrase G SZ.
  destruct (search_defined g ADDRESS phrase (so_linked g G) (so_address g G)) as [ps H].
  destruct ps as [|p0 rest].
  - exists (mkBest [] f32_m1 old f32_m1). split; [apply best1_none; assumption|].
    split; [discriminate|]. left. exists tt. auto.
  - destruct (best1_some g old phrase _ G SZ H ltac:(discriminate)) as (p & ts & nr & _ & _ & E & _ & NN).
    eexists. split; [exact E|]. cbn [b_score]. split; [apply nonneg_not_nan; exact NN|].
    right. exists (p0 :: rest). split; [exact H|]. split; [discriminate|exact NN].
Qed.

(** ** searchAndReclassBest(phrases) *)
Lemma best_loop_spec : forall g phrases rs cur,
  Forall2 (fun ph r => search_best1 g [] ph = Ok r) phrases rs ->
  search_best_loop g cur phrases =
  Ok (fold_left (fun c r => if f_lt (b_score c) (b_score r) then r else c) rs cur).
Proof.
  intros g phrases rs cur H. revert cur. induction H; intros cur; [reflexivity|].
  cbn [search_best_loop fold_left]. rewrite H. cbn [obind]. apply IHForall2.
Qed.

Lemma fold_first_max : forall (d : best) rs pre cur,
  not_nan (b_score d) -> (forall r, In r (pre ++ rs) -> not_nan (b_score r)) ->
  ((Forall (fun r => f_lt (b_score d) (b_score r) = false) pre /\ cur = d) \/
   (first_max b_score pre cur /\ f_lt (b_score d) (b_score cur) = true)) ->
  let res := fold_left (fun c r => if f_lt (b_score c) (b_score r) then r else c) rs cur in
  (Forall (fun r => f_lt (b_score d) (b_score r) = false) (pre ++ rs) /\ res = d) \/
   (first_max b_score (pre ++ rs) res /\ f_lt (b_score d) (b_score res) = true).
Proof.
  intros d. induction rs as [|r rs IH]; intros pre cur Hd HN HI.
  - rewrite app_nil_r. exact HI.
  - cbn [fold_left].
    assert (HNr : not_nan (b_score r)) by (apply HN, in_app_iff; right; left; reflexivity).
    assert (HNpre : forall q, In q pre -> not_nan (b_score q)) by (intros q Hq; apply HN, in_app_iff; auto).
    replace (pre ++ r :: rs) with ((pre ++ [r]) ++ rs) in * by (rewrite <- app_assoc; reflexivity).
    apply IH; [assumption|assumption|].
    destruct HI as [[HF ->]|[(l1 & l2 & -> & H1 & H2) Hc]].
    + destruct (f_lt (b_score d) (b_score r)) eqn:E.
      * right. split; [|exact E]. exists pre, []. split; [reflexivity|]. split; [|constructor].
        apply Forall_forall. intros q Hq. rewrite Forall_forall in HF. specialize (HF q Hq).
        change (f_lt (b_score q) (b_score r) = true).
        destruct (f_lt (b_score q) (b_score r)) eqn:F; [reflexivity|].
        rewrite (f_ge_trans (b_score d) (b_score q) (b_score r)) in E; auto.
      * left. split; [|reflexivity]. apply Forall_app. auto.
    + assert (Hcn : not_nan (b_score cur)) by (apply HNpre, in_app_iff; right; left; reflexivity).
      destruct (f_lt (b_score cur) (b_score r)) eqn:E.
      * right. split; [|eapply f_lt_trans; eauto]. exists (l1 ++ cur :: l2), [].
        split; [reflexivity|]. split; [|constructor]. apply Forall_app. split.
        -- eapply Forall_impl; [|exact H1]. intros q Hq. exact (f_lt_trans _ _ _ Hq E).
        -- constructor; [exact E|]. apply Forall_forall. intros q Hq. rewrite Forall_forall in H2.
           specialize (H2 q Hq). change (f_lt (b_score cur) (b_score q) = false) in H2.
           change (f_lt (b_score q) (b_score r) = true).
           assert (not_nan (b_score q)) by (apply HNpre, in_app_iff; right; right; assumption).
           destruct (f_lt (b_score q) (b_score r)) eqn:F; [reflexivity|].
           rewrite (f_ge_trans (b_score cur) (b_score q) (b_score r)) in E; auto.
      * right. split; [|exact Hc]. exists l1, (l2 ++ [r]). split; [rewrite <- app_assoc; reflexivity|].
        split; [assumption|]. apply Forall_app. split; [assumption|]. constructor; [exact E|constructor].
Qed.

Lemma m1_lt_nonneg : forall f, f_nonneg f -> f_lt f32_m1 f = true.
Proof. intros [[|]|[|]| |[|] m e] H; try contradiction; reflexivity. Qed.

Lemma best_all : forall g phrases, search_ok g -> Forall (sizes_ok g) phrases ->
  exists rs b, Forall2 (fun ph r => search_best1 g [] ph = Ok r) phrases rs /\
    search_best g phrases = Ok b /\
    ((exists ph ps, In ph phrases /\ search g ph = Ok ps /\ ps <> []) ->
       first_max b_score rs b /\ f_nonneg (b_score b)) /\
    ((forall ph, In ph phrases -> search g ph = Ok []) -> b = empty_best).
Proof.
  intros g phrases G SZ.
  assert (HR : exists rs, Forall2 (fun ph r => search_best1 g [] ph = Ok r /\ not_nan (b_score r) /\
    ((search g ph = Ok [] /\ r = empty_best) \/
     (exists ps, search g ph = Ok ps /\ ps <> [] /\ f_nonneg (b_score r)))) phrases rs).
  { induction SZ as [|ph phrases HS _ IH]; [exists []; constructor|]. destruct IH as [rs IH].
    destruct (best1_defined g [] ph G HS) as (r & H1 & H2 & H3).
    exists (r :: rs). constructor; [|exact IH]. split; [exact H1|]. split; [exact H2|].
    destruct H3 as [(_ & H3 & _ & H4)|H3]; [left; auto|right; exact H3]. }
  destruct HR as [rs HR].
  assert (HR1 : Forall2 (fun ph r => search_best1 g [] ph = Ok r) phrases rs).
  { clear - HR. induction HR; constructor; [apply H|assumption]. }
  exists rs. eexists. split; [exact HR1|]. unfold search_best. rewrite (best_loop_spec g phrases rs _ HR1).
  split; [reflexivity|].
  assert (HN : forall r, In r ([] ++ rs) -> not_nan (b_score r)).
  { clear - HR. cbn. induction HR; intros r Hr; [destruct Hr|]; destruct Hr as [<-|Hr]; [apply H|apply IHHR; assumption]. }
  destruct (fold_first_max empty_best rs [] empty_best ltac:(discriminate) HN) as [[HF E]|[FM HL]].
  - left. split; [constructor|reflexivity].
  - cbn [app] in *. fold empty_best. rewrite E. split; [|reflexivity].
    intros (ph & ps & Hin & Hs & Hne). exfalso.
    assert (HX : exists r, In r rs /\ f_nonneg (b_score r)).
    { clear - HR Hin Hs Hne. induction HR; [destruct Hin|]. destruct Hin as [->|Hin].
      - destruct H as (_ & _ & [[H _]|(ps' & _ & _ & H)]); [congruence|]. exists y. split; [left; reflexivity|exact H].
      - destruct (IHHR Hin) as (r & Hr & Hn). exists r. split; [right; exact Hr|exact Hn]. }
    destruct HX as (r & Hr & Hn). rewrite Forall_forall in HF. specialize (HF r Hr).
    cbn [b_score empty_best] in HF. rewrite m1_lt_nonneg in HF by assumption. discriminate.
  - cbn [app] in *. fold empty_best. split.
    + intros _. split; [exact FM|].
      apply first_max_In in FM. revert FM HL.
      set (res := fold_left _ rs empty_best). intros FM HL. clearbody res. clear HN.
      assert (HX : forall r, In r rs -> r = empty_best \/ f_nonneg (b_score r)).
      { clear - HR. induction HR; intros r Hr; [destruct Hr|]. destruct Hr as [<-|Hr]; [|apply IHHR; assumption].
        destruct H as (_ & _ & [[_ H]|(ps & _ & _ & H)]); auto. }
      destruct (HX res FM) as [->|HX']; [discriminate HL|exact HX'].
    + intros Hall. exfalso.
      apply first_max_In in FM. revert FM HL. set (res := fold_left _ rs empty_best). clearbody res. intros FM HL.
      assert (HX : forall r, In r rs -> r = empty_best).
      { clear - HR Hall. induction HR; intros r Hr; [destruct Hr|]. destruct Hr as [<-|Hr].
        - destruct H as (_ & _ & [[_ H]|(ps & H & Hne & _)]); [exact H|].
          rewrite (Hall x (or_introl eq_refl)) in H. inversion H; congruence.
        - apply IHHR; [|assumption]. intros; apply Hall; right; assumption. }
      rewrite (HX res FM) in HL. discriminate HL.
Qed.

(** Matched or not: the sign of the score. *)
Lemma best_score_sign : forall g phrases, search_ok g -> Forall (sizes_ok g) phrases ->
  exists b, search_best g phrases = Ok b /\
   (f_le f_zero (b_score b) = true <-> exists ph ps, In ph phrases /\ search g ph = Ok ps /\ ps <> []).
Proof.
  intros g phrases G SZ. destruct (best_all g phrases G SZ) as (rs & b & _ & E & Hm & Hn).
  exists b. split; [exact E|]. split.
  - intros Hle.
    assert (Hdec : (exists ph ps, In ph phrases /\ search g ph = Ok ps /\ ps <> []) \/
                   (forall ph, In ph phrases -> search g ph = Ok [])).
    { clear - G. induction phrases as [|ph phrases IH]; [right; intros ? []|].
      destruct (search_defined g ADDRESS ph (so_linked g G) (so_address g G)) as [ps H]. fold (search g ph) in H.
      destruct ps as [|p ps].
      - destruct IH as [(ph' & ps & H1 & H2)|IH].
        + left. exists ph', ps. split; [right; exact H1|exact H2].
        + right. intros ph' [<-|Hin]; auto.
      - left. exists ph, (p :: ps). split; [left; reflexivity|]. split; [exact H|discriminate]. }
    destruct Hdec as [D|D]; [exact D|]. rewrite (Hn D) in Hle. discriminate Hle.
  - intros D. destruct (Hm D) as [_ NN].
    destruct (b_score b) as [[|]|[|]| |[|] m e]; try contradiction; reflexivity.
Qed.
