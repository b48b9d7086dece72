(** Order and sign facts about [SpecFloat]. *)
From Coq Require Import ZArith Bool Floats.SpecFloat List Lia.
From Verif Require Import Float_model.
Local Open Scope Z_scope.

(** ** Total order on values that are not NaN *)
Definition not_nan (f : flt) : Prop := f <> S754_nan.
Definition key (f : flt) : Z * (Z * Z) :=
  match f with
  | S754_nan => (9, (0, 0))
  | S754_infinity true => (-2, (0, 0))
  | S754_infinity false => (2, (0, 0))
  | S754_zero _ => (0, (0, 0))
  | S754_finite true m e => (-1, (- e, - Zpos m))
  | S754_finite false m e => (1, (e, Zpos m))
  end.
Definition klt (a b : Z * (Z * Z)) : Prop :=
  fst a < fst b \/ (fst a = fst b /\ (fst (snd a) < fst (snd b) \/
    (fst (snd a) = fst (snd b) /\ snd (snd a) < snd (snd b)))).

Lemma cmp_key : forall a b, not_nan a -> not_nan b ->
  (SFcompare a b = Some Lt <-> klt (key a) (key b)) /\
  (SFcompare a b = Some Gt <-> klt (key b) (key a)) /\
  (SFcompare a b = Some Eq <-> key a = key b).
Proof.
  intros a b Ha Hb. unfold klt.
  destruct a as [[|]|[|]| |[|] m e]; destruct b as [[|]|[|]| |[|] m' e']; try (now destruct Ha); try (now destruct Hb);
    cbn [SFcompare key fst snd];
    try (repeat split; intro H; try discriminate H; try reflexivity; try lia; fail).
  - destruct (Z.compare_spec e e') as [->|H|H].
    + idtac.
      change (Pos.compare_cont Eq m m') with (Pos.compare m m').
      destruct (Pos.compare_spec m m') as [->|H|H]; cbn;
        repeat split; intro K; try discriminate K; try reflexivity; try lia; try congruence;
        inversion K; lia.
    + repeat split; intro K; try discriminate K; try reflexivity; try lia; inversion K; lia.
    + repeat split; intro K; try discriminate K; try reflexivity; try lia; inversion K; lia.
  - destruct (Z.compare_spec e e') as [->|H|H].
    + change (Pos.compare_cont Eq m m') with (Pos.compare m m').
      destruct (Pos.compare_spec m m') as [->|H|H]; cbn;
        repeat split; intro K; try discriminate K; try reflexivity; try lia; try congruence;
        inversion K; lia.
    + repeat split; intro K; try discriminate K; try reflexivity; try lia; inversion K; lia.
    + repeat split; intro K; try discriminate K; try reflexivity; try lia; inversion K; lia.
Qed.

Lemma f_lt_key : forall a b, not_nan a -> not_nan b -> (f_lt a b = true <-> klt (key a) (key b)).
Proof.
  intros a b Ha Hb. destruct (cmp_key a b Ha Hb) as [H [_ _]]. rewrite <- H. unfold f_lt, SFltb.
  destruct (SFcompare a b) as [[| |]|]; split; congruence.
Qed.
Lemma f_le_key : forall a b, not_nan a -> not_nan b -> (f_le a b = true <-> ~ klt (key b) (key a)).
Proof.
  intros a b Ha Hb. destruct (cmp_key a b Ha Hb) as [H1 [H2 H3]]. unfold f_le, SFleb.
  destruct (SFcompare a b) as [[| |]|] eqn:E.
  - split; [intros _|reflexivity]. intro K. apply H2 in K. discriminate.
  - split; [intros _|reflexivity]. intro K. apply H2 in K. discriminate.
  - split; [discriminate|]. intro K. exfalso. apply K, H2. reflexivity.
  - exfalso. destruct a as [[|]|[|]| |[|] m e]; destruct b as [[|]|[|]| |[|] m' e']; try (now destruct Ha); try (now destruct Hb); discriminate.
Qed.
Lemma klt_irrefl : forall a, ~ klt a a.
Proof. unfold klt. intros. lia. Qed.
Lemma klt_trans : forall a b c, klt a b -> klt b c -> klt a c.
Proof. unfold klt. intros. lia. Qed.
Lemma klt_total : forall a b, klt a b \/ a = b \/ klt b a.
Proof.
  unfold klt. intros [a1 [a2 a3]] [b1 [b2 b3]]. cbn.
  destruct (Z.lt_trichotomy a1 b1) as [|[|]]; [lia| |lia].
  destruct (Z.lt_trichotomy a2 b2) as [|[|]]; [lia| |lia].
  destruct (Z.lt_trichotomy a3 b3) as [|[|]]; [lia| |lia]. right. left. congruence.
Qed.

Lemma f_lt_irrefl : forall a, f_lt a a = false.
Proof.
  intros a. destruct a as [[|]|[|]| |[|] m e]; try reflexivity;
    unfold f_lt, SFltb, SFcompare; rewrite Z.compare_refl;
    change (Pos.compare_cont Eq m m) with (Pos.compare m m); rewrite Pos.compare_refl; reflexivity.
Qed.
Lemma f_lt_not_nan : forall a b, f_lt a b = true -> not_nan a /\ not_nan b.
Proof.
  intros a b H. split; intros E; subst; unfold f_lt, SFltb in H.
  - cbn in H. discriminate.
  - destruct a; cbn in H; discriminate.
Qed.
Lemma f_lt_trans : forall a b c, f_lt a b = true -> f_lt b c = true -> f_lt a c = true.
Proof.
  intros a b c H1 H2. destruct (f_lt_not_nan _ _ H1), (f_lt_not_nan _ _ H2).
  apply f_lt_key; auto. apply f_lt_key in H1; auto. apply f_lt_key in H2; auto. eapply klt_trans; eauto.
Qed.
(** [c <= b] (not [b < c]) and [a < ...] *)
Lemma f_lt_le_trans : forall a b c, not_nan a -> not_nan b -> not_nan c ->
  f_lt a b = true -> f_lt c b = false -> f_lt a c = true.
Proof.
  intros a b c Ha Hb Hc H1 H2. apply f_lt_key in H1; auto. apply f_lt_key; auto.
  assert (~ klt (key c) (key b)) by (intro K; apply f_lt_key in K; auto; congruence).
  destruct (klt_total (key c) (key b)) as [K|[K|K]]; [contradiction| |].
  - rewrite K. assumption.
  - eapply klt_trans; eauto.
Qed.
Lemma f_ge_trans : forall a b c, not_nan a -> not_nan b -> not_nan c ->
  f_lt a b = false -> f_lt b c = false -> f_lt a c = false.
Proof.
  intros a b c Ha Hb Hc H1 H2. destruct (f_lt a c) eqn:E; [|reflexivity].
  assert (f_lt a b = true) by (eapply f_lt_le_trans with (b := c); eauto). congruence.
Qed.
Lemma f_lt_asym : forall a b, f_lt a b = true -> f_lt b a = false.
Proof.
  intros a b H. destruct (f_lt b a) eqn:E; [|reflexivity].
  pose proof (f_lt_trans _ _ _ H E) as K. rewrite f_lt_irrefl in K. discriminate.
Qed.
Lemma f_le_lt : forall a b, not_nan a -> not_nan b -> f_le a b = negb (f_lt b a).
Proof.
  intros a b Ha Hb. destruct (f_lt b a) eqn:E; cbn.
  - apply f_lt_key in E; auto. destruct (f_le a b) eqn:F; [|reflexivity].
    apply f_le_key in F; auto. contradiction.
  - apply f_le_key; auto. intro K. apply f_lt_key in K; auto. congruence.
Qed.

(** ** Sign *)
Definition f_nonneg (f : flt) : Prop :=
  match f with
  | S754_zero false | S754_infinity false | S754_finite false _ _ => True
  | _ => False
  end.
Definition f_posfin (f : flt) : Prop := match f with S754_finite false _ _ => True | _ => False end.

Lemma nonneg_not_nan : forall f, f_nonneg f -> not_nan f.
Proof. intros [] H E; try discriminate; contradiction. Qed.
Lemma nonneg_ge0 : forall f, f_nonneg f -> f_lt f f_zero = false.
Proof. intros [[|]|[|]| |[|] m e] H; try contradiction; reflexivity. Qed.

Lemma shr_1_nonneg : forall mrs, 0 <= shr_m mrs -> 0 <= shr_m (shr_1 mrs).
Proof. intros [m r s] H. cbn in H. destruct m as [|[p|p|]|p]; cbn; lia. Qed.
Lemma iter_shr_nonneg : forall p mrs, 0 <= shr_m mrs -> 0 <= shr_m (iter_pos shr_1 p mrs).
Proof.
  induction p; intros mrs H; cbn [iter_pos].
  - apply IHp, IHp, shr_1_nonneg, H.
  - apply IHp, IHp, H.
  - apply shr_1_nonneg, H.
Qed.
Lemma shr_fexp_nonneg : forall prec emax m e l, 0 <= m -> 0 <= shr_m (fst (shr_fexp prec emax m e l)).
Proof.
  intros prec emax m e l H. unfold shr_fexp, shr.
  assert (K : 0 <= shr_m (shr_record_of_loc m l)) by (destruct l as [|[| |]]; exact H).
  destruct (fexp prec emax (Zdigits2 m + e) - e); cbn [fst]; auto. apply iter_shr_nonneg. exact K.
Qed.
Lemma rne_nonneg : forall m l, 0 <= m -> 0 <= round_nearest_even m l.
Proof. intros m [|[| |]] H; cbn; try destruct (Z.even m); lia. Qed.
Lemma aux_nonneg : forall prec emax m e l, 0 <= m -> f_nonneg (binary_round_aux prec emax false m e l).
Proof.
  intros prec emax m e l H. unfold binary_round_aux.
  pose proof (shr_fexp_nonneg prec emax m e l H) as H1.
  destruct (shr_fexp prec emax m e l) as [mrs1 e1]. cbn [fst] in H1.
  pose proof (rne_nonneg _ (loc_of_shr_record mrs1) H1) as H2.
  pose proof (shr_fexp_nonneg prec emax _ e1 loc_Exact H2) as H3.
  destruct (shr_fexp prec emax (round_nearest_even (shr_m mrs1) (loc_of_shr_record mrs1)) e1 loc_Exact) as [mrs2 e2].
  cbn [fst] in H3. destruct (shr_m mrs2); cbn; [exact I| |lia].
  destruct (Zle_bool e2 (emax - prec)); exact I.
Qed.
Lemma round_nonneg : forall prec emax m e, f_nonneg (binary_round prec emax false m e).
Proof.
  intros. unfold binary_round. destruct (shl_align m e (fexp prec emax (Z.pos (digits2_pos m) + e))) as [mz ez].
  apply aux_nonneg. lia.
Qed.
Lemma add_nonneg : forall prec emax a b, f_nonneg a -> f_nonneg b -> f_nonneg (SFadd prec emax a b).
Proof.
  intros prec emax a b Ha Hb.
  destruct a as [[|]|[|]| |[|] m e]; destruct b as [[|]|[|]| |[|] m' e']; try contradiction; try exact I.
  cbn [SFadd cond_Zopp]. set (x := fst (shl_align m e (Z.min e e'))). set (y := fst (shl_align m' e' (Z.min e e'))).
  change (Z.pos x + Z.pos y) with (Z.pos (x + y)). cbn [binary_normalize]. apply round_nonneg.
Qed.
Lemma div_nonneg : forall prec emax a b, f_nonneg a -> f_posfin b -> f_nonneg (SFdiv prec emax a b).
Proof.
  intros prec emax a b Ha Hb.
  destruct b as [[|]|[|]| |[|] m' e']; try contradiction.
  destruct a as [[|]|[|]| |[|] m e]; try contradiction; try exact I.
  cbn [SFdiv]. unfold SFdiv_core_binary.
  set (E := Z.min _ _). set (M := match e - e' - E with Z0 => _ | Zpos _ => _ | Zneg _ => _ end).
  assert (HM : 0 <= M).
  { subst M. destruct (e - e' - E); try lia. apply Z.shiftl_nonneg. lia. }
  destruct (Z.div_eucl M (Z.pos m')) as [q r] eqn:ED. cbn [xorb].
  apply aux_nonneg.
  assert (q = M / Z.pos m') by (unfold Z.div; rewrite ED; reflexivity). subst q.
  apply Z.div_pos; lia.
Qed.

(** ** Counts *)
Lemma digits2_bounds : forall p, 2 ^ (Z.pos (digits2_pos p) - 1) <= Z.pos p < 2 ^ Z.pos (digits2_pos p).
Proof.
  induction p; cbn [digits2_pos].
  - rewrite Pos2Z.inj_succ. replace (Z.succ (Z.pos (digits2_pos p)) - 1) with (Z.pos (digits2_pos p)) by lia.
    rewrite Z.pow_succ_r by lia.
    assert (2 ^ Z.pos (digits2_pos p) = 2 * 2 ^ (Z.pos (digits2_pos p) - 1))
      by (rewrite <- Z.pow_succ_r by lia; f_equal; lia). lia.
  - rewrite Pos2Z.inj_succ. replace (Z.succ (Z.pos (digits2_pos p)) - 1) with (Z.pos (digits2_pos p)) by lia.
    rewrite Z.pow_succ_r by lia.
    assert (2 ^ Z.pos (digits2_pos p) = 2 * 2 ^ (Z.pos (digits2_pos p) - 1))
      by (rewrite <- Z.pow_succ_r by lia; f_equal; lia). lia.
  - cbn. lia.
Qed.
Lemma digits2_unique : forall p d, 0 < d -> 2 ^ (d - 1) <= Z.pos p < 2 ^ d -> Z.pos (digits2_pos p) = d.
Proof.
  intros p d Hd H. pose proof (digits2_bounds p) as B.
  destruct (Z.lt_trichotomy (Z.pos (digits2_pos p)) d) as [L|[L|L]]; [|assumption|].
  - assert (2 ^ Z.pos (digits2_pos p) <= 2 ^ (d - 1)) by (apply Z.pow_le_mono_r; lia). lia.
  - assert (2 ^ d <= 2 ^ (Z.pos (digits2_pos p) - 1)) by (apply Z.pow_le_mono_r; lia). lia.
Qed.
Lemma shift_pos_value : forall k m, Z.pos (shift_pos k m) = Z.pos m * 2 ^ Z.pos k.
Proof. intros. rewrite shift_pos_correct, Zpower_pos_nat, Zpower_nat_Z. rewrite positive_nat_Z. lia. Qed.
Lemma shr_1_div : forall mrs, 0 <= shr_m mrs -> shr_m (shr_1 mrs) = shr_m mrs / 2.
Proof.
  intros [m r s] H. cbn in H. destruct m as [|[p|p|]|p]; cbn [shr_1 shr_m]; try reflexivity.
  - rewrite Pos2Z.inj_xI. rewrite Z.mul_comm, Z.div_add_l by lia. cbn. lia.
  - rewrite Pos2Z.inj_xO. rewrite Z.mul_comm, Z.div_mul by lia. reflexivity.
  - lia.
Qed.
Lemma iter_shr_div : forall p mrs, 0 <= shr_m mrs -> shr_m (iter_pos shr_1 p mrs) = shr_m mrs / 2 ^ Z.pos p.
Proof.
  induction p; intros mrs H; cbn [iter_pos].
  - rewrite IHp by (apply iter_shr_nonneg, shr_1_nonneg, H).
    rewrite IHp by (apply shr_1_nonneg, H). rewrite shr_1_div by assumption.
    rewrite !Z.div_div by (try apply Z.pow_pos_nonneg; try apply Z.mul_pos_pos; try apply Z.pow_pos_nonneg; lia).
    f_equal. replace (Z.pos p~1) with (1 + (Z.pos p + Z.pos p)) by lia. rewrite !Z.pow_add_r by lia. lia.
  - rewrite IHp by (apply iter_shr_nonneg, H). rewrite IHp by assumption.
    rewrite Z.div_div by (apply Z.pow_nonzero || apply Z.pow_pos_nonneg; lia).
    f_equal. replace (Z.pos p~0) with (Z.pos p + Z.pos p) by lia. rewrite !Z.pow_add_r by lia. lia.
  - rewrite shr_1_div by assumption. reflexivity.
Qed.
Lemma Zdigits2_unique : forall m d, 0 < d -> 2 ^ (d - 1) <= m < 2 ^ d -> Zdigits2 m = d.
Proof.
  intros m d Hd H. assert (0 < 2 ^ (d - 1)) by (apply Z.pow_pos_nonneg; lia).
  destruct m as [|p|p]; try lia. cbn [Zdigits2]. apply digits2_unique; assumption.
Qed.

Section Count.
  Variables prec emax : Z.
  Hypothesis Hprec : 1 < prec.
  Hypothesis Hemax : prec < emax.

  Lemma fexp_count : forall d e, 3 - emax <= d + e -> fexp prec emax (d + e) = d + e - prec.
  Proof. intros. unfold fexp, emin. lia. Qed.

  (** A mantissa of exactly [prec] digits in range is kept. *)
  Lemma aux_exact : forall m e, 2 ^ (prec - 1) <= m < 2 ^ prec -> 3 - emax - prec <= e <= emax - prec ->
    f_posfin (binary_round_aux prec emax false m e loc_Exact).
  Proof.
    intros m e Hm He. unfold binary_round_aux, shr_fexp.
    rewrite (Zdigits2_unique m prec) by (auto; lia). rewrite fexp_count by lia.
    replace (prec + e - prec - e) with 0 by lia. cbn [shr shr_record_of_loc shr_m loc_of_shr_record round_nearest_even].
    rewrite (Zdigits2_unique m prec) by (auto; lia). rewrite fexp_count by lia.
    replace (prec + e - prec - e) with 0 by lia. cbn [shr shr_m].
    assert (0 < 2 ^ (prec - 1)) by (apply Z.pow_pos_nonneg; lia).
    destruct m as [|p|p]; try lia.
    replace (Zle_bool e (emax - prec)) with true by (symmetry; apply Zle_imp_le_bool; lia). exact I.
  Qed.

  Lemma count_posfin : forall m, Z.pos m < 2 ^ (emax - 1) -> f_posfin (binary_normalize prec emax (Z.pos m) 0 false).
  Proof.
    intros m Hm. cbn [binary_normalize]. unfold binary_round.
    pose proof (digits2_bounds m) as B. set (d := Z.pos (digits2_pos m)) in *.
    assert (Hd : 1 <= d) by lia.
    assert (Hdm : d <= emax - 1).
    { destruct (Z.le_gt_cases d (emax - 1)); [assumption|].
      assert (2 ^ (emax - 1) <= 2 ^ (d - 1)) by (apply Z.pow_le_mono_r; lia). lia. }
    rewrite fexp_count by lia. unfold shl_align.
    destruct (d + 0 - prec - 0) as [|k|k] eqn:EK.
    - (* exactly prec digits *) apply aux_exact; [|lia]. replace prec with d by lia. exact B.
    - (* more digits: shifted right and rounded *)
      assert (Hk : d = prec + Z.pos k) by lia.
      unfold binary_round_aux, shr_fexp. cbn [Zdigits2]. fold d. rewrite fexp_count by lia. rewrite EK.
      cbn [shr shr_record_of_loc]. 
      set (mrs := iter_pos shr_1 k {| shr_m := Z.pos m; shr_r := false; shr_s := false |}).
      assert (Hq : shr_m mrs = Z.pos m / 2 ^ Z.pos k) by (apply (iter_shr_div k); cbn; lia).
      assert (Hr : 2 ^ (prec - 1) <= shr_m mrs < 2 ^ prec).
      { rewrite Hq. assert (0 < 2 ^ Z.pos k) by (apply Z.pow_pos_nonneg; lia).
        split.
        - apply Z.div_le_lower_bound; [lia|]. rewrite <- Z.pow_add_r by lia.
          replace (Z.pos k + (prec - 1)) with (d - 1) by lia. lia.
        - apply Z.div_lt_upper_bound; [lia|]. rewrite <- Z.pow_add_r by lia.
          replace (Z.pos k + prec) with d by lia. lia. }
      set (r := round_nearest_even (shr_m mrs) (loc_of_shr_record mrs)).
      assert (Hr' : 2 ^ (prec - 1) <= r <= 2 ^ prec).
      { subst r. destruct (loc_of_shr_record mrs) as [|[| |]]; cbn [round_nearest_even]; try lia.
        destruct (Z.even (shr_m mrs)); lia. }
      assert (Hpp : 2 ^ (prec + 1) = 2 * 2 ^ prec) by (rewrite Z.pow_add_r by lia; lia).
      assert (Hpp1 : 2 ^ prec = 2 * 2 ^ (prec - 1)) by (rewrite <- Z.pow_succ_r by lia; f_equal; lia).
      assert (H0 : 0 < 2 ^ (prec - 1)) by (apply Z.pow_pos_nonneg; lia).
      destruct (Z.eq_dec r (2 ^ prec)) as [E|E].
      + rewrite E. rewrite (Zdigits2_unique (2 ^ prec) (prec + 1)) by (replace (prec + 1 - 1) with prec by lia; lia).
        rewrite fexp_count by lia. replace (prec + 1 + (0 + Z.pos k) - prec - (0 + Z.pos k)) with 1 by lia.
        cbn [shr iter_pos]. rewrite shr_1_div by (cbn; lia). cbn [shr_m].
        rewrite Hpp1, Z.mul_comm, Z.div_mul by lia.
        destruct (2 ^ (prec - 1)) as [|p|p]; try lia.
        replace (Zle_bool (0 + Z.pos k + 1) (emax - prec)) with true by (symmetry; apply Zle_imp_le_bool; lia).
        exact I.
      + rewrite (Zdigits2_unique r prec) by lia. rewrite fexp_count by lia.
        replace (prec + (0 + Z.pos k) - prec - (0 + Z.pos k)) with 0 by lia. cbn [shr shr_m].
        destruct r as [|p|p]; try lia.
        replace (Zle_bool (0 + Z.pos k) (emax - prec)) with true by (symmetry; apply Zle_imp_le_bool; lia).
        exact I.
    - (* fewer digits: shifted left *)
      assert (Hk : d + Z.pos k = prec) by lia.
      replace (d + 0 - prec) with (- Z.pos k) by lia.
      apply aux_exact; [|lia]. rewrite shift_pos_value.
      assert (H0 : 0 < 2 ^ Z.pos k) by (apply Z.pow_pos_nonneg; lia).
      replace (prec - 1) with (d - 1 + Z.pos k) by lia. replace prec with (d + Z.pos k) by lia.
      rewrite !Z.pow_add_r by lia. nia.
  Qed.
End Count.

Lemma f32_count : forall n, (0 < n)%nat -> Z.of_nat n < 2 ^ 127 -> f_posfin (f32_of_nat n).
Proof.
  intros n H0 H. unfold f32_of_nat. destruct (Z.of_nat n) as [|p|p] eqn:E; try lia.
  apply count_posfin; try lia.
Qed.
Lemma f64_count : forall n, (0 < n)%nat -> Z.of_nat n < 2 ^ 127 -> f_posfin (f64_of_nat n).
Proof.
  intros n H0 H. unfold f64_of_nat. destruct (Z.of_nat n) as [|p|p] eqn:E; try lia.
  apply count_posfin; try lia.
Qed.

Lemma conv_nonneg : forall prec emax f, f_nonneg f -> f_nonneg (f_conv prec emax f).
Proof. intros prec emax [[|]|[|]| |[|] m e] H; try contradiction; try exact I. cbn. apply round_nonneg. Qed.
