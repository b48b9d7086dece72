(** Rounding of positive values: the relative error of one operation. *)
From Coq Require Import ZArith Bool Lia QArith Qpower Lqa Floats.SpecFloat.
From Verif Require Import Float_model Float_proofs Rule_model FloatAcc_spec.
Local Open Scope Z_scope.

(** ** Powers of two *)
Lemma p2_pos : forall e, (0 < p2 e)%Q.
Proof. intros. apply Qpower_0_lt. reflexivity. Qed.
Lemma p2_plus : forall a b, (p2 (a + b) == p2 a * p2 b)%Q.
Proof. intros. apply Qpower_plus. intro H. discriminate H. Qed.
Lemma p2_Z : forall e, 0 <= e -> (p2 e == inject_Z (2 ^ e))%Q.
Proof. intros. unfold p2. rewrite Zpower_Qpower by assumption. reflexivity. Qed.
Lemma p2_le : forall a b, a <= b -> (p2 a <= p2 b)%Q.
Proof. intros. apply Qpower_le_compat_l; [assumption|]. discriminate. Qed.
Lemma p2_lt : forall a b, a < b -> (p2 a < p2 b)%Q.
Proof. intros. apply Qpower_lt_compat_l; [assumption|]. reflexivity. Qed.
Lemma p2_0 : (p2 0 == 1)%Q.
Proof. reflexivity. Qed.
Lemma p2_opp : forall e, (p2 (- e) * p2 e == 1)%Q.
Proof. intros. rewrite <- p2_plus. rewrite Z.add_opp_diag_l. reflexivity. Qed.
Lemma p2_succ : forall e, (p2 (e + 1) == 2 * p2 e)%Q.
Proof. intros. rewrite p2_plus. change (p2 1) with 2%Q. ring. Qed.

Lemma inj_le : forall a b, a <= b -> (inject_Z a <= inject_Z b)%Q.
Proof. intros. rewrite <- Zle_Qle. assumption. Qed.
Lemma inj_lt : forall a b, a < b -> (inject_Z a < inject_Z b)%Q.
Proof. intros. rewrite <- Zlt_Qlt. assumption. Qed.

(** ** Where a value lies between two integers *)
Definition at_loc (mrs : shr_record) (y : Q) : Prop :=
  let m := inject_Z (shr_m mrs) in
  match shr_r mrs, shr_s mrs with
  | false, false => y == m
  | false, true => m < y < m + (1#2)
  | true, false => y == m + (1#2)
  | true, true => m + (1#2) < y < m + 1
  end%Q.

Lemma shr_1_loc : forall mrs y, 0 <= shr_m mrs -> at_loc mrs y -> at_loc (shr_1 mrs) (y * (1#2))%Q.
Proof.
  intros [m r s] y Hm H. cbn [shr_m] in Hm. unfold at_loc in *. cbn [shr_m shr_r shr_s] in H.
  destruct m as [|[p|p|]|p]; [| | | |lia]; cbn [shr_1 shr_m shr_r shr_s].
  - destruct r, s; cbn [orb]; change (inject_Z 0) with 0%Q in *; lra.
  - rewrite Pos2Z.inj_xI in H. rewrite inject_Z_plus, inject_Z_mult in H. change (inject_Z 2) with 2%Q in H. change (inject_Z 1) with 1%Q in H.
    destruct r, s; cbn [orb]; lra.
  - rewrite Pos2Z.inj_xO in H. rewrite inject_Z_mult in H. change (inject_Z 2) with 2%Q in H.
    destruct r, s; cbn [orb]; lra.
  - change (inject_Z 1) with 1%Q in H. change (inject_Z 0) with 0%Q. destruct r, s; cbn [orb]; lra.
Qed.
Lemma at_loc_eq : forall mrs y z, (y == z)%Q -> at_loc mrs y -> at_loc mrs z.
Proof. intros [m r s] y z E H. unfold at_loc in *. cbn [shr_m shr_r shr_s] in *. destruct r, s; lra. Qed.
Lemma iter_loc : forall p mrs y, 0 <= shr_m mrs -> at_loc mrs y -> at_loc (iter_pos shr_1 p mrs) (y * p2 (- Z.pos p))%Q.
Proof.
  induction p; intros mrs y H A; cbn [iter_pos].
  - eapply at_loc_eq; [|apply IHp; [apply iter_shr_nonneg, shr_1_nonneg, H|apply IHp; [apply shr_1_nonneg, H|apply shr_1_loc; eassumption]]].
    replace (- Z.pos p~1) with (-1 + (- Z.pos p + - Z.pos p)) by lia. rewrite !p2_plus. change (p2 (-1)) with (1#2)%Q. ring.
  - eapply at_loc_eq; [|apply IHp; [apply iter_shr_nonneg, H|apply IHp; eassumption]].
    replace (- Z.pos p~0) with (- Z.pos p + - Z.pos p) by lia. rewrite !p2_plus. ring.
  - apply shr_1_loc; assumption.
Qed.
Lemma at_loc_ge : forall mrs y, at_loc mrs y -> (inject_Z (shr_m mrs) <= y)%Q.
Proof. intros [m r s] y H. unfold at_loc in H. cbn [shr_m shr_r shr_s] in *. destruct r, s; lra. Qed.
Lemma rne_loc : forall mrs y, at_loc mrs y ->
  (y - (1#2) <= inject_Z (round_nearest_even (shr_m mrs) (loc_of_shr_record mrs)) <= y + (1#2))%Q.
Proof.
  intros [m r s] y H. unfold at_loc in H. cbn [shr_m shr_r shr_s] in *.
  assert (P : (inject_Z (m + 1) == inject_Z m + 1)%Q) by (rewrite inject_Z_plus; reflexivity).
  destruct r, s; cbn [loc_of_shr_record round_nearest_even]; [|destruct (Z.even m)| |]; lra.
Qed.
Lemma loc_record : forall m l, shr_m (shr_record_of_loc m l) = m.
Proof. intros m [|[| |]]; reflexivity. Qed.

Lemma Zdigits2_bounds : forall m, 0 < m -> 2 ^ (Zdigits2 m - 1) <= m < 2 ^ Zdigits2 m.
Proof. intros [|p|p] H; try lia. apply digits2_bounds. Qed.
Lemma Zdigits2_pos : forall m, 0 < m -> 0 < Zdigits2 m.
Proof. intros [|p|p] H; try lia. reflexivity. Qed.

(** A positive result of [prec] digits within the relative error. *)
Definition rounded (prec : Z) (f : spec_float) (x : Q) : Prop :=
  exists m e, f = S754_finite false m e /\ 2 ^ (prec - 1) <= Z.pos m < 2 ^ prec /\
    ((1 - p2 (- prec)) * x <= fval f <= (1 + p2 (- prec)) * x)%Q.

Section Round.
  Variables prec emax : Z.
  Hypothesis Hprec : 1 < prec.
  Hypothesis Hemax : prec < emax.

  Lemma shr_fexp_loc : forall m e l y, 0 < m -> at_loc (shr_record_of_loc m l) y ->
    e <= Zdigits2 m + e - prec -> 3 - emax <= Zdigits2 m + e ->
    exists mrs, shr_fexp prec emax m e l = (mrs, Zdigits2 m + e - prec) /\
      at_loc mrs (y * p2 (prec - Zdigits2 m))%Q /\ 2 ^ (prec - 1) <= shr_m mrs < 2 ^ prec.
  Proof.
    intros m e l y Hm A He Hn. unfold shr_fexp. rewrite fexp_count by assumption.
    pose proof (Zdigits2_bounds m Hm) as B. set (d := Zdigits2 m) in *.
    unfold shr. destruct (d + e - prec - e) as [|k|k] eqn:EK; try lia.
    - exists (shr_record_of_loc m l). split; [f_equal; lia|]. split.
      + eapply at_loc_eq; [|exact A]. replace (prec - d) with 0 by lia. rewrite p2_0. ring.
      + rewrite loc_record. replace prec with d by lia. exact B.
    - exists (iter_pos shr_1 k (shr_record_of_loc m l)). split; [f_equal; lia|].
      assert (H0 : 0 <= shr_m (shr_record_of_loc m l)) by (rewrite loc_record; lia). split.
      + replace (prec - d) with (- Z.pos k) by lia. apply iter_loc; assumption.
      + rewrite iter_shr_div by assumption. rewrite loc_record.
        assert (P : 0 < 2 ^ Z.pos k) by (apply Z.pow_pos_nonneg; lia). split.
        * apply Z.div_le_lower_bound; [lia|]. rewrite <- Z.pow_add_r by lia. replace (Z.pos k + (prec - 1)) with (d - 1) by lia. lia.
        * apply Z.div_lt_upper_bound; [lia|]. rewrite <- Z.pow_add_r by lia. replace (Z.pos k + prec) with d by lia. lia.
  Qed.

  Lemma aux_rounded : forall m e l y, 0 < m -> at_loc (shr_record_of_loc m l) y ->
    prec <= Zdigits2 m -> 3 - emax <= Zdigits2 m + e < emax ->
    rounded prec (binary_round_aux prec emax false m e l) (y * p2 e)%Q.
  Proof.
    intros m e l y Hm A Hd He.
    destruct (shr_fexp_loc m e l y Hm A) as (mrs & E & A1 & B1); try lia.
    unfold binary_round_aux. rewrite E. set (d := Zdigits2 m) in *. set (e1 := d + e - prec) in *.
    set (y1 := (y * p2 (prec - d))%Q) in *.
    assert (X : (y1 * p2 e1 == y * p2 e)%Q).
    { unfold y1, e1. rewrite <- Qmult_assoc, <- p2_plus. replace (prec - d + (d + e - prec)) with e by lia. reflexivity. }
    pose proof (rne_loc mrs y1 A1) as R. pose proof (at_loc_ge mrs y1 A1) as G.
    set (r := round_nearest_even (shr_m mrs) (loc_of_shr_record mrs)) in *.
    assert (Hr : 2 ^ (prec - 1) <= r <= 2 ^ prec).
    { subst r. destruct (loc_of_shr_record mrs) as [|[| |]]; cbn [round_nearest_even]; try lia. destruct (Z.even (shr_m mrs)); lia. }
    assert (Rel : ((1 - p2 (- prec)) * (y * p2 e) <= inject_Z r * p2 e1 <= (1 + p2 (- prec)) * (y * p2 e))%Q).
    { assert (Y : (1#2 <= p2 (- prec) * y1)%Q).
      { assert (L : (p2 (prec - 1) <= y1)%Q).
        { rewrite p2_Z by lia. eapply Qle_trans; [|exact G]. apply inj_le. lia. }
        assert (K : (p2 (- prec) * p2 (prec - 1) == 1#2)%Q) by (rewrite <- p2_plus; replace (- prec + (prec - 1)) with (-1) by lia; reflexivity).
        rewrite <- K. apply Qmult_le_l; [apply p2_pos|exact L]. }
      pose proof (p2_pos e1) as P1. split.
      - setoid_replace ((1 - p2 (- prec)) * (y * p2 e))%Q with ((y1 - p2 (- prec) * y1) * p2 e1)%Q by (rewrite <- X; ring).
        apply Qmult_le_r; [exact P1|]. lra.
      - setoid_replace ((1 + p2 (- prec)) * (y * p2 e))%Q with ((y1 + p2 (- prec) * y1) * p2 e1)%Q by (rewrite <- X; ring).
        apply Qmult_le_r; [exact P1|]. lra. }
    assert (Hpp : 2 ^ (prec + 1) = 2 * 2 ^ prec) by (rewrite Z.pow_add_r by lia; lia).
    assert (Hpp1 : 2 ^ prec = 2 * 2 ^ (prec - 1)) by (rewrite <- Z.pow_succ_r by lia; f_equal; lia).
    assert (H0 : 0 < 2 ^ (prec - 1)) by (apply Z.pow_pos_nonneg; lia).
    unfold shr_fexp. destruct (Z.eq_dec r (2 ^ prec)) as [ER|ER].
    - rewrite ER. rewrite (Zdigits2_unique (2 ^ prec) (prec + 1)) by (replace (prec + 1 - 1) with prec by lia; lia).
      rewrite fexp_count by (subst e1; lia). replace (prec + 1 + e1 - prec - e1) with 1 by lia.
      cbn [shr iter_pos shr_record_of_loc]. rewrite shr_1_div by (cbn; lia). cbn [shr_m].
      rewrite Hpp1, Z.mul_comm, Z.div_mul by lia.
      destruct (2 ^ (prec - 1)) as [|p|p] eqn:EP; try lia.
      replace (Zle_bool (e1 + 1) (emax - prec)) with true by (symmetry; apply Zle_imp_le_bool; subst e1; lia).
      exists p, (e1 + 1). split; [reflexivity|]. split; [lia|].
      cbn [fval]. rewrite p2_succ.
      setoid_replace (inject_Z (Z.pos p) * (2 * p2 e1))%Q with (inject_Z r * p2 e1)%Q; [exact Rel|].
      rewrite ER, Hpp1, inject_Z_mult. change (inject_Z 2) with 2%Q. ring.
    - rewrite (Zdigits2_unique r prec) by lia. rewrite fexp_count by (subst e1; lia).
      replace (prec + e1 - prec - e1) with 0 by lia. cbn [shr shr_m shr_record_of_loc].
      destruct r as [|p|p] eqn:EP; try lia.
      replace (Zle_bool e1 (emax - prec)) with true by (symmetry; apply Zle_imp_le_bool; subst e1; lia).
      exists p, e1. split; [reflexivity|]. split; [lia|]. cbn [fval]. exact Rel.
  Qed.

  (** Rounding an exact integer multiple of a power of two. *)
  Lemma round_rounded : forall m e, 3 - emax <= Zdigits2 (Z.pos m) + e < emax ->
    rounded prec (binary_round prec emax false m e) (inject_Z (Z.pos m) * p2 e)%Q.
  Proof.
    intros m e He. unfold binary_round. cbn [Zdigits2] in He. pose proof (digits2_bounds m) as B.
    rewrite fexp_count by lia. set (d := Z.pos (digits2_pos m)) in *. unfold shl_align.
    destruct (d + e - prec - e) as [|k|k] eqn:EK.
    - apply aux_rounded; [lia|reflexivity|cbn [Zdigits2]; fold d; lia|cbn [Zdigits2]; fold d; lia].
    - apply aux_rounded; [lia|reflexivity|cbn [Zdigits2]; fold d; lia|cbn [Zdigits2]; fold d; lia].
    - assert (D : Zdigits2 (Z.pos (shift_pos k m)) = prec).
      { apply Zdigits2_unique; [lia|]. rewrite shift_pos_value. replace (prec - 1) with (d - 1 + Z.pos k) by lia. replace prec with (d + Z.pos k) by lia.
        rewrite !Z.pow_add_r by lia. assert (0 < 2 ^ Z.pos k) by (apply Z.pow_pos_nonneg; lia). nia. }
      assert (V : (inject_Z (Z.pos (shift_pos k m)) * p2 (d + e - prec) == inject_Z (Z.pos m) * p2 e)%Q).
      { rewrite shift_pos_value, inject_Z_mult, <- p2_Z by lia. rewrite <- Qmult_assoc, <- p2_plus. replace (Z.pos k + (d + e - prec)) with e by lia. reflexivity. }
      destruct (aux_rounded (Z.pos (shift_pos k m)) (d + e - prec) loc_Exact (inject_Z (Z.pos (shift_pos k m)))) as (m' & e' & E1 & E2 & E3).
      + lia. + reflexivity. + lia. + rewrite D. lia.
      + exists m', e'. split; [exact E1|]. split; [exact E2|]. rewrite <- V. exact E3.
  Qed.

  (** A value of at most [prec] digits in range is kept. *)
  Lemma round_exact : forall m e, Z.pos m < 2 ^ prec -> 3 - emax <= Zdigits2 (Z.pos m) + e < emax ->
    exists m' e', binary_round prec emax false m e = S754_finite false m' e' /\ 2 ^ (prec - 1) <= Z.pos m' < 2 ^ prec /\
      (fval (S754_finite false m' e') == inject_Z (Z.pos m) * p2 e)%Q.
  Proof.
    intros m e Hm He. unfold binary_round. cbn [Zdigits2] in He. pose proof (digits2_bounds m) as B.
    rewrite fexp_count by lia. set (d := Z.pos (digits2_pos m)) in *.
    assert (Hd : d <= prec).
    { destruct (Z.le_gt_cases d prec); [assumption|]. assert (2 ^ prec <= 2 ^ (d - 1)) by (apply Z.pow_le_mono_r; lia). lia. }
    assert (X : forall m' e', 2 ^ (prec - 1) <= Z.pos m' < 2 ^ prec -> 3 - emax - prec <= e' <= emax - prec ->
      binary_round_aux prec emax false (Z.pos m') e' loc_Exact = S754_finite false m' e').
    { intros m' e' H1 H2. unfold binary_round_aux, shr_fexp.
      rewrite (Zdigits2_unique (Z.pos m') prec) by (auto; lia). rewrite fexp_count by lia.
      replace (prec + e' - prec - e') with 0 by lia. cbn [shr shr_record_of_loc shr_m loc_of_shr_record round_nearest_even].
      rewrite (Zdigits2_unique (Z.pos m') prec) by (auto; lia). rewrite fexp_count by lia.
      replace (prec + e' - prec - e') with 0 by lia. cbn [shr shr_m].
      replace (Zle_bool e' (emax - prec)) with true by (symmetry; apply Zle_imp_le_bool; lia). reflexivity. }
    unfold shl_align. destruct (d + e - prec - e) as [|k|k] eqn:EK; try lia.
    - exists m, e. replace prec with d in X by lia. assert (prec = d) by lia. subst prec.
      rewrite X; [|exact B|lia]. split; [reflexivity|]. split; [exact B|]. reflexivity.
    - assert (B' : 2 ^ (prec - 1) <= Z.pos (shift_pos k m) < 2 ^ prec).
      { rewrite shift_pos_value. replace (prec - 1) with (d - 1 + Z.pos k) by lia. replace prec with (d + Z.pos k) by lia.
        rewrite !Z.pow_add_r by lia. assert (0 < 2 ^ Z.pos k) by (apply Z.pow_pos_nonneg; lia). nia. }
      exists (shift_pos k m), (d + e - prec). rewrite X; [|exact B'|lia]. split; [reflexivity|]. split; [exact B'|].
      cbn [fval]. rewrite shift_pos_value, inject_Z_mult, <- p2_Z by lia. rewrite <- Qmult_assoc, <- p2_plus.
      replace (Z.pos k + (d + e - prec)) with e by lia. reflexivity.
  Qed.
End Round.
