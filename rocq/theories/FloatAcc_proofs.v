(** Accuracy of additions, divisions and averages. *)
From Coq Require Import List ZArith Bool Lia QArith Qpower Qfield Lqa Floats.SpecFloat.
From Verif Require Import Float_model Float_proofs Rule_model FloatAcc_spec FloatRound_proofs.
Import ListNotations.
Local Open Scope Z_scope.

Lemma p2_le_inv : forall a b, (p2 a <= p2 b)%Q -> a <= b.
Proof. intros a b H. destruct (Z.le_gt_cases a b) as [L|L]; [exact L|]. apply p2_lt in L. lra. Qed.
Lemma p2_lt_inv : forall a b, (p2 a < p2 b)%Q -> a < b.
Proof. intros a b H. destruct (Z.lt_ge_cases a b) as [L|L]; [exact L|]. apply p2_le in L. lra. Qed.

(** The number of digits of a value. *)
Lemma digits_value : forall m e, 0 < m -> (p2 (Zdigits2 m + e - 1) <= inject_Z m * p2 e < p2 (Zdigits2 m + e))%Q.
Proof.
  intros m e H. pose proof (Zdigits2_bounds m H) as B. pose proof (Zdigits2_pos m H) as D. pose proof (p2_pos e) as P.
  replace (Zdigits2 m + e - 1) with (Zdigits2 m - 1 + e) by lia. rewrite !p2_plus. rewrite (p2_Z (Zdigits2 m - 1)), (p2_Z (Zdigits2 m)) by lia. split.
  - apply Qmult_le_r; [exact P|]. apply inj_le, B.
  - apply Qmult_lt_r; [exact P|]. apply inj_lt, B.
Qed.
Lemma digits_range : forall m e a b, 0 < m -> (p2 a <= inject_Z m * p2 e <= p2 b)%Q -> a < Zdigits2 m + e <= b + 1.
Proof.
  intros m e a b H R. pose proof (digits_value m e H) as D. split.
  - apply p2_lt_inv. lra.
  - assert (Zdigits2 m + e - 1 <= b) by (apply p2_le_inv; lra). lia.
Qed.
Lemma fval_pos : forall m e, (0 < fval (S754_finite false m e))%Q.
Proof. intros. cbn [fval]. apply Qmult_lt_0_compat; [apply (inj_lt 0); lia|apply p2_pos]. Qed.

(** Aligning does not change the value. *)
Lemma align_value : forall m e z, z <= e -> (inject_Z (Z.pos (fst (shl_align m e z))) * p2 z == inject_Z (Z.pos m) * p2 e)%Q.
Proof.
  intros m e z H. unfold shl_align. destruct (z - e) as [|k|k] eqn:E; try lia; cbn [fst].
  - replace z with e by lia. reflexivity.
  - rewrite shift_pos_value, inject_Z_mult, <- p2_Z, <- Qmult_assoc, <- p2_plus by lia. replace (Z.pos k + z) with e by lia. reflexivity.
Qed.

Lemma new_loc : forall q d r, 0 < d -> 0 <= r < d ->
  at_loc (shr_record_of_loc q (new_location d r)) (inject_Z q + inject_Z r / inject_Z d)%Q.
Proof.
  intros q d r Hd Hr. assert (D : (0 < inject_Z d)%Q) by (apply (inj_lt 0); lia).
  assert (X : forall a : Q, (inject_Z r == a * inject_Z d -> inject_Z r / inject_Z d == a)%Q).
  { intros a E. rewrite E. field. intro Z. rewrite Z in D. discriminate D. }
  assert (L : forall a : Q, (inject_Z r < a * inject_Z d -> inject_Z r / inject_Z d < a)%Q) by (intros; apply Qlt_shift_div_r; assumption).
  assert (G : forall a : Q, (a * inject_Z d < inject_Z r -> a < inject_Z r / inject_Z d)%Q) by (intros; apply Qlt_shift_div_l; assumption).
  assert (H1 : (inject_Z r / inject_Z d < 1)%Q) by (apply L; rewrite Qmult_1_l; apply inj_lt; lia).
  unfold new_location, new_location_even, new_location_odd.
  destruct (Zeq_bool r 0) eqn:E0.
  - apply Zeq_bool_eq in E0. subst r. assert (Z0 : (inject_Z 0 / inject_Z d == 0)%Q) by (apply X; reflexivity).
    revert Z0; generalize (inject_Z 0 / inject_Z d)%Q; intros t Zt. destruct (Z.even d); change (Zeq_bool 0 0) with true; cbv iota; unfold at_loc; cbn [shr_m shr_r shr_s shr_record_of_loc]; lra.
  - pose proof E0 as E0'. apply Zeq_bool_neq in E0. assert (G0 : (0 < inject_Z r / inject_Z d)%Q) by (apply G; rewrite Qmult_0_l; apply (inj_lt 0); lia).
    assert (Lo : 2 * r < d -> at_loc (shr_record_of_loc q (loc_Inexact Lt)) (inject_Z q + inject_Z r / inject_Z d)%Q).
    { intros H. assert (inject_Z r / inject_Z d < 1#2)%Q. { apply L. apply inj_lt in H. rewrite inject_Z_mult in H. change (inject_Z 2) with 2%Q in H. lra. }
      unfold at_loc; cbn [shr_m shr_r shr_s shr_record_of_loc]; lra. }
    assert (Hi : d < 2 * r -> at_loc (shr_record_of_loc q (loc_Inexact Gt)) (inject_Z q + inject_Z r / inject_Z d)%Q).
    { intros H. assert (1#2 < inject_Z r / inject_Z d)%Q. { apply G. apply inj_lt in H. rewrite inject_Z_mult in H. change (inject_Z 2) with 2%Q in H. lra. }
      unfold at_loc; cbn [shr_m shr_r shr_s shr_record_of_loc]; lra. }
    destruct (Z.even d) eqn:EV; rewrite E0'.
    + destruct (Z.compare_spec (2 * r) d) as [C|C|C].
      * assert (E : (inject_Z r / inject_Z d == 1#2)%Q). { apply X. rewrite <- C, inject_Z_mult. change (inject_Z 2) with 2%Q. ring. }
        unfold at_loc; cbn [shr_m shr_r shr_s shr_record_of_loc]. lra.
      * apply Lo. exact C.
      * apply Hi. exact C.
    + destruct (Z.compare_spec (2 * r + 1) d) as [C|C|C].
      * apply Lo. lia.
      * apply Lo. lia.
      * apply Hi. destruct (Z.eq_dec d (2 * r)) as [E|E]; [|lia]. rewrite E, Z.even_mul in EV. discriminate EV.
Qed.

Section Ops.
  Variables prec emax : Z.
  Hypothesis Hprec : 1 < prec.
  Hypothesis Hemax : prec < emax.

  Lemma add_rounded : forall m1 e1 m2 e2,
    (p2 (2 - emax) <= fval (S754_finite false m1 e1) + fval (S754_finite false m2 e2) <= p2 (emax - 2))%Q ->
    rounded prec (SFadd prec emax (S754_finite false m1 e1) (S754_finite false m2 e2))
      (fval (S754_finite false m1 e1) + fval (S754_finite false m2 e2))%Q.
  Proof.
    intros m1 e1 m2 e2 R. cbn [SFadd cond_Zopp]. set (z := Z.min e1 e2).
    pose proof (align_value m1 e1 z ltac:(lia)) as V1. pose proof (align_value m2 e2 z ltac:(lia)) as V2.
    set (a := fst (shl_align m1 e1 z)) in *. set (b := fst (shl_align m2 e2 z)) in *.
    change (Z.pos a + Z.pos b) with (Z.pos (a + b)). cbn [binary_normalize].
    assert (V : (inject_Z (Z.pos (a + b)) * p2 z == fval (S754_finite false m1 e1) + fval (S754_finite false m2 e2))%Q).
    { change (Z.pos (a + b)) with (Z.pos a + Z.pos b). rewrite inject_Z_plus, Qmult_plus_distr_l, V1, V2. reflexivity. }
    destruct (round_rounded prec emax Hprec (a + b) z) as (m & e & E1 & E2 & E3).
    - rewrite <- V in R. apply digits_range in R; lia.
    - exists m, e. split; [exact E1|]. split; [exact E2|]. rewrite <- V. exact E3.
  Qed.

  Lemma div_rounded : forall m1 e1 m2 e2,
    (p2 (3 - emax) <= fval (S754_finite false m1 e1) / fval (S754_finite false m2 e2) <= p2 (emax - 2))%Q ->
    rounded prec (SFdiv prec emax (S754_finite false m1 e1) (S754_finite false m2 e2))
      (fval (S754_finite false m1 e1) / fval (S754_finite false m2 e2))%Q.
  Proof.
    intros m1 e1 m2 e2 R. set (x := (fval (S754_finite false m1 e1) / fval (S754_finite false m2 e2))%Q) in *.
    cbn [SFdiv xorb]. unfold SFdiv_core_binary.
    set (X := Zdigits2 (Z.pos m1) + e1 - (Zdigits2 (Z.pos m2) + e2)). set (z := Z.min (fexp prec emax X) (e1 - e2)).
    set (M := match e1 - e2 - z with Z0 => _ | Zpos _ => _ | Zneg _ => _ end).
    pose proof (digits_value (Z.pos m1) e1 ltac:(lia)) as D1. pose proof (digits_value (Z.pos m2) e2 ltac:(lia)) as D2.
    pose proof (fval_pos m1 e1) as P1. pose proof (fval_pos m2 e2) as P2.
    assert (XM : (x * fval (S754_finite false m2 e2) == fval (S754_finite false m1 e1))%Q).
    { unfold x. field. intro Z. rewrite Z in P2. discriminate P2. }
    (* bounds of the quotient *)
    assert (U : (x < p2 (X + 1))%Q).
    { unfold x. apply Qlt_shift_div_r; [exact P2|]. cbn [fval] in *.
      apply Qlt_le_trans with (p2 (Zdigits2 (Z.pos m1) + e1)); [lra|].
      replace (Zdigits2 (Z.pos m1) + e1) with (X + 1 + (Zdigits2 (Z.pos m2) + e2 - 1)) by (unfold X; lia).
      rewrite p2_plus. apply Qmult_le_l; [apply p2_pos|]. lra. }
    assert (L : (p2 (X - 1) < x)%Q).
    { unfold x. apply Qlt_shift_div_l; [exact P2|]. cbn [fval] in *.
      apply Qlt_le_trans with (p2 (X - 1) * p2 (Zdigits2 (Z.pos m2) + e2))%Q.
      - apply Qmult_lt_l; [apply p2_pos|]. lra.
      - rewrite <- p2_plus. replace (X - 1 + (Zdigits2 (Z.pos m2) + e2)) with (Zdigits2 (Z.pos m1) + e1 - 1) by (unfold X; lia). lra. }
    assert (HX : 3 - emax <= X <= emax - 2).
    { assert (3 - emax < X + 1) by (apply p2_lt_inv; eapply Qle_lt_trans; [apply R|exact U]).
      assert (X - 1 < emax - 2) by (apply p2_lt_inv; eapply Qlt_le_trans; [exact L|apply R]). lia. }
    assert (Hz : z <= X - prec /\ z <= e1 - e2).
    { unfold z. replace (fexp prec emax X) with (X - prec); [lia|]. unfold fexp, emin. lia. }
    assert (HM : M = Z.pos m1 * 2 ^ (e1 - e2 - z)).
    { subst M. destruct (e1 - e2 - z) eqn:E; try lia. apply Z.shiftl_mul_pow2. lia. }
    clearbody M. assert (PM : 0 < M). { rewrite HM. apply Z.mul_pos_pos; [lia|]. apply Z.pow_pos_nonneg; lia. }
    destruct (Z.div_eucl M (Z.pos m2)) as [q r] eqn:ED.
    pose proof (Z_div_mod M (Z.pos m2) ltac:(lia)) as DM. rewrite ED in DM. destruct DM as [DM1 DM2].
    set (y := (inject_Z q + inject_Z r / inject_Z (Z.pos m2))%Q).
    assert (M2 : (0 < inject_Z (Z.pos m2))%Q) by (apply (inj_lt 0); lia).
    assert (Y : (y * p2 z == x)%Q).
    { assert (YM : (y * inject_Z (Z.pos m2) == inject_Z M)%Q).
      { unfold y. rewrite DM1, inject_Z_plus, inject_Z_mult. field. intro Z. rewrite Z in M2. discriminate M2. }
      assert (P2' : ~ (fval (S754_finite false m2 e2) == 0)%Q) by (intro Z; rewrite Z in P2; discriminate P2).
      apply (Qmult_inj_r _ _ (fval (S754_finite false m2 e2)) P2'). rewrite XM. cbn [fval].
      setoid_replace (y * p2 z * (inject_Z (Z.pos m2) * p2 e2))%Q with (y * inject_Z (Z.pos m2) * p2 z * p2 e2)%Q by ring.
      rewrite YM, HM, inject_Z_mult, <- p2_Z by lia.
      setoid_replace (inject_Z (Z.pos m1) * p2 (e1 - e2 - z) * p2 z * p2 e2)%Q with (inject_Z (Z.pos m1) * (p2 (e1 - e2 - z) * p2 z * p2 e2))%Q by ring.
      rewrite <- !p2_plus. replace (e1 - e2 - z + z + e2) with e1 by lia. reflexivity. }
    assert (Hr1 : (0 <= inject_Z r / inject_Z (Z.pos m2) < 1)%Q).
    { split.
      - apply Qle_shift_div_l; [exact M2|]. rewrite Qmult_0_l. apply (inj_le 0). lia.
      - apply Qlt_shift_div_r; [exact M2|]. rewrite Qmult_1_l. apply inj_lt. lia. }
    (* the integer quotient has at least prec digits *)
    assert (Hq : 2 ^ (prec - 1) <= q).
    { assert (Q1 : (p2 (prec - 1) < y)%Q).
      { apply (Qmult_lt_r _ _ (p2 z) (p2_pos z)). rewrite Y. eapply Qle_lt_trans; [|exact L]. rewrite <- p2_plus. apply p2_le. lia. }
      rewrite p2_Z in Q1 by lia.
      assert (Q2 : (inject_Z (2 ^ (prec - 1)) < inject_Z (q + 1))%Q) by (rewrite (inject_Z_plus q 1); change (inject_Z 1) with 1%Q; unfold y in Q1; lra).
      rewrite <- Zlt_Qlt in Q2. lia. }
    assert (H0 : 0 < 2 ^ (prec - 1)) by (apply Z.pow_pos_nonneg; lia).
    assert (Dq : prec <= Zdigits2 q).
    { pose proof (Zdigits2_bounds q ltac:(lia)) as B. destruct (Z.le_gt_cases prec (Zdigits2 q)); [assumption|].
      assert (2 ^ Zdigits2 q <= 2 ^ (prec - 1)) by (apply Z.pow_le_mono_r; lia). lia. }
    assert (Rq : 3 - emax <= Zdigits2 q + z < emax).
    { pose proof (Zdigits2_bounds q ltac:(lia)) as B. split.
      - assert (p2 (3 - emax) < p2 (Zdigits2 q + z))%Q; [|apply p2_lt_inv in H; lia].
        eapply Qle_lt_trans; [apply R|]. rewrite <- Y, p2_plus. apply Qmult_lt_r; [apply p2_pos|]. rewrite p2_Z by lia.
        apply Qlt_le_trans with (inject_Z (q + 1)).
        + rewrite inject_Z_plus. change (inject_Z 1) with 1%Q. unfold y. lra.
        + apply inj_le. lia.
      - assert (p2 (Zdigits2 q - 1 + z) <= p2 (emax - 2))%Q; [|apply p2_le_inv in H; lia].
        apply Qle_trans with x; [|apply R]. rewrite <- Y, p2_plus. apply Qmult_le_r; [apply p2_pos|]. rewrite p2_Z by lia.
        apply Qle_trans with (inject_Z q); [apply inj_le; lia|]. unfold y. lra. }
    destruct (aux_rounded prec emax Hprec q z (new_location (Z.pos m2) r) y) as (m & e & E1 & E2 & E3); try assumption; try lia.
    - apply new_loc; lia.
    - exists m, e. split; [exact E1|]. split; [exact E2|]. rewrite <- Y. exact E3.
  Qed.
End Ops.
