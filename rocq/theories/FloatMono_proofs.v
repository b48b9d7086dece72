(** Rounding to nearest, ties to even, never turns the order of two values round: sums, quotients and averages are monotone, for every
    range of the values (subnormal numbers, zero and infinity included). *)
From Coq Require Import List ZArith Bool Lia QArith Qpower Qfield Lqa Floats.SpecFloat.
From Verif Require Import Float_model Float_proofs Rule_model FloatAcc_spec FloatRound_proofs FloatAcc_proofs.
Import ListNotations.
Local Open Scope Z_scope.

(** [r] is the integer nearest to [y], the even one if there are two. *)
Definition rnd (y : Q) (r : Z) : Prop :=
  (y - (1#2) <= inject_Z r <= y + (1#2))%Q /\
  ((inject_Z r == y + (1#2))%Q \/ (inject_Z r == y - (1#2))%Q -> Z.even r = true).
Lemma rne_rnd : forall mrs y, at_loc mrs y -> rnd y (round_nearest_even (shr_m mrs) (loc_of_shr_record mrs)).
Proof.
  intros mrs y A. split; [apply rne_loc; exact A|].
  destruct mrs as [m r s]. unfold at_loc in A. cbn [shr_m shr_r shr_s] in *.
  assert (P : (inject_Z (m + 1) == inject_Z m + 1)%Q) by (rewrite inject_Z_plus; reflexivity).
  destruct r, s; cbn [loc_of_shr_record round_nearest_even]; intros [T|T]; try lra.
  - destruct (Z.even m) eqn:E; [exact E|]. rewrite Z.even_add, E. reflexivity.
  - destruct (Z.even m) eqn:E; [exact E|]. rewrite Z.even_add, E. reflexivity.
Qed.
Lemma inj_le_inv : forall a b, (inject_Z a <= inject_Z b)%Q -> a <= b.
Proof. intros a b H. rewrite <- Zle_Qle in H. exact H. Qed.
Lemma inj_lt_inv : forall a b, (inject_Z a < inject_Z b)%Q -> a < b.
Proof. intros a b H. rewrite <- Zlt_Qlt in H. exact H. Qed.
Lemma rnd_mono : forall y y' r r', rnd y r -> rnd y' r' -> (y <= y')%Q -> r <= r'.
Proof.
  intros y y' r r' [A T] [A' T'] L. destruct (Z.le_gt_cases r r') as [H|H]; [exact H|exfalso].
  assert (I : (inject_Z (r' + 1) <= inject_Z r)%Q) by (apply inj_le; lia). rewrite inject_Z_plus in I. change (inject_Z 1) with 1%Q in I.
  assert (E : (inject_Z r == inject_Z r' + 1)%Q) by lra.
  assert (E1 : Z.even r = true) by (apply T; left; lra). assert (E2 : Z.even r' = true) by (apply T'; right; lra).
  assert (F : r = r' + 1). { apply Z.le_antisymm; apply inj_le_inv; rewrite inject_Z_plus; change (inject_Z 1) with 1%Q; lra. }
  rewrite F, Z.even_add, E2 in E1. discriminate E1.
Qed.
Lemma rnd_int : forall z, rnd (inject_Z z) z.
Proof. intros z. split; [split; lra|]. intros [T|T]; exfalso; lra. Qed.
Lemma rnd_ge : forall y r z, rnd y r -> (inject_Z z <= y)%Q -> z <= r.
Proof. intros y r z R L. exact (rnd_mono _ _ _ _ (rnd_int z) R L). Qed.
Lemma rnd_le : forall y r z, rnd y r -> (y <= inject_Z z)%Q -> r <= z.
Proof. intros y r z R L. exact (rnd_mono _ _ _ _ R (rnd_int z) L). Qed.

Section Mono.
  Variables prec emax : Z.
  Hypothesis Hprec : 1 < prec.
  Hypothesis Hemax : prec < emax.
  Let em := 3 - emax - prec.

  (** The non-negative numbers of the format. *)
  Definition canon (f : spec_float) : Prop :=
    match f with
    | S754_zero false | S754_infinity false => True
    | S754_finite false m e => Z.pos m < 2 ^ prec /\ em <= e <= emax - prec /\ (2 ^ (prec - 1) <= Z.pos m \/ e = em)
    | _ => False
    end.
  Definition is_inf (f : spec_float) : bool := match f with S754_infinity _ => true | _ => false end.
  Definition le (f g : spec_float) : Prop := is_inf g = true \/ (is_inf f = false /\ is_inf g = false /\ (fval f <= fval g)%Q).
  (** [f] is [x] rounded to the format. *)
  Definition nearest (x : Q) (f : spec_float) : Prop :=
    exists e1 r y, em <= e1 /\ (y * p2 e1 == x)%Q /\ (0 <= y < p2 prec)%Q /\ ((p2 (prec - 1) <= y)%Q \/ e1 = em) /\ rnd y r /\ canon f /\
      (is_inf f = false -> fval f == inject_Z r * p2 e1)%Q /\ (is_inf f = true <-> p2 emax <= inject_Z r * p2 e1)%Q.

  Lemma nearest_eq : forall x x' f, (x == x')%Q -> nearest x f -> nearest x' f.
  Proof. intros x x' f E (e1 & r & y & A & B & C). exists e1, r, y. split; [exact A|]. split; [rewrite B; exact E|exact C]. Qed.

  Lemma fexp_max : forall e, fexp prec emax e = Z.max (e - prec) em.
  Proof. reflexivity. Qed.

  Lemma near_order : forall x x' e1 r y e1' r' y', em <= e1 -> (y * p2 e1 == x)%Q -> (0 <= y < p2 prec)%Q -> rnd y r ->
    em <= e1' -> (y' * p2 e1' == x')%Q -> (0 <= y' < p2 prec)%Q -> (p2 (prec - 1) <= y \/ e1 = em)%Q -> (p2 (prec - 1) <= y' \/ e1' = em)%Q -> rnd y' r' ->
    (x <= x')%Q -> (inject_Z r * p2 e1 <= inject_Z r' * p2 e1')%Q.
  Proof.
    intros x x' e1 r y e1' r' y' He Hx Hy R He' Hx' Hy' D D' R' L.
    pose proof (p2_pos e1) as P. pose proof (p2_pos e1') as P'.
    assert (Rp : 0 <= r). { apply (rnd_ge y r 0 R). apply Hy. }
    assert (Rp' : 0 <= r'). { apply (rnd_ge y' r' 0 R'). apply Hy'. }
    destruct (Z.lt_trichotomy e1 e1') as [C|[C|C]].
    - (* the second on a coarser grid *)
      destruct D' as [D'|D']; [|lia].
      assert (r <= 2 ^ prec). { apply (rnd_le y r _ R). rewrite <- p2_Z by lia. lra. }
      assert (2 ^ (prec - 1) <= r'). { apply (rnd_ge y' r' _ R'). rewrite <- p2_Z by lia. lra. }
      apply Qle_trans with (p2 prec * p2 e1)%Q.
      + apply Qmult_le_r; [exact P|]. rewrite p2_Z by lia. apply inj_le. assumption.
      + apply Qle_trans with (p2 (prec - 1) * p2 e1')%Q.
        * rewrite <- !p2_plus. apply p2_le. lia.
        * apply Qmult_le_r; [exact P'|]. rewrite p2_Z by lia. apply inj_le. assumption.
    - subst e1'. apply Qmult_le_r; [exact P|]. apply inj_le. apply (rnd_mono y y'); auto.
      apply (Qmult_le_r _ _ (p2 e1) P). lra.
    - (* impossible: the first would be larger *)
      exfalso. destruct D as [D|D]; [|lia].
      assert (A : (x' < p2 (prec + e1'))%Q). { rewrite <- Hx', p2_plus. apply Qmult_lt_r; [exact P'|]. apply Hy'. }
      assert (B : (p2 (prec - 1 + e1) <= x)%Q). { rewrite <- Hx, p2_plus. apply Qmult_le_r; [exact P|]. exact D. }
      assert (E : (p2 (prec + e1') <= p2 (prec - 1 + e1))%Q) by (apply p2_le; lia). lra.
  Qed.
  Lemma near_mono : forall x x' f f', nearest x f -> nearest x' f' -> (x <= x')%Q -> le f f'.
  Proof.
    intros x x' f f' (e1 & r & y & A1 & A2 & A3 & A4 & A5 & A6 & A7 & A8) (e1' & r' & y' & B1 & B2 & B3 & B4 & B5 & B6 & B7 & B8) L.
    pose proof (near_order x x' e1 r y e1' r' y' A1 A2 A3 A5 B1 B2 B3 A4 B4 B5 L) as O.
    destruct (is_inf f') eqn:I'; [left; exact I'|right].
    assert (I : is_inf f = false).
    { destruct (is_inf f) eqn:I; [|reflexivity]. exfalso. assert (false = true) as X; [|discriminate X]. apply B8. apply Qle_trans with (inject_Z r * p2 e1)%Q; [|exact O]. apply A8. reflexivity. }
    split; [exact I|]. split; [exact I'|]. rewrite (A7 I), (B7 eq_refl). exact O.
  Qed.
  Lemma near_canon : forall x f, nearest x f -> canon f.
  Proof. intros x f (e1 & r & y & _ & _ & _ & _ & _ & C & _). exact C. Qed.
  (** A number of the format is its own rounding. *)
  Lemma canon_bound : forall m e, canon (S754_finite false m e) -> (fval (S754_finite false m e) < p2 emax)%Q.
  Proof.
    intros m e (A & B & _). cbn [fval]. apply Qlt_le_trans with (p2 prec * p2 e)%Q.
    - apply Qmult_lt_r; [apply p2_pos|]. rewrite p2_Z by lia. apply inj_lt. exact A.
    - rewrite <- p2_plus. apply p2_le. lia.
  Qed.
  Lemma near_self : forall f, canon f -> is_inf f = false -> nearest (fval f) f.
  Proof.
    intros f C I. destruct f as [s|s| |s m e]; try discriminate I; try contradiction.
    - destruct s; [contradiction|]. exists em, 0, 0%Q. split; [lia|]. split; [cbn [fval]; ring|].
      split; [split; [apply Qle_refl|apply p2_pos]|]. split; [right; reflexivity|]. split; [apply (rnd_int 0)|]. split; [exact Logic.I|].
      split; [intros _; cbn [fval]; ring|]. split; [intros X; discriminate X|]. intros X. exfalso. pose proof (p2_pos emax).
      change (inject_Z 0) with 0%Q in X. rewrite Qmult_0_l in X. lra.
    - destruct s; [contradiction|]. pose proof (canon_bound m e C) as CB. destruct C as (A & B & D).
      exists e, (Z.pos m), (inject_Z (Z.pos m)). split; [lia|]. split; [reflexivity|]. split.
      { split; [apply (inj_le 0); lia|]. rewrite p2_Z by lia. apply inj_lt. exact A. }
      split. { destruct D as [D|D]; [left|right; exact D]. rewrite p2_Z by lia. apply inj_le. exact D. }
      split; [apply rnd_int|]. split; [exact (conj A (conj B D))|]. split; [intros _; reflexivity|]. split; [intros X; discriminate X|].
      intros X. exfalso. cbn [fval] in CB. lra.
  Qed.

  (** *** Rounding *)
  Lemma Zdigits2_le : forall m d, 0 <= m -> 0 <= d -> m < 2 ^ d -> Zdigits2 m <= d.
  Proof.
    intros m d H0 Hd H. destruct (Z.eq_dec m 0) as [E|E]; [subst; cbn; lia|].
    pose proof (Zdigits2_bounds m ltac:(lia)) as B. destruct (Z.le_gt_cases (Zdigits2 m) d) as [C|C]; [exact C|].
    assert (2 ^ d <= 2 ^ (Zdigits2 m - 1)) by (apply Z.pow_le_mono_r; lia). lia.
  Qed.
  Lemma at_loc_lt : forall mrs y, at_loc mrs y -> (y < inject_Z (shr_m mrs) + 1)%Q.
  Proof. intros [m r s] y H. unfold at_loc in H. cbn [shr_m shr_r shr_s] in *. destruct r, s; lra. Qed.
  Lemma shr_fexp_gen : forall m e l y, 0 <= m -> at_loc (shr_record_of_loc m l) y -> e <= fexp prec emax (Zdigits2 m + e) ->
    let e1 := fexp prec emax (Zdigits2 m + e) in
    exists mrs, shr_fexp prec emax m e l = (mrs, e1) /\ at_loc mrs (y * p2 (e - e1))%Q /\ 0 <= shr_m mrs < 2 ^ prec /\
      (2 ^ (prec - 1) <= shr_m mrs \/ e1 = em).
  Proof.
    intros m e l y Hm A He e1. unfold shr_fexp. fold e1. fold e1 in He.
    assert (F : e1 = Z.max (Zdigits2 m + e - prec) em) by reflexivity.
    assert (K : exists mrs, shr (shr_record_of_loc m l) e (e1 - e) = (mrs, e1) /\ at_loc mrs (y * p2 (e - e1))%Q /\ shr_m mrs = m / 2 ^ (e1 - e)).
    { unfold shr. destruct (e1 - e) as [|k|k] eqn:EK; try lia.
      - exists (shr_record_of_loc m l). split; [f_equal; lia|]. split.
        + eapply at_loc_eq; [|exact A]. replace (e - e1) with 0 by lia. rewrite p2_0. ring.
        + rewrite loc_record. rewrite Z.pow_0_r, Z.div_1_r. reflexivity.
      - exists (iter_pos shr_1 k (shr_record_of_loc m l)). split; [f_equal; lia|].
        assert (H0 : 0 <= shr_m (shr_record_of_loc m l)) by (rewrite loc_record; lia). split.
        + replace (e - e1) with (- Z.pos k) by lia. apply iter_loc; assumption.
        + rewrite iter_shr_div by assumption. rewrite loc_record. reflexivity. }
    destruct K as (mrs & K1 & K2 & K3). exists mrs. split; [exact K1|]. split; [exact K2|]. rewrite K3.
    assert (P : 0 < 2 ^ (e1 - e)) by (apply Z.pow_pos_nonneg; lia).
    assert (PP : 0 < 2 ^ prec) by (apply Z.pow_pos_nonneg; lia).
    destruct (Z.eq_dec m 0) as [Z0|Z0].
    - subst m. rewrite Z.div_0_l by lia. split; [lia|]. right. cbn [Zdigits2] in F. lia.
    - pose proof (Zdigits2_bounds m ltac:(lia)) as B. pose proof (Zdigits2_pos m ltac:(lia)) as DP. split.
      + split; [apply Z.div_pos; lia|]. apply Z.div_lt_upper_bound; [lia|]. rewrite <- Z.pow_add_r by lia.
        apply Z.lt_le_trans with (2 ^ Zdigits2 m); [lia|]. apply Z.pow_le_mono_r; lia.
      + destruct (Z.le_gt_cases em (Zdigits2 m + e - prec)) as [C|C]; [left|right; lia].
        apply Z.div_le_lower_bound; [lia|]. rewrite <- Z.pow_add_r by lia. replace (e1 - e + (prec - 1)) with (Zdigits2 m - 1) by lia. lia.
  Qed.

  Lemma aux_near : forall m e l y, 0 <= m -> at_loc (shr_record_of_loc m l) y -> e <= fexp prec emax (Zdigits2 m + e) ->
    nearest (y * p2 e)%Q (binary_round_aux prec emax false m e l).
  Proof.
    intros m e l y Hm A He.
    destruct (shr_fexp_gen m e l y Hm A He) as (mrs & E & A1 & B1 & D1).
    unfold binary_round_aux. rewrite E. set (e1 := fexp prec emax (Zdigits2 m + e)) in *.
    assert (F : em <= e1) by (unfold e1; rewrite fexp_max; lia).
    set (y1 := (y * p2 (e - e1))%Q) in *.
    assert (X : (y1 * p2 e1 == y * p2 e)%Q).
    { unfold y1. rewrite <- Qmult_assoc, <- p2_plus. replace (e - e1 + e1) with e by lia. reflexivity. }
    pose proof (rne_rnd mrs y1 A1) as R. pose proof (at_loc_ge mrs y1 A1) as G. pose proof (at_loc_lt mrs y1 A1) as G'.
    set (r := round_nearest_even (shr_m mrs) (loc_of_shr_record mrs)) in *.
    assert (Y : (0 <= y1 < p2 prec)%Q).
    { split; [eapply Qle_trans; [|exact G]; apply (inj_le 0); lia|]. eapply Qlt_le_trans; [exact G'|]. rewrite p2_Z by lia.
      change 1%Q with (inject_Z 1). rewrite <- inject_Z_plus. apply inj_le. lia. }
    assert (DD : (p2 (prec - 1) <= y1)%Q \/ e1 = em).
    { destruct D1 as [D|D]; [left|right; exact D]. rewrite p2_Z by lia. eapply Qle_trans; [|exact G]. apply inj_le. exact D. }
    assert (Hr : 0 <= r <= 2 ^ prec).
    { split; [apply (rnd_ge y1 r 0 R); apply Y|]. apply (rnd_le y1 r _ R). rewrite <- p2_Z by lia. lra. }
    assert (Hr2 : 2 ^ (prec - 1) <= r \/ e1 = em).
    { destruct DD as [D|D]; [left|right; exact D]. apply (rnd_ge y1 r _ R). rewrite <- p2_Z by lia. exact D. }
    assert (Hpp : 2 ^ (prec + 1) = 2 * 2 ^ prec) by (rewrite Z.pow_add_r by lia; lia).
    assert (Hpp1 : 2 ^ prec = 2 * 2 ^ (prec - 1)) by (rewrite <- Z.pow_succ_r by lia; f_equal; lia).
    assert (H0 : 0 < 2 ^ (prec - 1)) by (apply Z.pow_pos_nonneg; lia).
    (* the number written *)
    assert (W : forall p e', (inject_Z (Z.pos p) * p2 e' == inject_Z r * p2 e1)%Q -> Z.pos p < 2 ^ prec -> em <= e' -> 2 ^ (prec - 1) <= Z.pos p \/ e' = em ->
      nearest (y * p2 e)%Q (if Zle_bool e' (emax - prec) then S754_finite false p e' else S754_infinity false)).
    { intros p e' V V1 V2 V3. exists e1, r, y1. do 5 (split; [assumption|]).
      destruct (Zle_bool e' (emax - prec)) eqn:LE.
      - apply Zle_bool_imp_le in LE. assert (C : canon (S754_finite false p e')) by (split; [exact V1|]; split; [lia|exact V3]).
        split; [exact C|]. split; [intros _; exact V|]. split; [intros Z; discriminate Z|]. intros Z. exfalso.
        pose proof (canon_bound p e' C) as CB. cbn [fval] in CB. lra.
      - assert (GT : emax - prec < e') by (apply Z.leb_gt; exact LE).
        split; [exact Logic.I|]. split; [intros Z; discriminate Z|]. split; [|reflexivity]. intros _.
        destruct V3 as [V3|V3]; [|unfold em in V3; lia]. rewrite <- V.
        apply Qle_trans with (p2 (prec - 1) * p2 e')%Q; [rewrite <- p2_plus; apply p2_le; lia|].
        apply Qmult_le_r; [apply p2_pos|]. rewrite p2_Z by lia. apply inj_le. exact V3. }
    unfold shr_fexp. destruct (Z.eq_dec r (2 ^ prec)) as [ER|ER].
    - rewrite ER. rewrite (Zdigits2_unique (2 ^ prec) (prec + 1)) by (replace (prec + 1 - 1) with prec by lia; lia).
      rewrite fexp_max. replace (Z.max (prec + 1 + e1 - prec) em - e1) with 1 by lia.
      cbn [shr iter_pos shr_record_of_loc]. rewrite shr_1_div by (cbn; lia). cbn [shr_m].
      rewrite Hpp1, Z.mul_comm, Z.div_mul by lia.
      destruct (2 ^ (prec - 1)) as [|p|p] eqn:EP; try lia.
      apply W; [|lia|lia|left; lia].
      rewrite p2_succ, ER, Hpp1, inject_Z_mult. change (inject_Z 2) with 2%Q. ring.
    - assert (FE : fexp prec emax (Zdigits2 r + e1) = e1).
      { rewrite fexp_max. pose proof (Zdigits2_le r prec ltac:(lia) ltac:(lia) ltac:(lia)) as ZD.
        destruct (Z.le_gt_cases (2 ^ (prec - 1)) r) as [C|C].
        - rewrite (Zdigits2_unique r prec) by lia. lia.
        - destruct Hr2 as [Hr2|Hr2]; [lia|]. lia. }
      rewrite FE, Z.sub_diag. cbn [shr shr_m shr_record_of_loc].
      destruct r as [|p|p] eqn:EP; try lia.
      + exists e1, 0, y1. do 5 (split; [assumption|]). split; [exact Logic.I|]. split; [intros _; cbn [fval]; ring|]. split; [intros Z; discriminate Z|].
        intros Z. exfalso. pose proof (p2_pos emax). change (inject_Z 0) with 0%Q in Z. rewrite Qmult_0_l in Z. lra.
      + apply W; [reflexivity|lia|lia|exact Hr2].
  Qed.

  Lemma round_near : forall m e, nearest (inject_Z (Z.pos m) * p2 e)%Q (binary_round prec emax false m e).
  Proof.
    intros m e. unfold binary_round. pose proof (digits2_bounds m) as B. set (d := Z.pos (digits2_pos m)) in *. unfold shl_align.
    destruct (fexp prec emax (d + e) - e) as [|k|k] eqn:EK.
    - apply aux_near; [lia|reflexivity|cbn [Zdigits2]; fold d; lia].
    - apply aux_near; [lia|reflexivity|cbn [Zdigits2]; fold d; lia].
    - assert (D : Zdigits2 (Z.pos (shift_pos k m)) = d + Z.pos k).
      { apply Zdigits2_unique; [lia|]. rewrite shift_pos_value. replace (d + Z.pos k - 1) with (d - 1 + Z.pos k) by lia.
        rewrite !Z.pow_add_r by lia. assert (0 < 2 ^ Z.pos k) by (apply Z.pow_pos_nonneg; lia). nia. }
      set (e' := fexp prec emax (d + e)) in *.
      eapply nearest_eq; [|apply (aux_near (Z.pos (shift_pos k m)) e' loc_Exact (inject_Z (Z.pos (shift_pos k m))))].
      + rewrite shift_pos_value, inject_Z_mult, <- p2_Z by lia. rewrite <- Qmult_assoc, <- p2_plus. replace (Z.pos k + e') with e by lia. reflexivity.
      + lia.
      + reflexivity.
      + rewrite D. replace (d + Z.pos k + e') with (d + e) by lia. unfold e'. lia.
  Qed.

  (** *** Sums *)
  Lemma canon_nonneg : forall f, canon f -> (0 <= fval f)%Q.
  Proof. intros [s|s| |s m e] C; cbn [fval]; try apply Qle_refl. destruct s; [contradiction|]. pose proof (fval_pos m e). cbn [fval] in H. lra. Qed.
  Lemma add_near : forall a b, canon a -> canon b -> is_inf a = false -> is_inf b = false -> nearest (fval a + fval b)%Q (SFadd prec emax a b).
  Proof.
    intros a b Ca Cb Ia Ib. destruct a as [s|s| |s m e]; try discriminate Ia; try contradiction; destruct s; try contradiction.
    - destruct b as [s'|s'| |s' m' e']; try discriminate Ib; try contradiction; destruct s'; try contradiction; cbn [SFadd Bool.eqb].
      + eapply nearest_eq; [|apply near_self]; [cbn [fval]; ring|exact Logic.I|reflexivity].
      + eapply nearest_eq; [|apply (near_self _ Cb)]; [cbn [fval]; ring|reflexivity].
    - destruct b as [s'|s'| |s' m' e']; try discriminate Ib; try contradiction; destruct s'; try contradiction.
      + eapply nearest_eq; [|apply (near_self _ Ca)]; [cbn [fval]; ring|reflexivity].
      + cbn [SFadd cond_Zopp]. set (z := Z.min e e').
        pose proof (align_value m e z ltac:(lia)) as V1. pose proof (align_value m' e' z ltac:(lia)) as V2.
        set (a := fst (shl_align m e z)) in *. set (b := fst (shl_align m' e' z)) in *.
        change (Z.pos a + Z.pos b) with (Z.pos (a + b)). cbn [binary_normalize].
        eapply nearest_eq; [|apply round_near].
        change (Z.pos (a + b)) with (Z.pos a + Z.pos b). rewrite inject_Z_plus, Qmult_plus_distr_l, V1, V2. reflexivity.
  Qed.
  Lemma add_inf : forall a b, canon a -> canon b -> is_inf a = true \/ is_inf b = true -> SFadd prec emax a b = S754_infinity false.
  Proof.
    intros [s|s| |s m e] [s'|s'| |s' m' e'] Ca Cb [I|I]; try discriminate I; try contradiction; try (destruct s; try contradiction); try (destruct s'; try contradiction); reflexivity.
  Qed.
  Lemma add_canon : forall a b, canon a -> canon b -> canon (SFadd prec emax a b).
  Proof.
    intros a b Ca Cb. destruct (is_inf a) eqn:Ia; [rewrite add_inf by auto; exact Logic.I|]. destruct (is_inf b) eqn:Ib; [rewrite add_inf by auto; exact Logic.I|].
    eapply near_canon. apply add_near; assumption.
  Qed.
  Lemma add_mono : forall a b a' b', canon a -> canon b -> canon a' -> canon b' -> le a a' -> le b b' -> le (SFadd prec emax a b) (SFadd prec emax a' b').
  Proof.
    intros a b a' b' Ca Cb Ca' Cb' La Lb.
    destruct La as [La|(A1 & A2 & A3)]; [left; rewrite add_inf by auto; reflexivity|].
    destruct Lb as [Lb|(B1 & B2 & B3)]; [left; rewrite add_inf by auto; reflexivity|].
    eapply near_mono; [apply add_near; assumption|apply add_near; assumption|]. lra.
  Qed.

  (** *** Quotients *)
  Lemma div_near : forall a m2 e2, canon a -> is_inf a = false -> nearest (fval a / fval (S754_finite false m2 e2))%Q (SFdiv prec emax a (S754_finite false m2 e2)).
  Proof.
    intros a m2 e2 Ca Ia. destruct a as [s|s| |s m1 e1]; try discriminate Ia; try contradiction; destruct s; try contradiction.
    - cbn [SFdiv xorb]. eapply nearest_eq; [|apply (near_self (S754_zero false))]; [|exact Logic.I|reflexivity]. cbn [fval]. unfold Qdiv. ring.
    - set (x := (fval (S754_finite false m1 e1) / fval (S754_finite false m2 e2))%Q) in *.
      cbn [SFdiv xorb]. unfold SFdiv_core_binary.
      set (X := Zdigits2 (Z.pos m1) + e1 - (Zdigits2 (Z.pos m2) + e2)). set (z := Z.min (fexp prec emax X) (e1 - e2)).
      set (M := match e1 - e2 - z with Z0 => _ | Zpos _ => _ | Zneg _ => _ end).
      pose proof (digits_value (Z.pos m1) e1 ltac:(lia)) as D1. pose proof (digits_value (Z.pos m2) e2 ltac:(lia)) as D2.
      pose proof (fval_pos m1 e1) as P1. pose proof (fval_pos m2 e2) as P2.
      assert (XM : (x * fval (S754_finite false m2 e2) == fval (S754_finite false m1 e1))%Q).
      { unfold x. field. intro Z. rewrite Z in P2. discriminate P2. }
      assert (L : (p2 (X - 1) < x)%Q).
      { unfold x. apply Qlt_shift_div_l; [exact P2|]. cbn [fval] in *.
        apply Qlt_le_trans with (p2 (X - 1) * p2 (Zdigits2 (Z.pos m2) + e2))%Q.
        - apply Qmult_lt_l; [apply p2_pos|]. lra.
        - rewrite <- p2_plus. replace (X - 1 + (Zdigits2 (Z.pos m2) + e2)) with (Zdigits2 (Z.pos m1) + e1 - 1) by (unfold X; lia). lra. }
      assert (Hz : z <= fexp prec emax X /\ z <= e1 - e2) by (unfold z; lia).
      assert (HM : M = Z.pos m1 * 2 ^ (e1 - e2 - z)).
      { subst M. destruct (e1 - e2 - z) eqn:E; try lia. apply Z.shiftl_mul_pow2. lia. }
      clearbody M. assert (PM : 0 < M). { rewrite HM. apply Z.mul_pos_pos; [lia|]. apply Z.pow_pos_nonneg; lia. }
      destruct (Z.div_eucl M (Z.pos m2)) as [q r] eqn:ED.
      pose proof (Z_div_mod M (Z.pos m2) ltac:(lia)) as DM. rewrite ED in DM. destruct DM as [DM1 DM2].
      set (y := (inject_Z q + inject_Z r / inject_Z (Z.pos m2))%Q).
      assert (M2 : (0 < inject_Z (Z.pos m2))%Q) by (apply (inj_lt 0); lia).
      assert (Y : (y * p2 z == x)%Q).
      { assert (YM : (y * inject_Z (Z.pos m2) == inject_Z M)%Q).
        { unfold y. rewrite DM1, inject_Z_plus, inject_Z_mult. field. intro Z. rewrite Z in M2. discriminate M2. }
        assert (P2' : ~ (fval (S754_finite false m2 e2) == 0)%Q) by (intro Z; rewrite Z in P2; discriminate P2).
        apply (Qmult_inj_r _ _ (fval (S754_finite false m2 e2)) P2'). rewrite XM. cbn [fval].
        setoid_replace (y * p2 z * (inject_Z (Z.pos m2) * p2 e2))%Q with (y * inject_Z (Z.pos m2) * p2 z * p2 e2)%Q by ring.
        rewrite YM, HM, inject_Z_mult, <- p2_Z by lia.
        setoid_replace (inject_Z (Z.pos m1) * p2 (e1 - e2 - z) * p2 z * p2 e2)%Q with (inject_Z (Z.pos m1) * (p2 (e1 - e2 - z) * p2 z * p2 e2))%Q by ring.
        rewrite <- !p2_plus. replace (e1 - e2 - z + z + e2) with e1 by lia. reflexivity. }
      assert (Hr1 : (0 <= inject_Z r / inject_Z (Z.pos m2) < 1)%Q).
      { split.
        - apply Qle_shift_div_l; [exact M2|]. rewrite Qmult_0_l. apply (inj_le 0). lia.
        - apply Qlt_shift_div_r; [exact M2|]. rewrite Qmult_1_l. apply inj_lt. lia. }
      assert (Hq0 : 0 <= q). { destruct (Z.lt_ge_cases q 0) as [C|C]; [|lia]. nia. }
      eapply nearest_eq; [exact Y|]. apply aux_near; [exact Hq0|apply new_loc; lia|].
      (* enough digits *)
      rewrite fexp_max in *. destruct (Z.le_gt_cases X z) as [C|C]; [lia|].
      assert (Hq : 2 ^ (X - 1 - z) <= q).
      { apply Z.lt_succ_r. apply inj_lt_inv. rewrite <- p2_Z by lia. unfold Z.succ. rewrite inject_Z_plus. change (inject_Z 1) with 1%Q.
        apply Qle_lt_trans with y; [|unfold y; lra].
        apply (Qmult_le_r _ _ (p2 z) (p2_pos z)). rewrite Y, <- p2_plus. replace (X - 1 - z + z) with (X - 1) by lia. lra. }
      assert (Hd : X - z <= Zdigits2 q).
      { destruct (Z.le_gt_cases (X - z) (Zdigits2 q)) as [G|G]; [exact G|].
        assert (Q0 : 0 < q). { assert (0 < 2 ^ (X - 1 - z)) by (apply Z.pow_pos_nonneg; lia). lia. }
        pose proof (Zdigits2_bounds q Q0). assert (2 ^ Zdigits2 q <= 2 ^ (X - 1 - z)) by (apply Z.pow_le_mono_r; lia). lia. }
      lia.
  Qed.

  (** *** Comparisons *)
  Lemma lt_exponent : forall m e m' e', canon (S754_finite false m e) -> canon (S754_finite false m' e') -> e < e' ->
    (fval (S754_finite false m e) < fval (S754_finite false m' e'))%Q.
  Proof.
    intros m e m' e' (A & B & C) (A' & B' & C') L. cbn [fval]. destruct C' as [C'|C']; [|lia].
    apply Qlt_le_trans with (p2 (prec + e)).
    - rewrite p2_plus. apply Qmult_lt_r; [apply p2_pos|]. rewrite p2_Z by lia. apply inj_lt. exact A.
    - apply Qle_trans with (p2 (prec - 1 + e')); [apply p2_le; lia|]. rewrite p2_plus. apply Qmult_le_r; [apply p2_pos|].
      rewrite p2_Z by lia. apply inj_le. exact C'.
  Qed.
  Lemma compare_finite : forall m e m' e', canon (S754_finite false m e) -> canon (S754_finite false m' e') ->
    match SFcompare (S754_finite false m e) (S754_finite false m' e') with
    | Some Lt => (fval (S754_finite false m e) < fval (S754_finite false m' e'))%Q
    | Some Eq => (fval (S754_finite false m e) == fval (S754_finite false m' e'))%Q
    | Some Gt => (fval (S754_finite false m' e') < fval (S754_finite false m e))%Q
    | None => False
    end.
  Proof.
    intros m e m' e' C C'. cbn [SFcompare]. destruct (Z.compare_spec e e') as [E|E|E].
    - subst e'. cbn [fval]. destruct (Pcompare m m' Eq) eqn:PC.
      + apply Pos.compare_eq in PC. subst m'. reflexivity.
      + apply Qmult_lt_r; [apply p2_pos|]. apply inj_lt. exact PC.
      + apply Qmult_lt_r; [apply p2_pos|]. apply inj_lt. apply Pos.compare_gt_iff in PC. exact PC.
    - apply lt_exponent; assumption.
    - apply lt_exponent; assumption.
  Qed.
  Lemma le_ltb : forall f g, canon f -> canon g -> (le f g <-> SFltb g f = false).
  Proof.
    intros f g Cf Cg. unfold SFltb.
    destruct f as [s|s| |s m e]; try contradiction; destruct s; try contradiction;
    destruct g as [s'|s'| |s' m' e']; try contradiction; destruct s'; try contradiction.
    - split; [reflexivity|]. intros _. right. split; [reflexivity|]. split; [reflexivity|]. apply Qle_refl.
    - split; [reflexivity|]. intros _. left. reflexivity.
    - split; [reflexivity|]. intros _. right. split; [reflexivity|]. split; [reflexivity|]. apply Qlt_le_weak. apply fval_pos.
    - split; [|discriminate]. intros [I|(I & _)]; discriminate I.
    - split; [reflexivity|]. intros _. left. reflexivity.
    - split; [|discriminate]. intros [I|(I & _)]; discriminate I.
    - split; [|discriminate]. intros [I|(_ & _ & I)]; [discriminate I|]. pose proof (fval_pos m e) as P. change (fval (S754_zero false)) with 0%Q in I. lra.
    - split; [reflexivity|]. intros _. left. reflexivity.
    - pose proof (compare_finite m' e' m e Cg Cf) as CF. destruct (SFcompare (S754_finite false m' e') (S754_finite false m e)) as [[| |]|]; [| | |contradiction].
      + split; [reflexivity|]. intros _. right. split; [reflexivity|]. split; [reflexivity|]. lra.
      + split; [|discriminate]. intros [I|(_ & _ & I)]; [discriminate I|]. lra.
      + split; [reflexivity|]. intros _. right. split; [reflexivity|]. split; [reflexivity|]. lra.
  Qed.
  Lemma le_refl : forall f, le f f.
  Proof. intros f. unfold le. destruct (is_inf f); [left; reflexivity|right]. split; [reflexivity|]. split; [reflexivity|]. apply Qle_refl. Qed.

  (** *** Averages *)
  Definition avg (fs : list spec_float) : spec_float :=
    SFdiv prec emax (fold_left (SFadd prec emax) fs (S754_zero false)) (binary_normalize prec emax (Z.of_nat (List.length fs)) 0 false).
  Lemma sum_mono : forall fs fs', Forall2 (fun f f' => canon f /\ canon f' /\ le f f') fs fs' -> forall a a', canon a -> canon a' -> le a a' ->
    canon (fold_left (SFadd prec emax) fs a) /\ canon (fold_left (SFadd prec emax) fs' a') /\ le (fold_left (SFadd prec emax) fs a) (fold_left (SFadd prec emax) fs' a').
  Proof.
    induction 1 as [|f f' fs fs' (C & C' & L) _ IH]; intros a a' Ca Ca' La; cbn [fold_left]; [auto|].
    apply IH; [apply add_canon; assumption|apply add_canon; assumption|apply add_mono; assumption].
  Qed.
  Lemma count_cases : forall n, (0 < n)%nat -> (Z.of_nat n < 2 ^ (emax - 1)) -> exists m e, binary_normalize prec emax (Z.of_nat n) 0 false = S754_finite false m e.
  Proof.
    intros n H HB. destruct (Z.of_nat n) as [|p|p] eqn:E; try lia. cbn [binary_normalize].
    pose proof (round_near p 0) as R. set (f := binary_round prec emax false p 0) in *. pose proof (near_canon _ _ R) as C.
    assert (U : canon (S754_finite false (Z.to_pos (2 ^ (prec - 1))) (emax - prec)) /\ (fval (S754_finite false (Z.to_pos (2 ^ (prec - 1))) (emax - prec)) == p2 (emax - 1))%Q).
    { assert (P : 0 < 2 ^ (prec - 1)) by (apply Z.pow_pos_nonneg; lia). split.
      - unfold canon. rewrite Z2Pos.id by exact P. split; [apply Z.pow_lt_mono_r; lia|]. split; [unfold em; lia|]. left. lia.
      - cbn [fval]. rewrite Z2Pos.id by exact P. rewrite <- p2_Z, <- p2_plus by lia. replace (prec - 1 + (emax - prec)) with (emax - 1) by lia. reflexivity. }
    destruct U as [UC UV]. pose proof (near_self _ UC eq_refl) as UN.
    assert (L1 : le f (S754_finite false (Z.to_pos (2 ^ (prec - 1))) (emax - prec))).
    { eapply near_mono; [exact R|exact UN|]. rewrite UV, p2_0, Qmult_1_r, p2_Z by lia. apply inj_le. lia. }
    assert (L2 : le (binary_round prec emax false 1 0) f).
    { eapply near_mono; [apply round_near|exact R|]. apply Qmult_le_r; [apply p2_pos|]. apply inj_le. lia. }
    destruct f as [s|s| |s m e]; try contradiction; destruct s; try contradiction.
    - exfalso. assert (O : exists m1 e1, binary_round prec emax false 1 0 = S754_finite false m1 e1).
      { destruct (round_exact prec emax Hprec Hemax 1 0) as (m1 & e1 & X & _).
        - apply (Z.lt_le_trans _ (2 ^ 1)); [lia|apply Z.pow_le_mono_r; lia].
        - change (Zdigits2 1 + 0) with 1. lia.
        - exists m1, e1. exact X. }
      destruct O as (m1 & e1 & O). rewrite O in L2. destruct L2 as [L2|(_ & _ & L2)]; [discriminate L2|].
      pose proof (fval_pos m1 e1). change (fval (S754_zero false)) with 0%Q in L2. lra.
    - exfalso. destruct L1 as [L1|(L1 & _)]; discriminate L1.
    - exists m, e. reflexivity.
  Qed.
  Lemma div_mono : forall a a' m e, canon a -> canon a' -> le a a' ->
    canon (SFdiv prec emax a (S754_finite false m e)) /\ canon (SFdiv prec emax a' (S754_finite false m e)) /\
    le (SFdiv prec emax a (S754_finite false m e)) (SFdiv prec emax a' (S754_finite false m e)).
  Proof.
    intros a a' m e C C' L.
    assert (I : forall b, canon b -> is_inf b = true -> SFdiv prec emax b (S754_finite false m e) = S754_infinity false).
    { intros [s|s| |s mm ee] Cb Ib; try discriminate Ib. destruct s; [contradiction|]. reflexivity. }
    assert (CC : forall b, canon b -> canon (SFdiv prec emax b (S754_finite false m e))).
    { intros b Cb. destruct (is_inf b) eqn:Ib; [rewrite I by assumption; exact Logic.I|]. eapply near_canon. apply div_near; assumption. }
    split; [apply CC; exact C|]. split; [apply CC; exact C'|].
    destruct L as [L|(A & B & L)]; [left; rewrite I by assumption; reflexivity|].
    eapply near_mono; [apply div_near; assumption|apply div_near; assumption|].
    pose proof (fval_pos m e) as P. unfold Qdiv. apply Qmult_le_compat_r; [exact L|]. apply Qlt_le_weak. apply Qinv_lt_0_compat. exact P.
  Qed.
  Lemma avg_mono : forall fs fs', fs <> [] -> (Z.of_nat (List.length fs) < 2 ^ (emax - 1)) -> Forall2 (fun f f' => canon f /\ canon f' /\ le f f') fs fs' ->
    canon (avg fs) /\ canon (avg fs') /\ le (avg fs) (avg fs').
  Proof.
    intros fs fs' NE HB F. assert (LEN : List.length fs = List.length fs') by (clear - F; induction F; cbn; congruence).
    destruct (count_cases (List.length fs)) as (m & e & E); [destruct fs; [congruence|cbn; lia]|exact HB|].
    unfold avg. rewrite <- LEN, E. apply div_mono; apply (sum_mono fs fs' F (S754_zero false) (S754_zero false)); try exact Logic.I; apply le_refl.
  Qed.
End Mono.
