(** Accuracy of averages. *)
From Coq Require Import List ZArith Bool Lia QArith Qpower Qfield Lqa Floats.SpecFloat.
From Verif Require Import Float_model Float_proofs Rule_model Search_spec FloatAcc_spec FloatRound_proofs FloatAcc_proofs.
Import ListNotations.
Local Open Scope Q_scope.

(** ** Powers *)
Lemma pow_S : forall a n, ~ a == 0 -> a ^ Z.of_nat (S n) == a * a ^ Z.of_nat n.
Proof. intros a n H. rewrite Nat2Z.inj_succ, <- Z.add_1_l. rewrite Qpower_plus by exact H. reflexivity. Qed.
Lemma pow_pos_lt : forall a n, 0 < a -> 0 < a ^ Z.of_nat n.
Proof. intros. apply Qpower_0_lt. assumption. Qed.
Lemma pow_le1 : forall a n, 0 < a -> a <= 1 -> a ^ Z.of_nat n <= 1.
Proof.
  intros a n H L. induction n as [|n IH]; [apply Qle_refl|]. rewrite pow_S by (intro Z; rewrite Z in H; discriminate H).
  pose proof (pow_pos_lt a n H). nra.
Qed.
Lemma pow_ge1 : forall a n, 1 <= a -> 1 <= a ^ Z.of_nat n.
Proof.
  intros a n L. induction n as [|n IH]; [apply Qle_refl|]. rewrite pow_S by (intro Z; rewrite Z in L; apply L; reflexivity). nra.
Qed.
(** Bernoulli. *)
Lemma pow_low : forall u n, 0 <= u -> u < 1 -> 1 - inject_Z (Z.of_nat n) * u <= (1 - u) ^ Z.of_nat n.
Proof.
  intros u n H L. induction n as [|n IH]; [change (inject_Z (Z.of_nat 0)) with 0; change ((1 - u) ^ Z.of_nat 0) with 1; lra|]. rewrite pow_S by (intro Z; lra).
  rewrite Nat2Z.inj_succ, <- Z.add_1_l, inject_Z_plus. change (inject_Z 1) with 1.
  assert (0 <= inject_Z (Z.of_nat n)) by (apply (inj_le 0); lia). nra.
Qed.
Lemma pow_high : forall u n, 0 <= u -> 2 * inject_Z (Z.of_nat n) * u <= 1 ->
  (1 + u) ^ Z.of_nat n <= 1 + 2 * inject_Z (Z.of_nat n) * u.
Proof.
  intros u n H. induction n as [|n IH]; intros L; [change (inject_Z (Z.of_nat 0)) with 0; change ((1 + u) ^ Z.of_nat 0) with 1; lra|]. rewrite pow_S by (intro Z; lra).
  rewrite Nat2Z.inj_succ, <- Z.add_1_l, inject_Z_plus in *. change (inject_Z 1) with 1 in *.
  assert (N0 : 0 <= inject_Z (Z.of_nat n)) by (apply (inj_le 0); lia). set (x := inject_Z (Z.of_nat n)) in *.
  assert (B : (1 + u) ^ Z.of_nat n <= 1 + 2 * x * u) by (apply IH; nra).
  apply Qle_trans with ((1 + u) * (1 + 2 * x * u)); [apply Qmult_le_l; [lra|exact B]|]. nra.
Qed.

(** ** Comparison of normal floats *)
Lemma compare_value : forall p m e m' e', (1 < p)%Z -> (2 ^ (p - 1) <= Z.pos m < 2 ^ p)%Z -> (2 ^ (p - 1) <= Z.pos m' < 2 ^ p)%Z ->
  SFltb (S754_finite false m e) (S754_finite false m' e') = false ->
  fval (S754_finite false m' e') <= fval (S754_finite false m e).
Proof.
  intros p m e m' e' Hp B B' H. unfold SFltb in H. cbn [SFcompare] in H. cbn [fval].
  destruct (Z.compare_spec e e') as [E|E|E]; [|discriminate H|].
  - subst e'. apply Qmult_le_r; [apply p2_pos|]. apply inj_le.
    change (Pcompare m m' Eq) with (Pos.compare m m') in H. destruct (Pos.compare_spec m m') as [C|C|C]; try discriminate H; lia.
  - apply Qle_trans with (p2 (p + e')).
    + rewrite p2_plus. apply Qmult_le_r; [apply p2_pos|]. rewrite p2_Z by lia. apply inj_le. lia.
    + apply Qle_trans with (p2 (p - 1 + e)); [apply p2_le; lia|]. rewrite p2_plus. apply Qmult_le_r; [apply p2_pos|]. rewrite p2_Z by lia. apply inj_le. lia.
Qed.

(** ** Sums *)
Definition ok_term (f : spec_float) : Prop := exists m e, f = S754_finite false m e /\ p2 (-100) <= fval f <= p2 100.
Definition sum_vals (fs : list spec_float) : Q := fold_right (fun f s => fval f + s) 0 fs.

Section Avg.
  Variables prec emax : Z.
  Hypothesis Hprec : (24 <= prec)%Z.
  Hypothesis Hemax : (128 <= emax)%Z.
  Hypothesis Hpe : (prec < emax)%Z.
  Let u := p2 (- prec).

  Lemma u_small : 0 < u /\ u <= 1 # 16777216.
  Proof. split; [apply p2_pos|]. change (1 # 16777216) with (p2 (-24)). apply p2_le. lia. Qed.

  Definition state (k : nat) (f : spec_float) (x : Q) : Prop :=
    exists m e, f = S754_finite false m e /\ 0 < x /\ (1 - u) ^ Z.of_nat k * x <= fval f <= (1 + u) ^ Z.of_nat k * x /\
      p2 (-101) <= fval f <= 2 * inject_Z (Z.of_nat (S k)) * p2 100.

  Lemma add_state : forall k f x g, state k f x -> ok_term g -> (Z.of_nat (S k) <= 2 ^ 20)%Z ->
    state (S k) (SFadd prec emax f g) (x + fval g).
  Proof.
    intros k f x g (m & e & -> & X0 & Acc & R) (m2 & e2 & -> & R2) HK.
    pose proof (fval_pos m e) as P1. pose proof (fval_pos m2 e2) as P2. destruct u_small as [U0 U1].
    set (a := fval (S754_finite false m e)) in *. set (b := fval (S754_finite false m2 e2)) in *.
    assert (KK : inject_Z (Z.of_nat (S k)) <= 1048576 # 1) by (apply (inj_le _ 1048576); exact HK).
    assert (KS : inject_Z (Z.of_nat (S (S k))) == inject_Z (Z.of_nat (S k)) + 1) by (rewrite (Nat2Z.inj_succ (S k)), <- Z.add_1_r, inject_Z_plus; reflexivity).
    assert (K0 : 1 <= inject_Z (Z.of_nat (S k))) by (apply (inj_le 1); lia).
    pose proof (p2_pos 100) as PH. pose proof (p2_pos (-101)) as PL.
    assert (L2 : p2 (-100) == 2 * p2 (-101)) by reflexivity.
    assert (Rng : p2 (2 - emax) <= a + b <= p2 (emax - 2)).
    { split.
      - apply Qle_trans with (p2 (-100)); [apply p2_le; lia|lra].
      - apply Qle_trans with (p2 (22 + 100)); [|apply p2_le; lia]. rewrite p2_plus. change (p2 22) with (4194304 # 1).
        assert (2 * inject_Z (Z.of_nat (S k)) * p2 100 <= (2097152 # 1) * p2 100) by nra. lra. }
    destruct (add_rounded prec emax ltac:(lia) m e m2 e2 Rng) as (m' & e' & E & B & V). fold a b in V. fold u in V.
    rewrite E in *. set (c := fval (S754_finite false m' e')) in *. exists m', e'. split; [reflexivity|]. split; [lra|].
    rewrite !pow_S by (intro; lra).
    pose proof (pow_le1 (1 - u) k ltac:(lra) ltac:(lra)) as W1. pose proof (pow_pos_lt (1 - u) k ltac:(lra)) as W0.
    pose proof (pow_ge1 (1 + u) k ltac:(lra)) as W2. fold c.
    set (lo := (1 - u) ^ Z.of_nat k) in *. set (hi := (1 + u) ^ Z.of_nat k) in *.
    split; [split|split].
    - apply Qle_trans with ((1 - u) * (a + b)); [|apply V]. rewrite <- Qmult_assoc. apply Qmult_le_l; [lra|].
      assert (lo * b <= b) by nra. lra.
    - apply Qle_trans with ((1 + u) * (a + b)); [apply V|]. rewrite <- Qmult_assoc. apply Qmult_le_l; [lra|].
      assert (b <= hi * b) by nra. lra.
    - apply Qle_trans with ((1 - u) * (a + b)); [|apply V]. nra.
    - apply Qle_trans with ((1 + u) * (a + b)); [apply V|]. rewrite KS.
      set (K := inject_Z (Z.of_nat (S k))) in *.
      apply Qle_trans with ((1 + u) * ((2 * K + 1) * p2 100)); [apply Qmult_le_l; lra|].
      rewrite Qmult_assoc. apply Qmult_le_r; [exact PH|]. assert (u * (2 * K + 1) <= 1) by nra. lra.
  Qed.

  Lemma sum_state : forall fs k f x, state k f x -> Forall ok_term fs -> (Z.of_nat (S k + List.length fs) <= 2 ^ 20)%Z ->
    state (k + List.length fs) (fold_left (SFadd prec emax) fs f) (x + sum_vals fs).
  Proof.
    induction fs as [|g fs IH]; intros k f x St F HK.
    - cbn. rewrite Nat.add_0_r. destruct St as (m & e & E & X0 & A & R). exists m, e. split; [exact E|]. rewrite !Qplus_0_r. auto.
    - inversion F as [|? ? Fg F']; subst. cbn [fold_left List.length sum_vals fold_right] in *. fold (sum_vals fs).
      replace (k + S (List.length fs))%nat with (S k + List.length fs)%nat by lia.
      assert (St' : state (S k) (SFadd prec emax f g) (x + fval g)) by (apply add_state; [assumption..|lia]).
      destruct (IH (S k) _ _ St' F' ltac:(lia)) as (m & e & E & X0 & A & R). exists m, e. split; [exact E|]. rewrite !Qplus_assoc. auto.
  Qed.

  Lemma count_exact : forall n, (0 < n)%nat -> (Z.of_nat n <= 2 ^ 20)%Z ->
    exists m e, binary_normalize prec emax (Z.of_nat n) 0 false = S754_finite false m e /\ fval (S754_finite false m e) == inject_Z (Z.of_nat n).
  Proof.
    intros n H0 H. destruct (Z.of_nat n) as [|p|p] eqn:E; try lia. cbn [binary_normalize].
    assert (D : (0 < Zdigits2 (Z.pos p) + 0 <= 20 + 1)%Z).
    { apply digits_range; [lia|]. rewrite !p2_Z by lia. change (inject_Z (2 ^ 0)) with 1. rewrite Qmult_1_r. split; [apply (inj_le 1); lia|apply inj_le; lia]. }
    destruct (round_exact prec emax ltac:(lia) ltac:(lia) p 0) as (m & e & E1 & _ & V).
    - apply Z.lt_le_trans with (2 ^ 24)%Z; [|apply Z.pow_le_mono_r; lia]. apply Z.le_lt_trans with (2 ^ 20)%Z; [exact H|reflexivity].
    - lia.
    - exists m, e. split; [exact E1|]. rewrite V, p2_0. ring.
  Qed.

  Definition favg (fs : list spec_float) : spec_float :=
    SFdiv prec emax (fold_left (SFadd prec emax) fs (S754_zero false)) (binary_normalize prec emax (Z.of_nat (List.length fs)) 0 false).

  Lemma favg_accurate : forall fs, fs <> [] -> (Z.of_nat (List.length fs) <= 2 ^ 20)%Z -> Forall ok_term fs ->
    exists m e, favg fs = S754_finite false m e /\ (2 ^ (prec - 1) <= Z.pos m < 2 ^ prec)%Z /\
      (1 - u) ^ Z.of_nat (List.length fs) * (sum_vals fs / inject_Z (Z.of_nat (List.length fs))) <= fval (S754_finite false m e) <=
      (1 + u) ^ Z.of_nat (List.length fs) * (sum_vals fs / inject_Z (Z.of_nat (List.length fs))).
  Proof.
    intros fs NE HL F. destruct fs as [|f fs]; [congruence|]. inversion F as [|? ? Ff F']; subst. unfold favg.
    set (n := List.length (f :: fs)) in *. assert (N0 : (0 < n)%nat) by (unfold n; cbn; lia).
    destruct (count_exact n N0 HL) as (mn & en & En & Vn). rewrite En.
    destruct u_small as [U0 U1]. pose proof (p2_pos 100) as PH. pose proof (p2_pos (-101)) as PL.
    assert (L2 : p2 (-100) == 2 * p2 (-101)) by reflexivity.
    assert (St0 : state 0 f (fval f)).
    { destruct Ff as (m & e & -> & R). exists m, e. split; [reflexivity|]. split; [apply fval_pos|]. split; [split; cbn; lra|].
      split; [lra|]. change (2 * inject_Z (Z.of_nat 1)) with 2. lra. }
    assert (S1 : fold_left (SFadd prec emax) (f :: fs) (S754_zero false) = fold_left (SFadd prec emax) fs f).
    { cbn [fold_left]. destruct Ff as (m & e & -> & _). reflexivity. }
    rewrite S1. pose proof (sum_state fs 0 f (fval f) St0 F' ltac:(unfold n in HL; cbn [List.length Nat.add] in *; lia)) as St.
    change (fval f + sum_vals fs) with (sum_vals (f :: fs)) in St. cbn [Nat.add] in St.
    destruct St as (ms & es & Es & X0 & A & R). rewrite Es in *. set (Sv := sum_vals (f :: fs)) in *.
    assert (NL : Z.of_nat n = Z.of_nat (S (List.length fs))) by reflexivity. rewrite <- NL in R.
    set (N := inject_Z (Z.of_nat n)) in *.
    assert (N1 : 1 <= N) by (apply (inj_le 1); lia).
    assert (N2 : N <= 1048576 # 1) by (apply (inj_le _ 1048576); exact HL).
    pose proof (fval_pos ms es) as Ps. set (s := fval (S754_finite false ms es)) in *.
    assert (DV : forall x, x / fval (S754_finite false mn en) == x / N) by (intro x; rewrite Vn; reflexivity).
    assert (DN : forall x, x == x / N * N) by (intro x; field; lra).
    assert (Rng : p2 (3 - emax) <= s / fval (S754_finite false mn en) <= p2 (emax - 2)).
    { rewrite DV. split.
      - apply Qle_trans with (p2 (-20 + -101)); [apply p2_le; lia|]. rewrite p2_plus. apply Qle_shift_div_l; [lra|].
        change (p2 (-20)) with (1 # 1048576). nra.
      - apply Qle_trans with (p2 (1 + 100)); [|apply p2_le; lia]. rewrite p2_plus. apply Qle_shift_div_r; [lra|].
        change (p2 1) with 2. lra. }
    destruct (div_rounded prec emax ltac:(lia) ms es mn en Rng) as (m & e & E & B & V). fold s in V. fold u in V. rewrite E in *.
    exists m, e. split; [reflexivity|]. split; [exact B|]. set (c := fval (S754_finite false m e)) in *.
    rewrite (DV s) in V. rewrite NL, !pow_S by (intro; lra).
    set (lo := (1 - u) ^ Z.of_nat (List.length fs)) in *. set (hi := (1 + u) ^ Z.of_nat (List.length fs)) in *.
    assert (Q1 : lo * (Sv / N) <= s / N).
    { apply Qle_shift_div_l; [lra|]. rewrite <- Qmult_assoc, <- DN. apply A. }
    assert (Q2 : s / N <= hi * (Sv / N)).
    { apply Qle_shift_div_r; [lra|]. rewrite <- Qmult_assoc, <- DN. apply A. }
    split.
    - apply Qle_trans with ((1 - u) * (s / N)); [|apply V]. rewrite <- Qmult_assoc. apply Qmult_le_l; [lra|exact Q1].
    - apply Qle_trans with ((1 + u) * (s / N)); [apply V|]. rewrite <- Qmult_assoc. apply Qmult_le_l; [lra|exact Q2].
  Qed.
End Avg.

(** ** Averages of scores *)
Lemma fold_map : forall (add : spec_float -> spec_float -> spec_float) (c : spec_float -> spec_float) rs a,
  fold_left (fun s r => add s (c (r_score r))) rs a = fold_left add (map (fun r => c (r_score r)) rs) a.
Proof. induction rs as [|r rs IH]; intros a; [reflexivity|]. cbn [fold_left map]. apply IH. Qed.
Lemma average32_favg : forall rs, average32 rs = favg 24 128 (map r_score rs).
Proof. intros. unfold average32, favg. rewrite map_length. rewrite (fold_map (SFadd 24 128) (fun f => f)). reflexivity. Qed.
Lemma average64_favg : forall rs, average64 rs = favg 53 1024 (map (fun r => widen (r_score r)) rs).
Proof. intros. unfold average64, favg. rewrite map_length. rewrite (fold_map (SFadd 53 1024) widen). reflexivity. Qed.
Lemma usual_ok : forall f, usual_score f -> ok_term f.
Proof. intros f (m & e & E & _ & R). exists m, e. auto. Qed.
(** Widening a single precision score is exact. *)
Lemma widen_exact : forall f, usual_score f -> exists m e, widen f = S754_finite false m e /\ fval (S754_finite false m e) == fval f.
Proof.
  intros f (m & e & -> & M & R). cbn [widen binary_normalize]. cbn [fval] in R.
  assert (D := digits_range (Z.pos m) e (-100) 100 ltac:(lia) R).
  destruct (round_exact 53 1024 ltac:(lia) ltac:(lia) m e) as (m' & e' & E & _ & V).
  - apply Z.lt_le_trans with (2 ^ 24)%Z; [exact M|]. apply Z.pow_le_mono_r; lia.
  - lia.
  - exists m', e'. split; [exact E|]. exact V.
Qed.
Lemma widen_ok : forall f, usual_score f -> ok_term (widen f).
Proof. intros f H. destruct (widen_exact f H) as (m & e & E & V). exists m, e. split; [exact E|]. rewrite E, V. destruct H as (? & ? & ? & ? & R). exact R. Qed.
Lemma sum32 : forall rs, sum_vals (map r_score rs) == exact_sum rs.
Proof. induction rs as [|r rs IH]; [reflexivity|]. cbn [map sum_vals exact_sum fold_right]. fold (sum_vals (map r_score rs)) (exact_sum rs). rewrite IH. reflexivity. Qed.
Lemma sum64 : forall rs, usual_scores rs -> sum_vals (map (fun r => widen (r_score r)) rs) == exact_sum rs.
Proof.
  induction rs as [|r rs IH]; intros H; [reflexivity|]. inversion H as [|? ? Hr H']; subst. cbn [map sum_vals exact_sum fold_right].
  fold (sum_vals (map (fun r => widen (r_score r)) rs)) (exact_sum rs). rewrite (IH H').
  destruct (widen_exact _ Hr) as (m & e & E & V). rewrite E, V. reflexivity.
Qed.

Lemma average32_normal : forall rs, rs <> [] -> (Z.of_nat (List.length rs) <= 2 ^ 20)%Z -> usual_scores rs ->
  exists m e, average32 rs = S754_finite false m e /\ (2 ^ 23 <= Z.pos m < 2 ^ 24)%Z /\
    (1 - p2 (-24)) ^ Z.of_nat (List.length rs) * exact_average rs <= fval (average32 rs) <= (1 + p2 (-24)) ^ Z.of_nat (List.length rs) * exact_average rs.
Proof.
  intros rs NE HL U. rewrite average32_favg.
  destruct (favg_accurate 24 128 ltac:(lia) ltac:(lia) ltac:(lia) (map r_score rs)) as (m & e & E & B & V).
  - intro E. apply map_eq_nil in E. contradiction.
  - rewrite map_length. exact HL.
  - apply Forall_map. eapply Forall_impl; [|exact U]. intros r. apply usual_ok.
  - exists m, e. split; [exact E|]. split; [exact B|]. rewrite E. rewrite map_length in V.
    unfold exact_average. rewrite <- (sum32 rs). exact V.
Qed.
Lemma average64_normal : forall rs, rs <> [] -> (Z.of_nat (List.length rs) <= 2 ^ 20)%Z -> usual_scores rs ->
  exists m e, average64 rs = S754_finite false m e /\ (2 ^ 52 <= Z.pos m < 2 ^ 53)%Z /\
    (1 - p2 (-53)) ^ Z.of_nat (List.length rs) * exact_average rs <= fval (average64 rs) <= (1 + p2 (-53)) ^ Z.of_nat (List.length rs) * exact_average rs.
Proof.
  intros rs NE HL U. rewrite average64_favg.
  destruct (favg_accurate 53 1024 ltac:(lia) ltac:(lia) ltac:(lia) (map (fun r => widen (r_score r)) rs)) as (m & e & E & B & V).
  - intro E. apply map_eq_nil in E. contradiction.
  - rewrite map_length. exact HL.
  - apply Forall_map. eapply Forall_impl; [|exact U]. intros r. apply widen_ok.
  - exists m, e. split; [exact E|]. split; [exact B|]. rewrite E. rewrite map_length in V.
    unfold exact_average. rewrite <- (sum64 rs U). exact V.
Qed.
Lemma accurate32 : forall rs, rs <> [] -> (Z.of_nat (List.length rs) <= 2 ^ 20)%Z -> usual_scores rs ->
  accurate 24 (List.length rs) (average32 rs) (exact_average rs).
Proof. intros rs H1 H2 H3. destruct (average32_normal rs H1 H2 H3) as (m & e & E & _ & V). split; [rewrite E; exact I|exact V]. Qed.
Lemma accurate64 : forall rs, rs <> [] -> (Z.of_nat (List.length rs) <= 2 ^ 20)%Z -> usual_scores rs ->
  accurate 53 (List.length rs) (average64 rs) (exact_average rs).
Proof. intros rs H1 H2 H3. destruct (average64_normal rs H1 H2 H3) as (m & e & E & _ & V). split; [rewrite E; exact I|exact V]. Qed.

(** [accurate] in words: a relative error of at most 2 n / 2^prec. *)
Lemma sum_pos : forall rs, rs <> [] -> usual_scores rs -> 0 < exact_sum rs.
Proof.
  assert (P : forall rs, usual_scores rs -> 0 <= exact_sum rs).
  { induction rs as [|r rs IH]; intros U; [apply Qle_refl|]. inversion U as [|? ? Hr U']; subst. cbn [exact_sum fold_right]. fold (exact_sum rs).
    destruct Hr as (m & e & E & _ & R). pose proof (p2_pos (-100)). specialize (IH U'). lra. }
  intros [|r rs] NE U; [congruence|]. inversion U as [|? ? Hr U']; subst. cbn [exact_sum fold_right]. fold (exact_sum rs).
  destruct Hr as (m & e & E & _ & R). pose proof (p2_pos (-100)). specialize (P rs U'). lra.
Qed.
Lemma average_pos : forall rs, rs <> [] -> usual_scores rs -> 0 < exact_average rs.
Proof.
  intros rs NE U. unfold exact_average. pose proof (sum_pos rs NE U). destruct rs as [|r rs]; [congruence|].
  apply Qlt_shift_div_l; [apply (inj_lt 0); cbn [List.length]; lia|]. rewrite Qmult_0_l. assumption.
Qed.
Lemma accurate_error : forall prec n f x, (24 <= prec)%Z -> (Z.of_nat n <= 2 ^ 20)%Z -> 0 <= x -> accurate prec n f x ->
  (1 - 2 * inject_Z (Z.of_nat n) * p2 (- prec)) * x <= fval f <= (1 + 2 * inject_Z (Z.of_nat n) * p2 (- prec)) * x.
Proof.
  intros prec n f x Hp Hn Hx (_ & L & H).
  assert (U0 : 0 < p2 (- prec)) by apply p2_pos. assert (U1 : p2 (- prec) <= 1 # 16777216) by (apply (p2_le _ (-24)); lia).
  assert (N0 : 0 <= inject_Z (Z.of_nat n)) by (apply (inj_le 0); lia). assert (N1 : inject_Z (Z.of_nat n) <= 1048576 # 1) by (apply (inj_le _ 1048576); exact Hn).
  set (u := p2 (- prec)) in *. set (N := inject_Z (Z.of_nat n)) in *.
  pose proof (pow_low u n ltac:(lra) ltac:(lra)) as B1. pose proof (pow_high u n ltac:(lra) ltac:(fold N; nra)) as B2. fold N in B1, B2. split.
  - apply Qle_trans with ((1 - u) ^ Z.of_nat n * x); [|exact L]. apply Qmult_le_compat_r; [|exact Hx]. nra.
  - apply Qle_trans with ((1 + u) ^ Z.of_nat n * x); [exact H|]. apply Qmult_le_compat_r; [exact B2|exact Hx].
Qed.
(** A float average that is not smaller belongs to an exact average that is almost not smaller. *)
Lemma order_exact : forall rs rs', rs <> [] -> rs' <> [] -> (Z.of_nat (List.length rs) <= 2 ^ 20)%Z -> (Z.of_nat (List.length rs') <= 2 ^ 20)%Z ->
  usual_scores rs -> usual_scores rs' -> SFltb (average32 rs) (average32 rs') = false ->
  (1 - p2 (-24)) ^ Z.of_nat (List.length rs') * exact_average rs' <= (1 + p2 (-24)) ^ Z.of_nat (List.length rs) * exact_average rs.
Proof.
  intros rs rs' H1 H1' H2 H2' H3 H3' C.
  destruct (average32_normal rs H1 H2 H3) as (m & e & E & B & V). destruct (average32_normal rs' H1' H2' H3') as (m' & e' & E' & B' & V').
  rewrite E, E' in *. pose proof (compare_value 24 m e m' e' ltac:(lia) B B' C) as K. lra.
Qed.
