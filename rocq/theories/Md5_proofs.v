(** Feeding a digest piece by piece. *)
From Coq Require Import List NArith Bool Lia Arith ZArith.
From Verif Require Import Base_model Md5_model Md5_spec.
Import ListNotations.
Local Open Scope N_scope.

(** ** Whole blocks *)
Inductive runs : regs -> list N -> regs -> Prop :=
| runs_nil : forall st, runs st [] st
| runs_cons : forall st b B st', List.length b = 64%nat -> runs (md_transform st b) B st' -> runs st (b ++ B) st'.
Lemma runs_app : forall st A st1 B st2, runs st A st1 -> runs st1 B st2 -> runs st (A ++ B) st2.
Proof.
  intros st A st1 B st2 H. revert B st2. induction H as [|st b A st1 Hb H IH]; intros B st2 HB; [exact HB|].
  rewrite <- app_assoc. constructor; auto.
Qed.
Lemma runs_one : forall st b, List.length b = 64%nat -> runs st b (md_transform st b).
Proof. intros st b H. rewrite <- (app_nil_r b) at 1. constructor; [exact H|constructor]. Qed.
Lemma app_inj_len : forall A (a b c d : list A), List.length a = List.length c -> a ++ b = c ++ d -> a = c /\ b = d.
Proof.
  induction a as [|x a IH]; intros b [|y c] d HL H; simpl in *; try discriminate; [auto|].
  injection H as -> H. injection HL as HL. destruct (IH _ _ _ HL H) as (-> & ->). auto.
Qed.
Lemma runs_inv : forall st L st', runs st L st' ->
  (L = [] /\ st' = st) \/ exists b B, L = b ++ B /\ List.length b = 64%nat /\ runs (md_transform st b) B st'.
Proof. intros st L st' [st0|st0 b B st1 Hb H]; [left; auto|right; exists b, B; auto]. Qed.
Lemma runs_fun : forall st B st1 st2, runs st B st1 -> runs st B st2 -> st1 = st2.
Proof.
  intros st B st1 st2 H. revert st2. induction H as [|st b B st1 Hb H IH]; intros st2 H2; apply runs_inv in H2.
  - destruct H2 as [(_ & ->)|(b & B & E & Hb & _)]; [reflexivity|]. symmetry in E. apply app_eq_nil in E. destruct E as (-> & ->). discriminate.
  - destruct H2 as [(E & _)|(b' & B' & E & Hb' & H')].
    + apply app_eq_nil in E. destruct E as (-> & ->). discriminate.
    + apply app_inj_len in E; [|congruence]. destruct E as (-> & ->). auto.
Qed.
Lemma runs_len : forall st B st', runs st B st' -> exists k, List.length B = (64 * k)%nat.
Proof.
  induction 1 as [|st b B st' Hb H (k & IH)]; [exists O; reflexivity|]. exists (S k). rewrite app_length. lia.
Qed.
Lemma blocks_runs : forall n st l st' l', (List.length l < 64 + 64 * n)%nat -> md_blocks n st l = (st', l') ->
  exists B, l = B ++ l' /\ runs st B st' /\ (List.length l' < 64)%nat.
Proof.
  induction n as [|n IH]; intros st l st' l' HL H; cbn [md_blocks] in H.
  - injection H as <- <-. exists []. repeat split; [constructor|lia].
  - destruct (Nat.leb_spec 64 (List.length l)) as [Hl|Hl].
    + apply IH in H; [|rewrite skipn_length; lia]. destruct H as (B & E & R & L).
      exists (firstn 64 l ++ B). split; [rewrite <- app_assoc, <- E; symmetry; apply firstn_skipn|].
      split; [|exact L]. constructor; [apply firstn_length_le; exact Hl|exact R].
    + injection H as <- <-. exists []. repeat split; [constructor|exact Hl].
Qed.

(** ** What the object knows after reading the bytes [M] *)
Record repr (init : regs) (M : list N) (m : md5) : Prop := mkRepr {
  rp_final : m_final m = false;
  rp_lo : m_lo m = (8 * N.of_nat (List.length M)) mod U32;
  rp_hi : m_hi m = (8 * N.of_nat (List.length M) / U32) mod U32;
  rp_data : exists B R junk, M = B ++ R /\ runs init B (m_state m) /\ (List.length R < 64)%nat /\
            m_buffer m = R ++ junk /\ List.length (m_buffer m) = 64%nat }.

Lemma copy_app : forall R junk src, (List.length R + List.length src <= List.length (R ++ junk))%nat ->
  exists junk', copy_at (R ++ junk) (List.length R) src = (R ++ src) ++ junk' /\
  List.length ((R ++ src) ++ junk') = List.length (R ++ junk).
Proof.
  intros R junk src H. unfold copy_at. exists (skipn (List.length R + List.length src) (R ++ junk)). split.
  - rewrite firstn_app, Nat.sub_diag, firstn_O, app_nil_r, firstn_all, app_assoc. reflexivity.
  - rewrite !app_length, skipn_length, app_length. rewrite app_length in H. lia.
Qed.
Lemma index_eq : forall B R st st', runs st B st' -> (List.length R < 64)%nat ->
  N.to_nat ((8 * N.of_nat (List.length (B ++ R))) mod U32 / 8 mod 64) = List.length R.
Proof.
  intros B R st st' H L. apply runs_len in H. destruct H as (k & H). rewrite app_length, H.
  replace (8 * N.of_nat (64 * k + List.length R)) with (8 * (64 * N.of_nat k + N.of_nat (List.length R))) by lia.
  set (r := N.of_nat (List.length R)). assert (Hr : r < 64) by (unfold r; lia).
  change U32 with (8 * 536870912). rewrite N.mul_mod_distr_l by discriminate.
  rewrite (N.mul_comm 8 (_ mod _)), N.div_mul by discriminate.
  assert (E : ((64 * N.of_nat k + r) mod 536870912) mod 64 = r).
  { assert (D := N.div_mod (64 * N.of_nat k + r) 536870912 ltac:(discriminate)).
    set (q := (64 * N.of_nat k + r) / 536870912) in *. set (x := (64 * N.of_nat k + r) mod 536870912) in *.
    symmetry. apply (N.mod_unique x 64 (N.of_nat k - 8388608 * q)); [exact Hr|]. lia. }
  rewrite E. unfold r. lia.
Qed.
Lemma count_eq : forall n len, len < U32 ->
  let bits := w32 (N.shiftl len 3) in
  let lo := w32 ((8 * n) mod U32 + bits) in
  lo = (8 * (n + len)) mod U32 /\
  w32 ((if lo <? bits then w32 ((8 * n / U32) mod U32 + 1) else (8 * n / U32) mod U32) + N.shiftr len 29) = (8 * (n + len) / U32) mod U32.
Proof.
  intros n len HL. cbv zeta. rewrite N.shiftl_mul_pow2, N.shiftr_div_pow2. unfold w32.
  change (2 ^ 3) with 8. change (2 ^ 29) with 536870912. rewrite (N.mul_comm len 8).
  assert (L1 : (8 * n mod U32 + (8 * len) mod U32) mod U32 = (8 * (n + len)) mod U32).
  { rewrite <- N.add_mod by discriminate. f_equal. lia. }
  split; [exact L1|].
  assert (D1 := N.div_mod (8 * n) U32 ltac:(discriminate)). assert (D2 := N.div_mod (8 * len) U32 ltac:(discriminate)).
  assert (B1 := N.mod_lt (8 * n) U32 ltac:(discriminate)). assert (B2 := N.mod_lt (8 * len) U32 ltac:(discriminate)).
  assert (E29 : len / 536870912 = 8 * len / U32). { change U32 with (8 * 536870912). rewrite N.div_mul_cancel_l by discriminate. reflexivity. }
  rewrite E29. set (q1 := 8 * n / U32) in *. set (r1 := (8 * n) mod U32) in *. set (q2 := 8 * len / U32) in *. set (r2 := (8 * len) mod U32) in *.
  destruct (N.lt_ge_cases (r1 + r2) U32) as [C|C].
  - assert (E : 8 * (n + len) / U32 = q1 + q2). { symmetry. apply (N.div_unique _ _ _ (r1 + r2)); [exact C|lia]. }
    rewrite E. rewrite (N.mod_small (r1 + r2)) by exact C.
    replace (r1 + r2 <? r2) with false by (symmetry; apply N.ltb_ge; lia).
    rewrite N.add_mod_idemp_l by discriminate. reflexivity.
  - assert (E : 8 * (n + len) / U32 = q1 + q2 + 1). { symmetry. apply (N.div_unique _ _ _ (r1 + r2 - U32)); lia. }
    assert (X : (r1 + r2) mod U32 = r1 + r2 - U32). { symmetry. apply (N.mod_unique _ _ 1); lia. }
    rewrite E, X. replace (r1 + r2 - U32 <? r2) with true by (symmetry; apply N.ltb_lt; lia).
    rewrite N.add_mod_idemp_l by discriminate. rewrite <- N.add_assoc, N.add_mod_idemp_l by discriminate. f_equal. lia.
Qed.

Lemma update_repr : forall init M m input, repr init M m -> N.of_nat (List.length input) < U32 -> repr init (M ++ input) (md_update m input).
Proof.
  intros init M m input [Hf Hlo Hhi (B & R & junk & HM & HR & HL & Hb & Hbl)] Hin.
  assert (CNT := count_eq (N.of_nat (List.length M)) (N.of_nat (List.length input)) Hin). cbv zeta in CNT.
  rewrite <- Nat2N.inj_add, <- app_length in CNT. destruct CNT as (C1 & C2).
  unfold md_update. rewrite Hlo, Hhi. 
  assert (IX : N.to_nat ((8 * N.of_nat (List.length M)) mod U32 / 8 mod 64) = List.length R).
  { subst M. eapply index_eq; eassumption. }
  rewrite IX. rewrite C2. rewrite Hb in *. rewrite app_length in Hbl.
  destruct (Nat.leb_spec (64 - List.length R) (List.length input)) as [K|K].
  - set (fp := (64 - List.length R)%nat) in *.
    destruct (copy_app R junk (firstn fp input)) as (junk' & E & EL).
    { rewrite firstn_length_le by exact K. rewrite app_length. lia. }
    rewrite E. assert (J0 : junk' = []).
    { rewrite app_length, app_length, firstn_length_le in EL by exact K. rewrite app_length in EL. destruct junk'; [reflexivity|simpl in EL; lia]. }
    subst junk'. rewrite app_nil_r.
    assert (BL : List.length (R ++ firstn fp input) = 64%nat). { rewrite app_length, firstn_length_le by exact K. lia. }
    destruct (md_blocks (List.length input) (md_transform (m_state m) (R ++ firstn fp input)) (skipn fp input)) as [st rest] eqn:EB.
    apply blocks_runs in EB; [|rewrite skipn_length; lia]. destruct EB as (B2 & E2 & R2 & L2).
    constructor; cbn [m_final m_lo m_hi m_state m_buffer]; auto.
    exists (B ++ (R ++ firstn fp input) ++ B2), rest, (skipn (List.length rest) (R ++ firstn fp input)).
    split; [|split; [|split; [|split]]].
    + subst M. rewrite <- (firstn_skipn fp input) at 1. rewrite E2, !app_assoc. reflexivity.
    + eapply runs_app; [exact HR|]. constructor; [exact BL|exact R2].
    + exact L2.
    + unfold copy_at. reflexivity.
    + unfold copy_at. cbn [firstn app Nat.add]. rewrite app_length, skipn_length, BL. lia.
  - destruct (copy_app R junk input) as (junk' & E & EL). { rewrite app_length. lia. }
    rewrite E. constructor; cbn [m_final m_lo m_hi m_state m_buffer]; auto.
    exists B, (R ++ input), junk'. split; [subst M; rewrite app_assoc; reflexivity|]. split; [exact HR|].
    split; [rewrite app_length; lia|]. split; [reflexivity|]. rewrite EL, app_length. lia.
Qed.
Definition start_regs : regs := mkRegs 0x67452301 0xefcdab89 0x98badcfe 0x10325476.
Lemma init_repr : forall junk junkd, List.length junk = 64%nat -> repr start_regs [] (md_init junk junkd).
Proof.
  intros junk junkd H. constructor; try reflexivity. exists [], [], junk. repeat split; [constructor|simpl; lia|exact H].
Qed.
Lemma feed_repr : forall pieces M m, repr start_regs M m ->
  Forall (fun p => N.of_nat (List.length p) < U32) pieces ->
  repr start_regs (M ++ concat pieces) (fold_left md_update pieces m).
Proof.
  induction pieces as [|p ps IH]; intros M m H HF; simpl; [rewrite app_nil_r; exact H|].
  inversion HF; subst. rewrite app_assoc. apply IH; [apply update_repr; assumption|assumption].
Qed.

(** ** Finishing *)
(** The bytes that finalize appends. *)
Definition tail_of (M : list N) : list N :=
  let len := 8 * N.of_nat (List.length M) in
  let index := len mod U32 / 8 mod 64 in
  firstn (N.to_nat (if index <? 56 then 56 - index else 120 - index)) md_padding ++ md_encode [len mod U32; (len / U32) mod U32].
Lemma finalize_repr : forall M m, repr start_regs M m ->
  exists st, runs start_regs (M ++ tail_of M) st /\
  m_final (md_finalize m) = true /\ m_digest (md_finalize m) = md_encode [r_a st; r_b st; r_c st; r_d st].
Proof.
  intros M m H. unfold md_finalize. rewrite (rp_final _ _ _ H). cbv zeta. cbn [m_final m_digest].
  unfold tail_of. cbv zeta. rewrite <- (rp_lo _ _ _ H), <- (rp_hi _ _ _ H).
  set (index := m_lo m / 8 mod 64). set (pl := N.to_nat (if index <? 56 then 56 - index else 120 - index)).
  assert (Hi : index < 64) by (apply N.mod_lt; discriminate).
  assert (Hpl : (pl <= 64)%nat /\ exists k, (N.to_nat index + pl = 56 + 64 * k)%nat).
  { unfold pl. destruct (N.ltb_spec index 56); split; [lia|exists O; lia|lia|exists 1%nat; lia]. }
  destruct Hpl as (Hpl & k & Hk).
  assert (PL : List.length (firstn pl md_padding) = pl). { apply firstn_length_le. exact Hpl. }
  assert (R1 := update_repr _ _ _ (firstn pl md_padding) H ltac:(rewrite PL; unfold U32; lia)).
  assert (R2 := update_repr _ _ _ (md_encode [m_lo m; m_hi m]) R1 ltac:(reflexivity)).
  set (m2 := md_update _ (md_encode _)) in *. exists (m_state m2). split; [|auto].
  destruct (rp_data _ _ _ R2) as (B & R & junk & E & HB & HR & _).
  assert (R = []).
  { assert (HLEN : exists j, List.length ((M ++ firstn pl md_padding) ++ md_encode [m_lo m; m_hi m]) = (64 * j)%nat).
    { rewrite app_length, app_length, PL. change (List.length (md_encode [m_lo m; m_hi m])) with 8%nat.
      destruct (rp_data _ _ _ H) as (B0 & R0 & junk0 & E0 & HB0 & HR0 & _).
      assert (I0 := index_eq B0 R0 _ _ HB0 HR0). rewrite <- E0, <- (rp_lo _ _ _ H) in I0. fold index in I0.
      destruct (runs_len _ _ _ HB0) as (k0 & L0). rewrite E0, app_length, L0.
      exists (k0 + k + 1)%nat. lia. }
    destruct HLEN as (j & HLEN). rewrite E, app_length in HLEN. destruct (runs_len _ _ _ HB) as (j' & HB').
    assert (List.length R = 0%nat) by lia. destruct R; [reflexivity|discriminate]. }
  subst R. rewrite app_nil_r in E. rewrite app_assoc, E. exact HB.
Qed.

Lemma final_twice : forall m, md_finalize (md_finalize m) = md_finalize m.
Proof. intros m. unfold md_finalize at 2 3. destruct (m_final m) eqn:E; unfold md_finalize; [rewrite E|]; reflexivity. Qed.

Lemma feed_digest : forall junk junkd pieces, List.length junk = 64%nat ->
  Forall (fun p => N.of_nat (List.length p) < U32 - 64) pieces ->
  exists st, runs start_regs (concat pieces ++ tail_of (concat pieces)) st /\
  md_hexdigest (md_finalize (fold_left md_update pieces (md_init junk junkd))) = flat_map hex_byte (md_encode [r_a st; r_b st; r_c st; r_d st]).
Proof.
  intros junk junkd pieces HJ HP.
  assert (R := feed_repr pieces [] _ (init_repr junk junkd HJ)). rewrite app_nil_l in R.
  destruct (finalize_repr _ _ (R ltac:(eapply Forall_impl; [|exact HP]; cbv beta; intros; lia))) as (st & H1 & H2 & H3).
  exists st. split; [exact H1|]. unfold md_hexdigest. rewrite H2, H3. reflexivity.
Qed.
Lemma feeding : forall junk junkd pieces, List.length junk = 64%nat ->
  N.of_nat (List.length (concat pieces)) < U32 - 64 ->
  md_hexdigest (md_finalize (fold_left md_update pieces (md_init junk junkd))) = md5_hex (concat pieces).
Proof.
  intros junk junkd pieces HJ HL.
  assert (HP : Forall (fun p => N.of_nat (List.length p) < U32 - 64) pieces).
  { apply Forall_forall. intros p Hp. apply in_split in Hp. destruct Hp as (a & b & ->). rewrite concat_app in HL. simpl in HL.
    rewrite !app_length in HL. change (U32 - 64) with 4294967232. lia. }
  destruct (feed_digest junk junkd pieces HJ HP) as (st & R & ->).
  destruct (feed_digest (repeat 0 64) (repeat 0 16) [concat pieces]) as (st' & R' & E).
  { apply repeat_length. } { constructor; [exact HL|constructor]. }
  cbn [fold_left] in E. unfold md5_hex. rewrite E. cbn [concat] in R'. rewrite app_nil_r in R'.
  rewrite (runs_fun _ _ _ _ R R'). reflexivity.
Qed.
Definition is_lower_hex (c : N) : Prop := 48 <= c <= 57 \/ 97 <= c <= 102.
Lemma hex_shape : forall junk junkd pieces, List.length junk = 64%nat ->
  Forall (fun p => N.of_nat (List.length p) < U32 - 64) pieces ->
  let h := md_hexdigest (md_finalize (fold_left md_update pieces (md_init junk junkd))) in
  List.length h = 32%nat /\ Forall is_lower_hex h.
Proof.
  intros junk junkd pieces HJ HP. cbv zeta. destruct (feed_digest junk junkd pieces HJ HP) as (st & _ & ->).
  assert (G : forall l, Forall (fun b => b < 256) l -> List.length (flat_map hex_byte l) = (2 * List.length l)%nat /\ Forall is_lower_hex (flat_map hex_byte l)).
  { assert (D : forall d, d < 16 -> is_lower_hex (hex_digit d)).
    { intros d Hd. unfold hex_digit, is_lower_hex. destruct (N.ltb_spec d 10); lia. }
    induction 1 as [|b l Hb Hl (IH1 & IH2)]; [split; [reflexivity|constructor]|]. cbn [flat_map hex_byte app List.length]. split; [lia|].
    constructor; [apply D; apply N.div_lt_upper_bound; [discriminate|exact Hb]|].
    constructor; [apply D; apply N.mod_lt; discriminate|exact IH2]. }
  assert (B : forall l, Forall (fun b => b < 256) (md_encode l)).
  { intros l. unfold md_encode. apply Forall_forall. intros b Hb. apply in_flat_map in Hb. destruct Hb as (w & _ & Hb).
    assert (K : forall x, N.land x 255 < 256). { intros x. change 255 with (N.ones 8). rewrite N.land_ones. apply N.mod_lt. discriminate. }
    cbn [In] in Hb. destruct Hb as [<-|[<-|[<-|[<-|[]]]]]; apply K. }
  destruct (G _ (B [r_a st; r_b st; r_c st; r_d st])) as (G1 & G2). split; [rewrite G1; reflexivity|exact G2].
Qed.
