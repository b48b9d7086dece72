(** The digest against the description of RFC 1321. *)
From Coq Require Import String List NArith Bool Lia Arith.
From Verif Require Import Base_model Md5_model Md5_spec Md5_proofs.
Import ListNotations.
Local Open Scope N_scope.

(** The functions of src/md5.cpp:62-68. *)
Definition code_F (x y z : N) : N := N.land (N.lor (N.land x y) (compl x)) z.
Definition code_G (x y z : N) : N := N.land (N.lor (N.land x z) y) (compl z).

(** ** Words *)
Definition u32ok (x : N) : Prop := x < 2 ^ 32.
Lemma U32_pow : U32 = 2 ^ 32. Proof. reflexivity. Qed.
Lemma high_bits : forall x n i, x < 2 ^ n -> n <= i -> N.testbit x i = false.
Proof. intros x n i H L. rewrite <- (N.mod_small x (2 ^ n) H). apply N.mod_pow2_bits_high. exact L. Qed.
Lemma land_lt : forall x y n, x < 2 ^ n -> N.land x y < 2 ^ n.
Proof.
  intros x y n H. rewrite <- (N.mod_small x _ H), <- N.land_ones, <- N.land_assoc, (N.land_comm (N.ones n)), N.land_assoc, N.land_ones.
  apply N.mod_lt. apply N.pow_nonzero. discriminate.
Qed.
Lemma bits_lt : forall x n, (forall i, n <= i -> N.testbit x i = false) -> x < 2 ^ n.
Proof.
  intros x n H. assert (E : N.land x (N.ones n) = x).
  { apply N.bits_inj. intros i. rewrite N.land_spec. destruct (N.lt_ge_cases i n) as [L|L].
    - rewrite N.ones_spec_low by exact L. apply andb_true_r.
    - rewrite (H i L). reflexivity. }
  rewrite <- E, N.land_ones. apply N.mod_lt. apply N.pow_nonzero. discriminate.
Qed.
Lemma lor_lt : forall x y n, x < 2 ^ n -> y < 2 ^ n -> N.lor x y < 2 ^ n.
Proof. intros x y n Hx Hy. apply bits_lt. intros i L. rewrite N.lor_spec, (high_bits x n), (high_bits y n) by assumption. reflexivity. Qed.
Lemma lxor_lt : forall x y n, x < 2 ^ n -> y < 2 ^ n -> N.lxor x y < 2 ^ n.
Proof. intros x y n Hx Hy. apply bits_lt. intros i L. rewrite N.lxor_spec, (high_bits x n), (high_bits y n) by assumption. reflexivity. Qed.
Lemma lor_shift : forall a b n, a < 2 ^ n -> N.lor a (N.shiftl b n) = a + 2 ^ n * b.
Proof.
  intros a b n H. assert (Z : N.land a (N.shiftl b n) = 0).
  { apply N.bits_inj. intros i. rewrite N.land_spec, N.bits_0. destruct (N.lt_ge_cases i n) as [L|L].
    - rewrite N.shiftl_spec_low by exact L. apply andb_false_r.
    - rewrite (high_bits a n i H L). reflexivity. }
  rewrite <- N.lxor_lor by exact Z. rewrite <- N.add_nocarry_lxor by exact Z. rewrite N.shiftl_mul_pow2. lia.
Qed.
Lemma compl_eq : forall x, u32ok x -> not32 x = compl x.
Proof.
  intros x H. unfold not32, compl, two32. change 4294967295 with (N.ones 32).
  replace (2 ^ 32 - 1 - x) with (N.lnot x 32); [reflexivity|].
  destruct (N.eq_dec x 0) as [->|NZ]; [reflexivity|].
  rewrite N.lnot_sub_low; [rewrite N.ones_equiv; lia|]. apply N.log2_lt_pow2; [lia|exact H].
Qed.
Lemma rot_eq : forall x n, u32ok x -> 0 < n -> n < 32 -> rotate_left x n = rotl x n.
Proof.
  intros x n H N0 N1. unfold rotate_left, rotl, w32, two32. rewrite U32_pow. rewrite N.shiftl_mul_pow2, N.shiftr_div_pow2.
  assert (Z : N.land ((x * 2 ^ n) mod 2 ^ 32) (x / 2 ^ (32 - n)) = 0).
  { apply N.bits_inj. intros i. rewrite N.land_spec, N.bits_0. destruct (N.lt_ge_cases i n) as [L|L].
    - rewrite N.mod_pow2_bits_low by lia. rewrite N.mul_pow2_bits_low by exact L. reflexivity.
    - rewrite N.div_pow2_bits. rewrite (high_bits x 32) by (try exact H; lia). apply andb_false_r. }
  rewrite <- N.lxor_lor by exact Z. rewrite <- N.add_nocarry_lxor by exact Z. reflexivity.
Qed.

(** ** Bytes *)
Definition byte (b : N) : Prop := b < 256.
Lemma decode_words : forall n l, List.length l = (4 * n)%nat -> Forall byte l -> md_decode l = map word_of (chunks n 4 l).
Proof.
  induction n as [|n IH]; intros l HL HB; [destruct l; [reflexivity|discriminate]|].
  destruct l as [|a [|b [|c [|d l]]]]; try (simpl in HL; lia).
  inversion HB as [|? ? Ba HB1]; subst. inversion HB1 as [|? ? Bb HB2]; subst. inversion HB2 as [|? ? Bc HB3]; subst. inversion HB3 as [|? ? Bd HB4]; subst.
  cbn [md_decode chunks firstn skipn map]. f_equal; [|apply IH; [simpl in HL; lia|exact HB4]].
  unfold byte in *. rewrite (lor_shift a b 8) by exact Ba. rewrite (lor_shift _ c 16) by (change (2 ^ 8) with 256; change (2 ^ 16) with 65536; nia).
  rewrite (lor_shift _ d 24) by (change (2 ^ 8) with 256; change (2 ^ 16) with 65536; change (2 ^ 24) with 16777216; nia).
  change (2 ^ 8) with 256. change (2 ^ 16) with 65536. change (2 ^ 24) with 16777216. cbn [word_of fold_right]. lia.
Qed.
Lemma byte_of_low : forall x j k, j + 8 <= k -> N.land (N.shiftr (x mod 2 ^ k) j) 255 = x / 2 ^ j mod 256.
Proof.
  intros x j k H. change 255 with (N.ones 8). change 256 with (2 ^ 8). rewrite N.land_ones, N.shiftr_div_pow2.
  apply N.bits_inj. intros i. destruct (N.lt_ge_cases i 8) as [L|L].
  - rewrite !N.mod_pow2_bits_low by exact L. rewrite !N.div_pow2_bits. rewrite N.mod_pow2_bits_low by lia. reflexivity.
  - rewrite !N.mod_pow2_bits_high by exact L. reflexivity.
Qed.
Lemma encode_word : forall x, u32ok x -> md_encode [x] = bytes_of 4 x.
Proof.
  intros x H. rewrite <- (N.mod_small x (2 ^ 32) H). unfold md_encode. cbn [flat_map]. rewrite app_nil_r.
  rewrite !(byte_of_low x _ 32) by lia. rewrite <- (N.shiftr_0_r (x mod 2 ^ 32)) at 1. rewrite (byte_of_low x 0 32) by lia.
  rewrite (N.mod_small x (2 ^ 32) H). reflexivity.
Qed.
Lemma encode_length : forall x, md_encode [x mod U32; (x / U32) mod U32] = bytes_of 8 x.
Proof.
  intros x. rewrite U32_pow. unfold md_encode. cbn [flat_map]. rewrite app_nil_r.
  rewrite !(byte_of_low x _ 32), !(byte_of_low (x / 2 ^ 32) _ 32) by lia.
  rewrite <- (N.shiftr_0_r (x mod 2 ^ 32)), <- (N.shiftr_0_r ((x / 2 ^ 32) mod 2 ^ 32)).
  rewrite (byte_of_low x 0 32), (byte_of_low (x / 2 ^ 32) 0 32) by lia.
  rewrite !N.div_div by (apply N.pow_nonzero; discriminate). rewrite <- !N.pow_add_r. reflexivity.
Qed.
Lemma encode_four : forall a b c d, u32ok a -> u32ok b -> u32ok c -> u32ok d -> md_encode [a; b; c; d] = flat_map (bytes_of 4) [a; b; c; d].
Proof.
  intros a b c d Ha Hb Hc Hd.
  change (md_encode [a; b; c; d]) with (md_encode [a] ++ md_encode [b] ++ md_encode [c] ++ md_encode [d]).
  rewrite !encode_word by assumption. cbn [flat_map]. rewrite app_nil_r. reflexivity.
Qed.
Lemma hex_eq : forall l, Forall byte l -> flat_map hex_byte l = lower_hex l.
Proof.
  induction 1 as [|b l Hb Hl IH]; [reflexivity|]. unfold lower_hex. cbn [flat_map]. fold (lower_hex l). rewrite IH. f_equal.
  assert (D : forall d, d < 16 -> hex_digit d = nth (N.to_nat d) (map N.of_nat (seq 48 10 ++ seq 97 6)) 0).
  { intros d Hd. assert (exists k, (k < 16)%nat /\ d = N.of_nat k) as (k & Hk & ->) by (exists (N.to_nat d); lia).
    do 16 (destruct k as [|k]; [reflexivity|]). lia. }
  unfold hex_byte. rewrite !D; [reflexivity| |]; [apply N.mod_lt; discriminate|apply N.div_lt_upper_bound; [discriminate|exact Hb]].
Qed.

(** ** One block *)
Definition tup (r : regs) : N * N * N * N := (r_a r, r_b r, r_c r, r_d r).
Definition regs_ok (r : regs) : Prop := u32ok (r_a r) /\ u32ok (r_b r) /\ u32ok (r_c r) /\ u32ok (r_d r).
Definition call_at (i : nat) : mix * nat * N * N :=
  let round := Nat.div i 16 in
  (nth round [FF; GG; HH; II] FF, Nat.modulo (nth round [i; (5 * i + 1)%nat; (3 * i + 5)%nat; (7 * i)%nat] i) 16,
   nth (4 * round + Nat.modulo i 4) shifts 0, nth i sines 0).
Lemma calls_table : md_calls = map call_at (seq 0 64).
Proof. vm_compute. reflexivity. Qed.
Lemma shift_ok : forall i, (i < 64)%nat -> let s := nth (4 * (i / 16) + i mod 4) shifts 0 in 0 < s /\ s < 32.
Proof.
  intros i Hi s.
  assert (C : forallb (fun i => let s := nth (4 * (i / 16) + i mod 4) shifts 0 in (0 <? s) && (s <? 32)) (seq 0 64) = true) by (vm_compute; reflexivity).
  rewrite forallb_forall in C. specialize (C i ltac:(apply in_seq; lia)). cbv zeta in C. fold s in C. apply andb_true_iff in C.
  destruct C as (C1 & C2). apply N.ltb_lt in C1. apply N.ltb_lt in C2. auto.
Qed.
Definition fun_at (m : mix) : N -> N -> N -> N := match m with FF => code_F | GG => code_G | HH => rfc_H | II => rfc_I end.
Lemma mix_eq : forall m b c d, u32ok b -> u32ok c -> u32ok d -> mix_fun m b c d = fun_at m b c d.
Proof.
  intros m b c d Hb Hc Hd. destruct m; cbn [mix_fun fun_at].
  - unfold md_F, code_F. rewrite compl_eq by assumption. reflexivity.
  - unfold md_G, code_G. rewrite compl_eq by assumption. reflexivity.
  - unfold md_H, rfc_H. apply N.lxor_assoc.
  - unfold md_I, rfc_I. rewrite compl_eq by assumption. reflexivity.
Qed.
Lemma round_fun : forall i, (i < 64)%nat -> fun_at (nth (i / 16) [FF; GG; HH; II] FF) = nth (i / 16) [code_F; code_G; rfc_H; rfc_I] code_F.
Proof.
  intros i Hi. assert (K : (i / 16 < 4)%nat) by (apply Nat.div_lt_upper_bound; lia).
  destruct (i / 16)%nat as [|[|[|[|k]]]]; try reflexivity. lia.
Qed.
Lemma w32_ok : forall x, u32ok (w32 x).
Proof. intros x. unfold w32, u32ok. rewrite U32_pow. apply N.mod_lt. discriminate. Qed.
Lemma call_step : forall x r i, (i < 64)%nat -> regs_ok r ->
  tup (md_call x r (call_at i)) = step code_F code_G rfc_H rfc_I x (tup r) i /\ regs_ok (md_call x r (call_at i)).
Proof.
  intros x r i Hi (Ha & Hb & Hc & Hd). unfold md_call, call_at, step, tup. cbv zeta. cbn [r_a r_b r_c r_d]. split.
  - f_equal. f_equal. f_equal. unfold mix_step. rewrite mix_eq by assumption. rewrite round_fun by exact Hi.
    rewrite rot_eq; [|apply w32_ok|apply shift_ok; exact Hi|apply shift_ok; exact Hi].
    unfold w32. change U32 with two32. rewrite (N.add_comm (r_b r)). reflexivity.
  - repeat split; cbn [r_a r_b r_c r_d]; try assumption. apply w32_ok.
Qed.
Lemma calls_steps : forall x l r, Forall (fun i => (i < 64)%nat) l -> regs_ok r ->
  tup (fold_left (md_call x) (map call_at l) r) = fold_left (step code_F code_G rfc_H rfc_I x) l (tup r) /\
  regs_ok (fold_left (md_call x) (map call_at l) r).
Proof.
  induction l as [|i l IH]; intros r HF HR; [split; [reflexivity|exact HR]|]. inversion HF; subst. cbn [map fold_left].
  destruct (call_step x r i) as (E & O); try assumption. rewrite <- E. apply IH; assumption.
Qed.
Lemma transform_block : forall r b, regs_ok r -> List.length b = 64%nat -> Forall byte b ->
  tup (md_transform r b) = block_step code_F code_G rfc_H rfc_I (tup r) b /\ regs_ok (md_transform r b).
Proof.
  intros r b HR HL HB. unfold md_transform, block_step. rewrite calls_table.
  rewrite (decode_words 16 b HL HB). set (x := map word_of (chunks 16 4 b)).
  destruct (calls_steps x (seq 0 64) r) as (E & O); [|exact HR|].
  { apply Forall_forall. intros i Hi. apply in_seq in Hi. lia. }
  unfold tup at 2. cbv zeta. unfold tup in E at 2. fold (tup r) in *. rewrite <- E.
  set (r' := fold_left _ _ r) in *. unfold tup. cbn [r_a r_b r_c r_d]. split; [reflexivity|].
  repeat split; apply w32_ok.
Qed.
Lemma fold_cons : forall A B (f : A -> B -> A) x l a, fold_left f (x :: l) a = fold_left f l (f a x).
Proof. reflexivity. Qed.
Lemma chunks_app : forall n b B f, List.length b = n -> (0 < n)%nat -> chunks (S f) n (b ++ B) = b :: chunks f n B.
Proof.
  intros n b B f Hb Hn. destruct b as [|x b]; [simpl in Hb; lia|].
  transitivity (firstn n ((x :: b) ++ B) :: chunks f n (skipn n ((x :: b) ++ B))); [reflexivity|].
  rewrite firstn_app, skipn_app, Hb, Nat.sub_diag, firstn_O, app_nil_r, skipn_O, firstn_all2, skipn_all2 by lia. reflexivity.
Qed.
Lemma runs_blocks : forall st B st', runs st B st' -> regs_ok st -> Forall byte B -> forall f, (List.length B <= f)%nat ->
  fold_left (block_step code_F code_G rfc_H rfc_I) (chunks f 64 B) (tup st) = tup st' /\ regs_ok st'.
Proof.
  induction 1 as [st|st b B st' Hb H IH]; intros HS HB f Hf.
  - destruct f; split; auto.
  - apply Forall_app in HB. destruct HB as (HB1 & HB2). rewrite app_length in Hf.
    destruct f as [|f]; [lia|].
    rewrite (chunks_app 64 b B f Hb ltac:(lia)).
    rewrite fold_cons. destruct (transform_block st b HS Hb HB1) as (T1 & T2). rewrite <- T1. apply IH; [exact T2|exact HB2|lia].
Qed.

(** ** Padding *)
Lemma pad_eq : forall M, M ++ tail_of M = pad M.
Proof.
  intros M. unfold tail_of, pad. cbv zeta. f_equal. set (len := N.of_nat (List.length M)).
  assert (IX : (8 * len) mod U32 / 8 mod 64 = len mod 64).
  { change U32 with (8 * 536870912). rewrite N.mul_mod_distr_l by discriminate. rewrite (N.mul_comm 8 (_ mod _)), N.div_mul by discriminate.
    change 536870912 with (2 ^ 29). change 64 with (2 ^ 6). apply N.bits_inj. intros i. destruct (N.lt_ge_cases i 6) as [L|L].
    - rewrite !N.mod_pow2_bits_low by lia. reflexivity.
    - rewrite !N.mod_pow2_bits_high by exact L. reflexivity. }
  rewrite IX, encode_length. rewrite app_assoc. f_equal.
  assert (Hi : len mod 64 < 64) by (apply N.mod_lt; discriminate). set (i := len mod 64) in *. clearbody i. clear IX.
  assert (P : forall k, (k <= 63)%nat -> firstn (S k) md_padding = [128] ++ repeat 0 k).
  { intros k Hk. unfold md_padding. cbn [firstn app]. f_equal. replace 63%nat with (k + (63 - k))%nat by lia. rewrite repeat_app.
    rewrite firstn_app, repeat_length, Nat.sub_diag, firstn_O, app_nil_r, firstn_all2 by (rewrite repeat_length; lia). reflexivity. }
  destruct (N.ltb_spec i 56) as [K|K].
  - assert (E : (119 - i) mod 64 = 55 - i). { symmetry. apply (N.mod_unique _ _ 1); lia. }
    rewrite E. rewrite <- P by lia. f_equal. lia.
  - rewrite (N.mod_small (119 - i)) by lia. rewrite <- P by lia. f_equal. lia.
Qed.
Lemma bytes_of_ok : forall n x, Forall byte (bytes_of n x).
Proof. intros n x. unfold bytes_of. apply Forall_forall. intros b Hb. apply in_map_iff in Hb. destruct Hb as (i & <- & _). apply N.mod_lt. discriminate. Qed.
Lemma pad_bytes : forall M, Forall byte M -> Forall byte (pad M).
Proof.
  intros M H. unfold pad. apply Forall_app. split; [exact H|]. constructor; [reflexivity|]. apply Forall_app. split.
  - apply Forall_forall. intros b Hb. apply repeat_spec in Hb. subst b. reflexivity.
  - apply bytes_of_ok.
Qed.

Lemma digest_eq : forall M, Forall byte M -> N.of_nat (List.length M) < U32 - 64 ->
  md5_hex M = lower_hex (digest_bytes code_F code_G rfc_H rfc_I M).
Proof.
  intros M HB HL.
  destruct (feed_digest (repeat 0 64) (repeat 0 16) [M]) as (st & R & E).
  { apply repeat_length. } { constructor; [exact HL|constructor]. }
  unfold md5_hex. cbn [fold_left] in E. rewrite E. cbn [concat] in R. rewrite app_nil_r, pad_eq in R.
  destruct (runs_blocks _ _ _ R) with (f := List.length (pad M)) as (F & O).
  { repeat split; reflexivity. } { apply pad_bytes; exact HB. } { lia. }
  unfold digest_bytes. cbv zeta. change (0x67452301, 0xefcdab89, 0x98badcfe, 0x10325476) with (tup start_regs). rewrite F.
  unfold tup. destruct O as (O1 & O2 & O3 & O4). rewrite encode_four by assumption. apply hex_eq.
  cbn [flat_map]. repeat (apply Forall_app; split); try apply bytes_of_ok. constructor.
Qed.

Lemma md5_refuted : exists M, Forall byte M /\ md5_hex M <> rfc_md5 M.
Proof. exists (s2t "abc"). split; [repeat constructor|]. vm_compute. discriminate. Qed.
