(** The arrays of src/md5.cpp. *)
From Coq Require Import String List NArith Bool Lia Arith.
From Verif Require Import Base_model Md5_model Md5_spec Md5_proofs Md5Mem_model Md5Mem_spec.
Import ListNotations.
Local Open Scope N_scope.

(** ** Arrays *)
Lemma copy_length : forall dst i src, (i + List.length src <= List.length dst)%nat -> List.length (copy_at dst i src) = List.length dst.
Proof. intros dst i src H. unfold copy_at. rewrite !app_length, skipn_length, firstn_length_le; lia. Qed.
Lemma mem_copy_ok : forall dst i src j n, (i + n <= List.length dst)%nat -> (j + n <= List.length src)%nat ->
  mem_copy dst (N.of_nat i) src (N.of_nat j) (N.of_nat n) = Done (copy_at dst i (firstn n (skipn j src))).
Proof.
  intros dst i src j n H1 H2. unfold mem_copy, size.
  replace (N.of_nat i + N.of_nat n <=? N.of_nat (List.length dst)) with true by (symmetry; apply N.leb_le; lia).
  replace (N.of_nat j + N.of_nat n <=? N.of_nat (List.length src)) with true by (symmetry; apply N.leb_le; lia).
  rewrite !Nat2N.id. reflexivity.
Qed.
Lemma write_ok : forall a i x, (i < List.length a)%nat -> write_at a (N.of_nat i) x = Done (copy_at a i [x]).
Proof.
  intros a i x H. unfold write_at. change 0 with (N.of_nat 0). change 1 with (N.of_nat 1).
  rewrite mem_copy_ok; [reflexivity|lia|cbn [List.length]; lia].
Qed.
Lemma read_ok : forall a i, (i < List.length a)%nat -> read_at a (N.of_nat i) = Done (nth i a 0).
Proof.
  intros a i H. unfold read_at. rewrite Nat2N.id. rewrite (nth_error_nth' a 0 H). reflexivity.
Qed.
Lemma copy_firstn : forall a i src, (i + List.length src <= List.length a)%nat ->
  firstn (i + List.length src) (copy_at a i src) = firstn i a ++ src.
Proof.
  intros a i src H. unfold copy_at. rewrite app_assoc. rewrite firstn_app.
  assert (E : List.length (firstn i a ++ src) = (i + List.length src)%nat). { rewrite app_length, firstn_length_le; lia. }
  rewrite <- E at 1. rewrite firstn_all, E, Nat.sub_diag. cbn [firstn]. apply app_nil_r.
Qed.
Lemma w32_small : forall n, (N.of_nat n < U32) -> w32 (N.of_nat n) = N.of_nat n.
Proof. intros n H. unfold w32. apply N.mod_small. exact H. Qed.
Lemma skipn_four : forall (l : list N) n, (n + 4 <= List.length l)%nat ->
  skipn n l = nth n l 0 :: nth (n + 1) l 0 :: nth (n + 2) l 0 :: nth (n + 3) l 0 :: skipn (n + 4) l.
Proof.
  intros l n H. revert l H. induction n as [|n IH]; intros l H.
  - destruct l as [|a [|b [|c [|d l]]]]; cbn [List.length] in H; try lia. reflexivity.
  - destruct l as [|a l]; cbn [List.length] in H; [lia|]. cbn [skipn nth Nat.add]. apply IH. lia.
Qed.

(** ** decode, encode *)
Lemma add_w32 : forall j k, (j <= 64)%nat -> (k <= 4)%nat -> w32 (N.of_nat j + N.of_nat k) = N.of_nat (j + k).
Proof. intros j k Hj Hk. rewrite <- Nat2N.inj_add. apply w32_small. unfold U32. lia. Qed.
Definition four (b0 b1 b2 b3 : N) : N := N.lor (N.lor (N.lor b0 (N.shiftl b1 8)) (N.shiftl b2 16)) (N.shiftl b3 24).
Lemma decode_step : forall f output input base i j, (j < 64)%nat -> (i < List.length output)%nat -> List.length output = 16%nat ->
  (base + j + 4 <= List.length input)%nat ->
  decode_loop (S f) output input (N.of_nat base) (N.of_nat i) (N.of_nat j) 64 =
  decode_loop f (copy_at output i [four (nth (base + j) input 0) (nth (base + j + 1) input 0) (nth (base + j + 2) input 0) (nth (base + j + 3) input 0)])
    input (N.of_nat base) (N.of_nat (i + 1)) (N.of_nat (j + 4)) 64.
Proof.
  intros f output input base i j Hj Hi H16 Hb. cbn [decode_loop].
  replace (N.of_nat j <? 64) with true by (symmetry; apply N.ltb_lt; lia).
  assert (R : forall k, (k < 4)%nat -> read_at input (N.of_nat base + N.of_nat (j + k)) = Done (nth (base + j + k) input 0)).
  { intros k Hk. rewrite <- Nat2N.inj_add. rewrite read_ok by lia. f_equal. f_equal. lia. }
  assert (W := fun k => add_w32 j k ltac:(lia)).
  replace (w32 (N.of_nat j + 1)) with (N.of_nat (j + 1)) by (symmetry; apply (W 1%nat); lia).
  replace (w32 (N.of_nat j + 2)) with (N.of_nat (j + 2)) by (symmetry; apply (W 2%nat); lia).
  replace (w32 (N.of_nat j + 3)) with (N.of_nat (j + 3)) by (symmetry; apply (W 3%nat); lia).
  replace (w32 (N.of_nat j + 4)) with (N.of_nat (j + 4)) by (symmetry; apply (W 4%nat); lia).
  replace (w32 (N.of_nat i + 1)) with (N.of_nat (i + 1)) by (symmetry; apply (add_w32 i 1); lia).
  assert (R0 := R 0%nat ltac:(lia)). rewrite !Nat.add_0_r in R0. rewrite R0. cbn [rbind].
  rewrite (R 1%nat) by lia. cbn [rbind]. rewrite (R 2%nat) by lia. cbn [rbind]. rewrite (R 3%nat) by lia. cbn [rbind].
  rewrite write_ok by exact Hi. reflexivity.
Qed.
Lemma decode_all : forall k output input base i j fuel, (i + k = 16)%nat -> j = (4 * i)%nat -> List.length output = 16%nat ->
  (base + 64 <= List.length input)%nat -> (k < fuel)%nat ->
  decode_loop fuel output input (N.of_nat base) (N.of_nat i) (N.of_nat j) 64 =
  Done (firstn i output ++ md_decode (firstn (4 * k) (skipn (base + j) input))).
Proof.
  induction k as [|k IH]; intros output input base i j fuel Hk Hj H16 Hb Hf; (destruct fuel as [|f]; [lia|]).
  - cbn [decode_loop]. replace (N.of_nat j <? 64) with false by (symmetry; apply N.ltb_ge; lia).
    change (4 * 0)%nat with 0%nat. cbn [firstn md_decode]. rewrite app_nil_r, firstn_all2 by lia. reflexivity.
  - rewrite decode_step by lia.
    rewrite IH by (try lia; rewrite copy_length; cbn [List.length]; lia). f_equal.
    set (w := four _ _ _ _).
    assert (CF := copy_firstn output i [w] ltac:(cbn [List.length]; lia)). cbn [List.length] in CF. rewrite CF.
    rewrite (skipn_four input (base + j)) by lia.
    replace (4 * S k)%nat with (S (S (S (S (4 * k))))) by lia. cbn [firstn md_decode].
    rewrite <- app_assoc. replace (base + (j + 4))%nat with (base + j + 4)%nat by lia. reflexivity.
Qed.
Lemma decode_ok : forall fuel output input base, List.length output = 16%nat -> (base + 64 <= List.length input)%nat -> (16 < fuel)%nat ->
  decode_loop fuel output input (N.of_nat base) 0 0 64 = Done (md_decode (firstn 64 (skipn base input))).
Proof.
  intros fuel output input base H1 H2 H3. change 0 with (N.of_nat 0).
  rewrite (decode_all 16 output input base 0 0) by lia. cbn [firstn app]. rewrite Nat.add_0_r. reflexivity.
Qed.
Lemma encode_step : forall f output input i j len, (N.of_nat j < len) -> (i < List.length input)%nat -> (j + 4 <= List.length output)%nat ->
  (List.length output <= 16)%nat -> (i <= 16)%nat ->
  exists output', List.length output' = List.length output /\ firstn (j + 4) output' = firstn j output ++ md_encode [nth i input 0] /\
  encode_loop (S f) output input (N.of_nat i) (N.of_nat j) len = encode_loop f output' input (N.of_nat (i + 1)) (N.of_nat (j + 4)) len.
Proof.
  intros f output input i j len Hj Hi Ho H16 Hi16. cbn [encode_loop].
  replace (N.of_nat j <? len) with true by (symmetry; apply N.ltb_lt; exact Hj).
  assert (W := fun k => add_w32 j k ltac:(lia)).
  replace (w32 (N.of_nat j + 1)) with (N.of_nat (j + 1)) by (symmetry; apply (W 1%nat); lia).
  replace (w32 (N.of_nat j + 2)) with (N.of_nat (j + 2)) by (symmetry; apply (W 2%nat); lia).
  replace (w32 (N.of_nat j + 3)) with (N.of_nat (j + 3)) by (symmetry; apply (W 3%nat); lia).
  replace (w32 (N.of_nat j + 4)) with (N.of_nat (j + 4)) by (symmetry; apply (W 4%nat); lia).
  replace (w32 (N.of_nat i + 1)) with (N.of_nat (i + 1)) by (symmetry; apply (add_w32 i 1); lia).
  rewrite read_ok by exact Hi. cbn [rbind]. set (w := nth i input 0).
  rewrite write_ok by lia. cbn [rbind].
  set (o1 := copy_at output j [N.land w 255]).
  assert (L1 : List.length o1 = List.length output) by (apply copy_length; cbn [List.length]; lia).
  assert (F1 := copy_firstn output j [N.land w 255] ltac:(cbn [List.length]; lia)). cbn [List.length] in F1. fold o1 in F1.
  rewrite write_ok by lia. cbn [rbind].
  set (o2 := copy_at o1 (j + 1) [N.land (N.shiftr w 8) 255]).
  assert (L2 : List.length o2 = List.length output) by (rewrite <- L1; apply copy_length; cbn [List.length]; lia).
  assert (F2 := copy_firstn o1 (j + 1) [N.land (N.shiftr w 8) 255] ltac:(cbn [List.length]; lia)). cbn [List.length] in F2. fold o2 in F2.
  rewrite write_ok by lia. cbn [rbind].
  set (o3 := copy_at o2 (j + 2) [N.land (N.shiftr w 16) 255]).
  assert (L3 : List.length o3 = List.length output) by (rewrite <- L2; apply copy_length; cbn [List.length]; lia).
  assert (F3 := copy_firstn o2 (j + 2) [N.land (N.shiftr w 16) 255] ltac:(cbn [List.length]; lia)). cbn [List.length] in F3. fold o3 in F3.
  rewrite write_ok by lia. cbn [rbind].
  set (o4 := copy_at o3 (j + 3) [N.land (N.shiftr w 24) 255]).
  assert (L4 : List.length o4 = List.length output) by (rewrite <- L3; apply copy_length; cbn [List.length]; lia).
  assert (F4 := copy_firstn o3 (j + 3) [N.land (N.shiftr w 24) 255] ltac:(cbn [List.length]; lia)). cbn [List.length] in F4. fold o4 in F4.
  exists o4. split; [exact L4|]. split; [|reflexivity].
  replace (j + 4)%nat with (j + 3 + 1)%nat by lia. rewrite F4.
  replace (j + 3)%nat with (j + 2 + 1)%nat by lia. rewrite F3.
  replace (j + 2)%nat with (j + 1 + 1)%nat by lia. rewrite F2, F1. rewrite <- !app_assoc. reflexivity.
Qed.
Lemma encode_all : forall k output input i j fuel, (i + k = List.length input)%nat -> j = (4 * i)%nat ->
  List.length output = (4 * List.length input)%nat -> (List.length input <= 4)%nat -> (k < fuel)%nat ->
  encode_loop fuel output input (N.of_nat i) (N.of_nat j) (N.of_nat (4 * List.length input)) =
  Done (firstn j output ++ md_encode (skipn i input)).
Proof.
  induction k as [|k IH]; intros output input i j fuel Hk Hj Ho Hi Hf; (destruct fuel as [|f]; [lia|]).
  - cbn [encode_loop]. replace (N.of_nat j <? N.of_nat (4 * List.length input)) with false by (symmetry; apply N.ltb_ge; lia).
    rewrite (skipn_all2 input) by lia. cbn [md_encode flat_map]. rewrite app_nil_r, firstn_all2 by lia. reflexivity.
  - destruct (encode_step f output input i j (N.of_nat (4 * List.length input))) as (o' & L & F & E); try lia.
    rewrite E, IH by lia. rewrite F. f_equal. rewrite <- app_assoc. f_equal.
    assert (SK : skipn i input = nth i input 0 :: skipn (i + 1) input).
    { clear -Hk. revert input Hk. induction i as [|i IHi]; intros input Hk; (destruct input as [|a l]; cbn [List.length] in Hk; [lia|]);
      [reflexivity|]. cbn [skipn nth Nat.add]. apply IHi. lia. }
    rewrite SK. unfold md_encode. cbn [flat_map]. rewrite app_nil_r. reflexivity.
Qed.
Lemma encode_ok : forall fuel output input, List.length output = (4 * List.length input)%nat -> (List.length input <= 4)%nat -> (4 < fuel)%nat ->
  encode_loop fuel output input 0 0 (N.of_nat (4 * List.length input)) = Done (md_encode input).
Proof.
  intros fuel output input H1 H2 H3. change 0 with (N.of_nat 0).
  rewrite (encode_all (List.length input) output input 0 0) by lia. reflexivity.
Qed.

(** ** transform *)
Lemma calls_ok : forall x calls r, Forall (fun k => (snd (fst (fst k)) < List.length x)%nat) calls ->
  calls_loop x calls r = Done (fold_left (md_call x) calls r).
Proof.
  intros x calls. induction calls as [|[[[m i] s] ac] calls IH]; intros r H; [reflexivity|].
  inversion H as [|? ? Hi Hc]; subst. cbn [snd fst] in Hi. cbn [calls_loop fold_left].
  rewrite read_ok by exact Hi. cbn [rbind]. rewrite IH by exact Hc. reflexivity.
Qed.
Lemma decode_length : forall n l, List.length l = (4 * n)%nat -> List.length (md_decode l) = n.
Proof.
  induction n as [|n IH]; intros l H.
  - destruct l; [reflexivity|discriminate].
  - destruct l as [|a [|b [|c [|d l]]]]; cbn [List.length] in H; try lia. cbn [md_decode List.length]. rewrite IH; lia.
Qed.
Lemma calls_bound : Forall (fun k => (snd (fst (fst k)) < 16)%nat) md_calls.
Proof. apply Forall_forall. intros k Hk. apply Nat.ltb_lt. revert k Hk. apply forallb_forall. vm_compute. reflexivity. Qed.
Lemma transform_ok : forall fuel fr st input base, List.length (f_x fr) = 16%nat -> (base + 64 <= List.length input)%nat -> (16 < fuel)%nat ->
  transform_mem fuel fr st input (N.of_nat base) = Done (md_transform st (firstn 64 (skipn base input))).
Proof.
  intros fuel fr st input base H1 H2 H3. unfold transform_mem. rewrite decode_ok by assumption. cbn [rbind].
  rewrite calls_ok; [reflexivity|].
  rewrite (decode_length 16); [exact calls_bound|]. rewrite firstn_length_le; [reflexivity|]. rewrite skipn_length. lia.
Qed.

(** ** update *)
Lemma firstn_skipn_app : forall (l : list N) a b, (a + b <= List.length l)%nat -> firstn b (skipn a l) = skipn a (firstn (a + b) l).
Proof.
  intros l a b H. rewrite <- (firstn_skipn a l) at 2. rewrite firstn_app.
  assert (E : List.length (firstn a l) = a) by (apply firstn_length_le; lia).
  rewrite E, (firstn_all2 (firstn a l)) by lia. replace (a + b - a)%nat with b by lia.
  rewrite skipn_app, E, Nat.sub_diag. cbn [skipn]. rewrite (skipn_all2 (firstn a l)) by lia. reflexivity.
Qed.
Lemma loop_ok : forall fuel fr input len, List.length (f_x fr) = 16%nat -> (16 < fuel)%nat -> (len <= List.length input)%nat ->
  forall n' n st i, (i <= len)%nat -> (forall q, (i + 64 * q <= len)%nat -> N.of_nat (i + 64 * q + 64) < U32) ->
  (len - i < 64 + 64 * n')%nat -> (len - i < 64 * n)%nat ->
  block_loop fuel fr n st input (N.of_nat i) (N.of_nat len) =
  Done (fst (md_blocks n' st (skipn i (firstn len input))), N.of_nat (len - List.length (snd (md_blocks n' st (skipn i (firstn len input)))))).
Proof.
  intros fuel fr input len Hx Hfuel Hlen.
  assert (LL : List.length (firstn len input) = len) by (apply firstn_length_le; exact Hlen).
  induction n' as [|n' IH]; intros n st i Hi NW H1 H2; (destruct n as [|n]; [lia|]); cbn [block_loop].
  - assert (W0 := NW 0%nat ltac:(lia)). replace (N.of_nat i + 64) with (N.of_nat (i + 64 * 0 + 64)) by lia. rewrite w32_small by exact W0.
    replace (N.of_nat (i + 64 * 0 + 64) <=? N.of_nat len) with false by (symmetry; apply N.leb_gt; lia).
    cbn [md_blocks fst snd]. rewrite skipn_length, LL. do 3 f_equal. lia.
  - assert (W0 := NW 0%nat ltac:(lia)). replace (N.of_nat i + 64) with (N.of_nat (i + 64 * 0 + 64)) by lia. rewrite w32_small by exact W0.
    cbn [md_blocks]. rewrite skipn_length, LL.
    destruct (Nat.leb_spec 64 (len - i)) as [C|C].
    + replace (N.of_nat (i + 64 * 0 + 64) <=? N.of_nat len) with true by (symmetry; apply N.leb_le; lia).
      rewrite transform_ok by lia. cbn [rbind].
      replace (i + 64 * 0 + 64)%nat with (i + 64)%nat by lia.
      rewrite IH; try lia.
      2:{ intros q Hq. assert (X := NW (S q) ltac:(lia)). replace (i + 64 + 64 * q + 64)%nat with (i + 64 * S q + 64)%nat by lia. exact X. }
      assert (S1 : firstn 64 (skipn i (firstn len input)) = firstn 64 (skipn i input)).
      { rewrite !firstn_skipn_app by lia. rewrite firstn_firstn. do 2 f_equal. lia. }
      assert (S2 : skipn 64 (skipn i (firstn len input)) = skipn (i + 64) (firstn len input)).
      { clear. generalize (firstn len input). intros l. revert l. induction i as [|i IHi]; intros l; [reflexivity|].
        destruct l as [|a l]; [rewrite !skipn_nil; reflexivity|]. cbn [skipn Nat.add]. apply IHi. }
      rewrite S1, S2. reflexivity.
    + replace (N.of_nat (i + 64 * 0 + 64) <=? N.of_nat len) with false by (symmetry; apply N.leb_gt; lia).
      cbn [fst snd]. rewrite skipn_length, LL. do 3 f_equal. lia.
Qed.

Lemma waiting_lt : forall m, waiting m < 64.
Proof. intros m. unfold waiting. apply N.mod_lt. discriminate. Qed.
Lemma update_ok : forall fuel fr m input length, List.length (f_x fr) = 16%nat -> List.length (m_buffer m) = 64%nat ->
  (16 < fuel)%nat -> length < 64 * N.of_nat fuel -> length <= size input -> length < too_long m ->
  update_mem fuel fr m input length = Done (md_update m (firstn (N.to_nat length) input)).
Proof.
  intros fuel fr m input length Hx Hb Hf Hfuel Hlen Hshort.
  assert (HW := waiting_lt m).
  unfold size in Hlen. remember (N.to_nat length) as len eqn:E. assert (El : length = N.of_nat len) by lia. subst length. clear E.
  assert (LL : List.length (firstn len input) = len) by (apply firstn_length_le; lia).
  unfold update_mem, md_update. rewrite LL. fold (waiting m).
  remember (N.to_nat (waiting m)) as w eqn:E. assert (Ew : waiting m = N.of_nat w) by lia.
  unfold too_long in Hshort. rewrite Ew in *. clear E.
  replace (64 - N.of_nat w) with (N.of_nat (64 - w)) by lia. cbv zeta.
  destruct (Nat.leb_spec (64 - w) len) as [C|C].
  - replace (N.of_nat (64 - w) <=? N.of_nat len) with true by (symmetry; apply N.leb_le; lia).
    change 0 with (N.of_nat 0) at 1. rewrite mem_copy_ok by lia. cbn [rbind skipn].
    set (buf := copy_at (m_buffer m) w (firstn (64 - w) input)).
    assert (BL : List.length buf = 64%nat).
    { unfold buf. rewrite copy_length; [exact Hb|]. rewrite firstn_length_le; lia. }
    change 0 with (N.of_nat 0) at 1. rewrite transform_ok by lia. cbn [rbind skipn].
    assert (FB : firstn 64 buf = buf) by (apply firstn_all2; lia). rewrite FB.
    rewrite (loop_ok fuel fr input len Hx Hf ltac:(lia) len fuel (md_transform (m_state m) buf) (64 - w)); try lia.
    2:{ intros q Hq. unfold U32. destruct (N.eqb_spec (N.of_nat w) 0) as [Z|Z]; change (2 ^ 32) with 4294967296 in Hshort; lia. }
    cbn [rbind fst snd].
    replace (firstn (64 - w) (firstn len input)) with (firstn (64 - w) input) by (rewrite firstn_firstn; f_equal; lia). fold buf.
    destruct (md_blocks len (md_transform (m_state m) buf) (skipn (64 - w) (firstn len input))) as [st rest] eqn:EB. cbn [fst snd].
    apply blocks_runs in EB; [|rewrite skipn_length, LL; lia]. destruct EB as (B & EB & _ & LR).
    assert (LS : (List.length B + List.length rest = len - (64 - w))%nat). { rewrite <- app_length, <- EB, skipn_length, LL. reflexivity. }
    replace (w32 (N.of_nat len + U32 - N.of_nat (len - List.length rest))) with (N.of_nat (List.length rest)).
    2:{ symmetry. unfold w32. replace (N.of_nat len + U32 - N.of_nat (len - List.length rest)) with (N.of_nat (List.length rest) + 1 * U32) by lia.
        rewrite N.mod_add by discriminate. apply N.mod_small. unfold U32. lia. }
    change 0 with (N.of_nat 0) at 1. rewrite mem_copy_ok by lia. cbn [rbind].
    rewrite firstn_skipn_app by lia. replace (len - List.length rest + List.length rest)%nat with len by lia.
    assert (RE : skipn (len - List.length rest) (firstn len input) = rest).
    { rewrite <- (firstn_skipn (64 - w) (firstn len input)). rewrite EB, app_assoc.
      rewrite skipn_app. rewrite skipn_all2.
      - rewrite app_length, firstn_length_le by lia.
        replace (len - List.length rest - (64 - w + List.length B))%nat with 0%nat by lia. reflexivity.
      - rewrite app_length, firstn_length_le by lia. lia. }
    rewrite RE. reflexivity.
  - replace (N.of_nat (64 - w) <=? N.of_nat len) with false by (symmetry; apply N.leb_gt; lia).
    change 0 with (N.of_nat 0) at 1. rewrite mem_copy_ok by lia. cbn [rbind skipn]. reflexivity.
Qed.

(** ** Too long: the loop does not end *)
Lemma loop_endless : forall fuel fr input w length, w < 64 -> length < U32 ->
  (if w =? 0 then U32 - 64 else U32 - w) <= length ->
  forall n st i r, (i + w) mod 64 = 0 -> i < U32 -> block_loop fuel fr n st input i length <> Done r.
Proof.
  intros fuel fr input w length Hw HL Hlong. induction n as [|n IH]; intros st i r Hi HU; cbn [block_loop]; [discriminate|].
  assert (D := N.div_mod (i + w) 64 ltac:(discriminate)). rewrite Hi in D. set (q := (i + w) / 64) in *.
  assert (W : w32 (i + 64) <= length /\ w32 (i + 64) < U32 /\ (w32 (i + 64) + w) mod 64 = 0).
  { assert (M : w32 (i + 64) = i + 64 \/ i + 64 >= U32 /\ w32 (i + 64) = i + 64 - U32).
    { unfold w32. destruct (N.lt_ge_cases (i + 64) U32) as [C|C]; [left; apply N.mod_small; exact C|right].
      split; [lia|]. symmetry. apply (N.mod_unique _ _ 1); unfold U32 in *; lia. }
    assert (B : w32 (i + 64) < U32) by (apply N.mod_lt; discriminate).
    split; [|split; [exact B|]].
    - unfold U32 in *. destruct (N.eqb_spec w 0); destruct M as [M|[G M]]; rewrite M in *; lia.
    - destruct M as [M|[G M]]; rewrite M.
      + replace (i + 64 + w) with ((q + 1) * 64) by lia. apply N.mod_mul. discriminate.
      + replace (i + 64 - U32 + w) with ((q + 1 - 67108864) * 64) by (unfold U32 in *; lia). apply N.mod_mul. discriminate. }
  destruct W as (W1 & W2 & W3). rewrite (proj2 (N.leb_le _ _) W1).
  destruct (transform_mem fuel fr st input i) as [st'| |]; cbn [rbind]; [apply IH; assumption|discriminate|discriminate].
Qed.
Lemma update_endless : forall fuel fr m input length r, length < 2 ^ 32 -> too_long m <= length -> update_mem fuel fr m input length <> Done r.
Proof.
  intros fuel fr m input length r HL Hlong. assert (HW := waiting_lt m).
  unfold update_mem. fold (waiting m). unfold too_long in Hlong. change (2 ^ 32) with U32 in *.
  assert (C : 64 - waiting m <= length). { unfold U32 in *. destruct (N.eqb_spec (waiting m) 0); lia. }
  cbv zeta. rewrite (proj2 (N.leb_le _ _) C).
  destruct (mem_copy _ _ _ _ _) as [buf| |]; cbn [rbind]; try discriminate.
  destruct (transform_mem _ _ _ _ _) as [st| |]; cbn [rbind]; try discriminate.
  destruct (block_loop fuel fr fuel st input (64 - waiting m) length) as [sti| |] eqn:E; cbn [rbind]; try discriminate.
  exfalso. revert E. apply (loop_endless fuel fr input (waiting m) length HW HL Hlong).
  - replace (64 - waiting m + waiting m) with 64 by lia. reflexivity.
  - unfold U32. lia.
Qed.
Lemma update_ends_iff : forall fr m input length, List.length (f_x fr) = 16%nat -> List.length (m_buffer m) = 64%nat ->
  length <= size input -> length < 2 ^ 32 ->
  ((exists fuel m', update_mem fuel fr m input length = Done m') <-> length < too_long m).
Proof.
  intros fr m input length Hx Hb Hl H32. split.
  - intros (fuel & m' & E). destruct (N.lt_ge_cases length (too_long m)) as [C|C]; [exact C|].
    exfalso. exact (update_endless fuel fr m input length m' H32 C E).
  - intros C. exists (17 + N.to_nat length)%nat. eexists. apply update_ok; try assumption; lia.
Qed.

(** ** finalize, hexdigest *)
Lemma update_members : forall m input, members_ok m -> members_ok (md_update m input).
Proof.
  intros m input (Hb & Hd). unfold members_ok, md_update. assert (HW := waiting_lt m). unfold waiting in HW.
  cbv zeta. set (w := N.to_nat (m_lo m / 8 mod 64)). assert (Hw : (w < 64)%nat) by lia.
  destruct (Nat.leb_spec (64 - w) (List.length input)) as [C|C].
  - destruct (md_blocks _ _ _) as [st rest] eqn:EB. apply blocks_runs in EB; [|rewrite skipn_length; lia].
    destruct EB as (B & _ & _ & LR). cbn [m_buffer m_digest]. split; [|exact Hd].
    assert (L1 : List.length (copy_at (m_buffer m) w (firstn (64 - w) input)) = 64%nat).
    { rewrite copy_length; [exact Hb|]. rewrite firstn_length_le; lia. }
    rewrite copy_length; [exact L1|]. rewrite L1. lia.
  - cbn [m_buffer m_digest]. split; [|exact Hd]. rewrite copy_length; [exact Hb|]. lia.
Qed.
Lemma short_ok : forall m n, n < 2 ^ 32 - 64 -> n < too_long m.
Proof.
  intros m n H. unfold too_long. assert (HW := waiting_lt m). change (2 ^ 32) with 4294967296 in *. destruct (N.eqb_spec (waiting m) 0); lia.
Qed.
Lemma update_digest : forall m input, m_digest (md_update m input) = m_digest m.
Proof. intros m input. unfold md_update. cbv zeta. destruct (Nat.leb _ _); [|reflexivity]. destruct (md_blocks _ _ _). reflexivity. Qed.
Lemma finalize_ok : forall fuel fr m, sizes_ok fr -> members_ok m -> (16 < fuel)%nat ->
  finalize_mem fuel fr m = Done (md_finalize m).
Proof.
  intros fuel fr m (Hx & Hbits & _) Hm Hf. unfold finalize_mem, md_finalize. destruct (m_final m); [reflexivity|].
  assert (E8 := encode_ok fuel (f_bits fr) [m_lo m; m_hi m] Hbits ltac:(cbn [List.length]; lia) ltac:(lia)).
  cbn [List.length] in E8. change (N.of_nat (4 * 2)) with 8 in E8. rewrite E8. cbn [rbind]. clear E8. cbv zeta.
  fold (waiting m). assert (HW := waiting_lt m).
  set (padlen := if waiting m <? 56 then 56 - waiting m else 120 - waiting m).
  assert (PL : padlen <= 64). { unfold padlen. destruct (N.ltb_spec (waiting m) 56); lia. }
  rewrite update_ok; try assumption.
  - cbn [rbind]. set (m1 := md_update m _). assert (M1 : members_ok m1) by (apply update_members; exact Hm).
    rewrite update_ok; try assumption.
    + cbn [rbind]. change (N.to_nat 8) with 8%nat.
      assert (F8 : firstn 8 (md_encode [m_lo m; m_hi m]) = md_encode [m_lo m; m_hi m]) by reflexivity. rewrite F8.
      set (m2 := md_update m1 _). assert (M2 : members_ok m2) by (apply update_members; exact M1).
      assert (E16 := encode_ok fuel (m_digest m2) [r_a (m_state m2); r_b (m_state m2); r_c (m_state m2); r_d (m_state m2)]
        (proj2 M2) ltac:(cbn [List.length]; lia) ltac:(lia)).
      cbn [List.length] in E16. change (N.of_nat (4 * 4)) with 16 in E16. rewrite E16. reflexivity.
    + exact (proj1 M1).
    + lia.
    + vm_compute. discriminate.
    + apply short_ok. reflexivity.
  - exact (proj1 Hm).
  - lia.
  - apply short_ok. change (2 ^ 32) with 4294967296. lia.
Qed.
Lemma hex_digit_pos : forall d, hex_digit d <> 0.
Proof. intros d. unfold hex_digit. destruct (d <? 10); lia. Qed.
Lemma hex_all : forall k buf digest i fuel, (i + k = 16)%nat -> List.length buf = 33%nat -> List.length digest = 16%nat -> (k < fuel)%nat ->
  exists buf', hex_loop fuel buf digest (N.of_nat i) = Done buf' /\ List.length buf' = 33%nat /\
  firstn 32 buf' = firstn (2 * i) buf ++ flat_map hex_byte (skipn i digest).
Proof.
  induction k as [|k IH]; intros buf digest i fuel Hk Hb Hd Hf; (destruct fuel as [|f]; [lia|]); cbn [hex_loop].
  - replace (N.of_nat i <? 16) with false by (symmetry; apply N.ltb_ge; lia). exists buf. split; [reflexivity|]. split; [exact Hb|].
    rewrite (skipn_all2 digest) by lia. cbn [flat_map]. rewrite app_nil_r. f_equal. lia.
  - replace (N.of_nat i <? 16) with true by (symmetry; apply N.ltb_lt; lia).
    rewrite read_ok by lia. cbn [rbind]. set (d := nth i digest 0).
    replace (N.of_nat i * 2) with (N.of_nat (2 * i)) by lia. change 0 with (N.of_nat 0) at 2. change 3 with (N.of_nat 3) at 1.
    rewrite mem_copy_ok by (try (unfold hex_byte; cbn [List.length app]); lia). cbn [rbind skipn].
    assert (F3 : firstn 3 (hex_byte d ++ [0]) = hex_byte d ++ [0]) by reflexivity. rewrite F3.
    replace (N.of_nat i + 1) with (N.of_nat (S i)) by lia.
    destruct (IH (copy_at buf (2 * i) (hex_byte d ++ [0])) digest (S i) f) as (buf' & E & L & F); try lia.
    { rewrite copy_length; [exact Hb|]. unfold hex_byte. cbn [List.length app]. lia. }
    exists buf'. split; [exact E|]. split; [exact L|]. rewrite F.
    assert (C := copy_firstn buf (2 * i) (hex_byte d ++ [0]) ltac:(unfold hex_byte; cbn [List.length app]; lia)).
    assert (C2 : firstn (2 * S i) (copy_at buf (2 * i) (hex_byte d ++ [0])) = firstn (2 * i) buf ++ hex_byte d).
    { replace (2 * S i)%nat with (Nat.min (2 * S i) (2 * i + List.length (hex_byte d ++ [0]))) by (unfold hex_byte; cbn [List.length app]; lia).
      rewrite <- firstn_firstn, C. rewrite app_assoc, firstn_app.
      assert (X : List.length (firstn (2 * i) buf ++ hex_byte d) = (2 * S i)%nat).
      { rewrite app_length, firstn_length_le by lia. unfold hex_byte. cbn [List.length]. lia. }
      rewrite X, Nat.sub_diag. cbn [firstn]. rewrite app_nil_r. apply firstn_all2. rewrite X. lia. }
    rewrite C2, <- app_assoc. f_equal.
    assert (SK : skipn i digest = d :: skipn (S i) digest).
    { unfold d. clear -Hk Hd. assert (K : (i < List.length digest)%nat) by lia. clear Hk Hd. revert digest K.
      induction i as [|i IHi]; intros digest K; (destruct digest as [|a l]; cbn [List.length] in K; [lia|]); [reflexivity|].
      cbn [skipn nth]. apply (IHi l). lia. }
    rewrite SK. reflexivity.
Qed.
Lemma until_app : forall t r, Forall (fun c => c <> 0) t -> until_nul (t ++ 0 :: r) = Done t.
Proof.
  induction t as [|c t IH]; intros r H; [reflexivity|]. inversion H as [|? ? Hc Ht]; subst. cbn [until_nul app].
  rewrite (proj2 (N.eqb_neq _ _) Hc). rewrite IH by exact Ht. reflexivity.
Qed.
Lemma hexdigest_ok : forall fuel fr m, List.length (f_buf fr) = 33%nat -> List.length (m_digest m) = 16%nat -> (16 < fuel)%nat ->
  hexdigest_mem fuel fr m = Done (md_hexdigest m).
Proof.
  intros fuel fr m Hb Hd Hf. unfold hexdigest_mem, md_hexdigest. destruct (m_final m); [|reflexivity].
  destruct (hex_all 16 (f_buf fr) (m_digest m) 0 fuel) as (buf & E & L & F); try lia.
  change (N.of_nat 0) with 0 in E. rewrite E. cbn [rbind]. change 32 with (N.of_nat 32). rewrite write_ok by lia. cbn [rbind].
  rewrite (firstn_all2 (m_digest m)) by lia. unfold copy_at. rewrite F. change (skipn 0 (m_digest m)) with (m_digest m). cbn [Nat.mul firstn app].
  apply until_app. apply Forall_forall. intros c Hc. apply in_flat_map in Hc. destruct Hc as (d & _ & Hc).
  destruct Hc as [<-|[<-|[]]]; apply hex_digit_pos.
Qed.
Lemma finalize_digest_length : forall m, m_final m = false -> List.length (m_digest (md_finalize m)) = 16%nat.
Proof. intros m H. unfold md_finalize. rewrite H. reflexivity. Qed.
Lemma update_final : forall m input, m_final (md_update m input) = m_final m.
Proof. intros m input. unfold md_update. cbv zeta. destruct (Nat.leb _ _); [|reflexivity]. destruct (md_blocks _ _ _). reflexivity. Qed.

Lemma md5_ok : forall fuel fr bytes, sizes_ok fr -> (16 < fuel)%nat -> size bytes mod 2 ^ 32 < 64 * N.of_nat fuel ->
  size bytes mod 2 ^ 32 < 2 ^ 32 - 64 ->
  md5_mem fuel fr bytes = Done (md5_hex (firstn (N.to_nat (size bytes mod 2 ^ 32)) bytes)).
Proof.
  intros fuel fr bytes (Hx & Hbits & Hbuf & Hbr & Hdg) Hf Hfuel Hl. unfold md5_mem.
  change (w32 (size bytes)) with (size bytes mod 2 ^ 32). set (len := size bytes mod 2 ^ 32) in *.
  assert (LE : len <= size bytes) by (apply N.mod_le; discriminate).
  assert (HM : members_ok (md_init (f_buffer fr) (f_digest fr))) by (split; assumption).
  rewrite update_ok; try assumption.
  2:{ unfold size in *. rewrite app_length. cbn [List.length]. lia. }
  cbn [rbind]. set (t := firstn (N.to_nat len) (bytes ++ [0])).
  assert (Ht : t = firstn (N.to_nat len) bytes).
  { unfold t. rewrite firstn_app. replace (N.to_nat len - List.length bytes)%nat with 0%nat by (unfold size in LE; lia).
    cbn [firstn]. apply app_nil_r. }
  set (m := md_update (md_init (f_buffer fr) (f_digest fr)) t).
  assert (Mm : members_ok m) by (apply update_members; exact HM).
  rewrite finalize_ok; [|repeat split; assumption|exact Mm|exact Hf]. cbn [rbind].
  rewrite hexdigest_ok; [|exact Hbuf|apply finalize_digest_length; unfold m; rewrite update_final; reflexivity|exact Hf].
  f_equal. unfold m. rewrite Ht.
  assert (FE := feeding (f_buffer fr) (f_digest fr) [firstn (N.to_nat len) bytes] Hbr). cbn [concat fold_left] in FE.
  rewrite app_nil_r in FE. apply FE. rewrite firstn_length_le by (unfold size in LE; lia). rewrite N2Nat.id. exact Hl.
Qed.
Lemma md5_endless : forall fuel fr bytes t, 2 ^ 32 - 64 <= size bytes mod 2 ^ 32 -> md5_mem fuel fr bytes <> Done t.
Proof.
  intros fuel fr bytes t H. unfold md5_mem. change (w32 (size bytes)) with (size bytes mod 2 ^ 32).
  destruct (update_mem _ _ _ _ _) as [m| |] eqn:E; cbn [rbind]; try discriminate.
  exfalso. revert E. apply update_endless; [apply N.mod_lt; discriminate|exact H].
Qed.
(** [n] times the letter a. *)
Definition aaa (n : N) : list N := repeat 97 (N.to_nat n).
Lemma aaa_size : forall n, size (aaa n) = n.
Proof. intros n. unfold size, aaa. rewrite repeat_length. apply N2Nat.id. Qed.
Lemma ends_refuted : exists bytes, forall fuel fr t, md5_mem fuel fr bytes <> Done t.
Proof. exists (aaa (2 ^ 32 - 64)). intros fuel fr t. apply md5_endless. rewrite aaa_size. vm_compute. discriminate. Qed.
Lemma whole_refuted : exists a b, size b < size a /\ forall fr fuel, sizes_ok fr -> (16 < fuel)%nat ->
  md5_mem fuel fr a = md5_mem fuel fr b /\ exists t, md5_mem fuel fr b = Done t.
Proof.
  exists (aaa (2 ^ 32)), []. split; [rewrite aaa_size; reflexivity|]. intros fr fuel S F.
  assert (Z : size (aaa (2 ^ 32)) mod 2 ^ 32 = 0) by (rewrite aaa_size; reflexivity).
  rewrite (md5_ok fuel fr [] S F); [|change (size [] mod 2 ^ 32) with 0; lia|reflexivity].
  rewrite (md5_ok fuel fr (aaa (2 ^ 32)) S F); rewrite Z; [|lia|reflexivity].
  split; [reflexivity|]. eexists. reflexivity.
Qed.
Definition some_frame : frame := mkFrame (repeat 1 16) (repeat 2 8) (repeat 3 33) (repeat 4 64) (repeat 5 16).
Lemma mem_example : sizes_ok some_frame /\ md5_mem 17 some_frame (repeat 65 70 ++ repeat 66 3) = Done (s2t "b208398ae65a37c706caeb67da8fc361") /\
  md5_mem 16 some_frame [65] = OutOfFuel /\
  update_mem 17 some_frame (md_init (repeat 4 64) (repeat 5 16)) [65; 66] 3 = OutOfBounds.
Proof. split; [repeat split|]. split; [vm_compute; reflexivity|]. split; vm_compute; reflexivity. Qed.
(** What counts as within the arrays. *)
Lemma bounds_checked : forall a i, (i < size a <-> exists x, read_at a i = Done x) /\ (size a <= i <-> read_at a i = OutOfBounds) /\
  forall b j n, (i + n <= size a /\ j + n <= size b <-> exists c, mem_copy a i b j n = Done c) /\ (size a < i + n \/ size b < j + n <-> mem_copy a i b j n = OutOfBounds).
Proof.
  intros a i. unfold read_at, size. split; [|split].
  - destruct (nth_error a (N.to_nat i)) eqn:E; split; intros H.
    + eauto.
    + assert (K : (N.to_nat i < List.length a)%nat) by (apply nth_error_Some; congruence). lia.
    + apply nth_error_None in E. lia.
    + destruct H. discriminate.
  - destruct (nth_error a (N.to_nat i)) eqn:E; split; intros H; try discriminate; [|reflexivity|].
    + assert (K : (N.to_nat i < List.length a)%nat) by (apply nth_error_Some; congruence). lia.
    + apply nth_error_None in E. lia.
  - intros b j n. unfold mem_copy, size. destruct (N.leb_spec (i + n) (N.of_nat (List.length a))), (N.leb_spec (j + n) (N.of_nat (List.length b))); cbn [andb]; (split; split; intros K; [..]); try (destruct K; discriminate); try discriminate; try lia; eauto.
Qed.
