(** Words as bytes. *)
From Coq Require Import String List NArith ZArith Bool Lia Sorting.Sorted.
From Verif Require Import Base_model Utf8_model Utf8_spec Utf8_proofs Grammar_model Trie_model TextOrder_spec Trie_spec LexDiag_spec
  TextOrder_proofs Trie_proofs TrieRegex_proofs ByteTrie_model ByteTrie_spec ByteTrie_proofs TrieBytes_model TrieBytes_spec.
Import ListNotations.
Local Open Scope N_scope.

(** ** Reading *)
Definition wide (b : N) : nat :=
  if has_bit b 128 then if has_bit b 32 then (if has_bit b 16 then 4%nat else 3%nat) else 2%nat else 1%nat.
Definition wide' (b : N) : nat :=
  if b <? 128 then 1%nat else if b <? 160 then 2%nat else if b <? 176 then 3%nat else if b <? 192 then 4%nat
  else if b <? 224 then 2%nat else if b <? 240 then 3%nat else 4%nat.
Lemma wide_same : forall b, b < 256 -> wide b = wide' b.
Proof.
  intros b H. assert (C := check_below 256 (fun b => Nat.eqb (wide b) (wide' b)) eq_refl b H). apply Nat.eqb_eq; exact C.
Qed.
Lemma width_wide : forall b, b < 256 -> width b (wide b).
Proof.
  intros b H. rewrite wide_same by exact H. unfold wide'.
  destruct (N.ltb_spec b 128); [constructor; lia|]. destruct (N.ltb_spec b 160); [constructor; lia|].
  destruct (N.ltb_spec b 176); [constructor; lia|]. destruct (N.ltb_spec b 192); [constructor; lia|].
  destruct (N.ltb_spec b 224); [constructor; lia|]. destruct (N.ltb_spec b 240); constructor; lia.
Qed.
Lemma width_one : forall b n m, width b n -> width b m -> n = m.
Proof. intros b n m H K. destruct H; inversion K; subst; try reflexivity; lia. Qed.
Lemma width_is : forall b n, b < 256 -> width b n -> wide b = n.
Proof. intros b n H W. exact (width_one b _ _ (width_wide b H) W). Qed.
Lemma land_bits : forall b, N.land b 0x1f = b mod 32 /\ N.land b 0x0f = b mod 16 /\ N.land b 7 = b mod 8 /\ N.land b 0x3f = b mod 64.
Proof.
  intros b. change 0x1f with (N.ones 5). change 0x0f with (N.ones 4). change 7 with (N.ones 3). change 0x3f with (N.ones 6).
  rewrite !N.land_ones. repeat split.
Qed.
Lemma deref_cases : forall b r, it_deref (b :: r) 0 =
  match wide b with
  | 1%nat => Ok b
  | 2%nat => match r with x :: _ => Ok (64 * (b mod 32) + x mod 64) | _ => UB end
  | 3%nat => match r with x :: y :: _ => Ok (4096 * (b mod 16) + 64 * (x mod 64) + y mod 64) | _ => UB end
  | _ => match r with x :: y :: z :: _ => Ok (262144 * (b mod 8) + 4096 * (x mod 64) + 64 * (y mod 64) + z mod 64) | _ => UB end
  end.
Proof.
  intros b r. unfold it_deref, wide, byte_at. cbn [nth_error Nat.add obind].
  destruct (land_bits b) as (B1 & B2 & B3 & _).
  destruct (has_bit b 128); [|reflexivity]. destruct (has_bit b 32); [destruct (has_bit b 16)|].
  - destruct r as [|x [|y [|z r]]]; cbn [nth_error obind]; try reflexivity.
    destruct (land_bits x) as (_ & _ & _ & ->). destruct (land_bits y) as (_ & _ & _ & ->). destruct (land_bits z) as (_ & _ & _ & ->).
    rewrite B3, !N.shiftl_mul_pow2. f_equal. change (2 ^ 18) with 262144. change (2 ^ 12) with 4096. change (2 ^ 6) with 64. lia.
  - destruct r as [|x [|y r]]; cbn [nth_error obind]; try reflexivity.
    destruct (land_bits x) as (_ & _ & _ & ->). destruct (land_bits y) as (_ & _ & _ & ->).
    rewrite B2, !N.shiftl_mul_pow2. f_equal. change (2 ^ 12) with 4096. change (2 ^ 6) with 64. lia.
  - destruct r as [|x r]; cbn [nth_error obind]; try reflexivity.
    destruct (land_bits x) as (_ & _ & _ & ->). rewrite B1, !N.shiftl_mul_pow2. f_equal. change (2 ^ 6) with 64. lia.
Qed.
Lemma next_cases : forall b r, it_next (b :: r) 0 = if Nat.leb (wide b) (S (List.length r)) then Ok (wide b) else UB.
Proof. intros b r. unfold it_next, byte_at. cbn [nth_error obind Nat.add List.length]. reflexivity. Qed.
Lemma wide_range : forall b, wide b = 1%nat \/ wide b = 2%nat \/ wide b = 3%nat \/ wide b = 4%nat.
Proof. intros b. unfold wide. destruct (has_bit b 128), (has_bit b 32), (has_bit b 16); auto. Qed.
(** The first character, or the bytes end within it. *)
Lemma first_cases : forall b r, b < 256 ->
  (exists a c s, b :: r = a ++ s /\ one_code a c /\ first_code (b :: r) = Ok (c, s)) \/
  ((S (List.length r) < wide b)%nat /\ first_code (b :: r) = UB).
Proof.
  intros b r H. assert (W := width_wide b H). unfold first_code. rewrite deref_cases, next_cases.
  destruct (wide_range b) as [E|[E|[E|E]]]; rewrite E in *.
  - left. exists [b], b, r. repeat split. constructor. exact W.
  - destruct r as [|x r]; [right; split; [cbn; lia|reflexivity]|]. left.
    exists [b; x], (64 * (b mod 32) + x mod 64), r. repeat split. constructor. exact W.
  - destruct r as [|x [|y r]]; [right; split; [cbn; lia|reflexivity]|right; split; [cbn; lia|reflexivity]|]. left.
    exists [b; x; y], (4096 * (b mod 16) + 64 * (x mod 64) + y mod 64), r. repeat split. constructor. exact W.
  - destruct r as [|x [|y [|z r]]]; [right; split; [cbn; lia|reflexivity]|right; split; [cbn; lia|reflexivity]|right; split; [cbn; lia|reflexivity]|]. left.
    exists [b; x; y; z], (262144 * (b mod 8) + 4096 * (x mod 64) + 64 * (y mod 64) + z mod 64), r. repeat split. constructor. exact W.
Qed.
Lemma one_head : forall a c, one_code a c -> exists b r n, a = b :: r /\ width b n /\ List.length a = n.
Proof. intros a c H. destruct H; eexists _, _, _; split; [reflexivity|split; [eassumption|reflexivity]|reflexivity|split; [eassumption|reflexivity]|reflexivity|split; [eassumption|reflexivity]|reflexivity|split; [eassumption|reflexivity]]. Qed.
Lemma one_length : forall a c, one_code a c -> (1 <= List.length a)%nat.
Proof. intros a c H. destruct H; cbn; lia. Qed.
Lemma one_unique : forall a c, one_code a c -> forall d, one_code a d -> c = d.
Proof.
  intros a c H. destruct H; intros d K; inversion K; subst; reflexivity.
Qed.
Lemma one_first : forall a c, one_code a c -> Forall is_byte a -> forall s, first_code (a ++ s) = Ok (c, s).
Proof.
  intros a c H B s. destruct (one_head a c H) as (b & r & n & -> & W & L). inversion B as [|? ? Hb Hr]; subst.
  destruct (first_cases b (r ++ s) Hb) as [(a' & c' & s' & E & O & F)|(L & F)].
  - destruct (one_head a' c' O) as (b' & r' & n' & -> & W' & L'). cbn [app] in E. injection E as -> E.
    assert (n' = List.length (b' :: r)) by exact (width_one b' _ _ W' W). cbn [List.length] in L', H0.
    assert (A : r = r' /\ s = s').
    { assert (List.length r = List.length r') by lia. clear -E H1. revert r' E H1.
      induction r as [|x r IH]; intros [|y r'] E H1; try discriminate H1; [auto|].
      cbn [app] in E. injection E as -> E. injection H1 as H1. destruct (IH r' E H1) as (-> & ->). auto. }
    destruct A as (-> & ->). rewrite (one_unique _ _ H _ O). exact F.
  - exfalso. rewrite (width_is b _ Hb W), app_length in L. cbn [List.length] in L. lia.
Qed.

(** Every byte string is read to its end or cut within a character. *)
Lemma bytes_app : forall a s, Forall is_byte (a ++ s) -> Forall is_byte a /\ Forall is_byte s.
Proof. intros a s H. apply Forall_app. exact H. Qed.
Lemma codes_or_cut : forall n s, (List.length s <= n)%nat -> Forall is_byte s -> (exists cs, codes s cs) \/ (exists cs, cut_after s cs).
Proof.
  induction n as [|n IH]; intros s L B.
  - destruct s; [|cbn in L; lia]. left. exists []. constructor.
  - destruct s as [|b r]; [left; exists []; constructor|]. inversion B as [|? ? Hb Hr]; subst.
    destruct (first_cases b r Hb) as [(a & c & s & E & O & F)|(W & F)].
    + rewrite E in *. destruct (bytes_app _ _ B) as (Ba & Bs). rewrite app_length in L. assert (La := one_length a c O).
      destruct (IH s ltac:(lia) Bs) as [(cs & H)|(cs & a' & b' & r' & m & -> & H & W & K)].
      * left. exists (c :: cs). constructor; assumption.
      * right. exists (c :: cs), (a ++ a'), b', r', m. rewrite <- app_assoc. repeat split; try assumption. constructor; assumption.
    + right. exists [], [], b, r, (wide b). repeat split; [constructor|apply width_wide; exact Hb|exact W].
Qed.

(** ** Walking *)
Lemma walk_shift : forall f p s pos, walk_forward f (p ++ s) (List.length p + pos) = walk_forward f s pos.
Proof.
  assert (BA : forall (p s : list N) i, byte_at (p ++ s) (List.length p + i) = byte_at s i).
  { intros p s i. unfold byte_at. rewrite nth_error_app2 by lia. replace (List.length p + i - List.length p)%nat with i by lia. reflexivity. }
  induction f as [|f IH]; intros p s pos; cbn [walk_forward]; rewrite app_length;
    replace (Nat.eqb (List.length p + pos) (List.length p + List.length s)) with (Nat.eqb pos (List.length s))
      by (destruct (Nat.eqb_spec pos (List.length s)), (Nat.eqb_spec (List.length p + pos) (List.length p + List.length s)); lia || reflexivity);
    destruct (Nat.eqb pos (List.length s)); try reflexivity.
  assert (D : it_deref (p ++ s) (List.length p + pos) = it_deref s pos).
  { unfold it_deref. rewrite <- !Nat.add_assoc, !BA. reflexivity. }
  rewrite D. destruct (it_deref s pos) as [c| |]; cbn [obind]; try reflexivity.
  unfold it_next. rewrite BA. destruct (byte_at s pos) as [b| |]; cbn [obind]; try reflexivity.
  rewrite app_length.
  match goal with |- context [Nat.leb (List.length p + pos + ?o) _] => generalize o end. intros o.
  replace (Nat.leb (List.length p + pos + o) (List.length p + List.length s)) with (Nat.leb (pos + o) (List.length s))
    by (destruct (Nat.leb_spec (pos + o) (List.length s)), (Nat.leb_spec (List.length p + pos + o) (List.length p + List.length s)); lia || reflexivity).
  destruct (Nat.leb (pos + o) (List.length s)); cbn [obind]; [|reflexivity]. rewrite <- Nat.add_assoc, IH. reflexivity.
Qed.
Lemma walk_first : forall f b r, walk_forward (S f) (b :: r) 0 = obind (first_code (b :: r)) (fun cw => obind (walk_forward f (snd cw) 0) (fun cs => Ok (fst cw :: cs))).
Proof.
  intros f b r. cbn [walk_forward]. change (Nat.eqb 0 (List.length (b :: r))) with false. cbv iota. unfold first_code.
  destruct (it_deref (b :: r) 0) as [c| |]; cbn [obind]; try reflexivity. rewrite next_cases.
  destruct (Nat.leb_spec (wide b) (S (List.length r))) as [L|L]; cbn [obind fst snd]; [|reflexivity].
  assert (E : walk_forward f (b :: r) (wide b) = walk_forward f (skipn (wide b) (b :: r)) 0).
  { rewrite <- (firstn_skipn (wide b) (b :: r)) at 1.
    assert (K : List.length (firstn (wide b) (b :: r)) = wide b) by (rewrite firstn_length; cbn [List.length]; lia).
    rewrite <- (walk_shift f (firstn (wide b) (b :: r)) (skipn (wide b) (b :: r)) 0), K, Nat.add_0_r. reflexivity. }
  rewrite E. reflexivity.
Qed.
Lemma walk_codes : forall s cs, codes s cs -> Forall is_byte s -> forall f, (List.length s <= f)%nat -> walk_forward f s 0 = Ok cs.
Proof.
  induction 1 as [|a c s cs O H IH]; intros B f L.
  - destruct f; reflexivity.
  - destruct (bytes_app _ _ B) as (Ba & Bs). rewrite app_length in L. assert (La := one_length a c O).
    destruct f as [|f]; [lia|]. assert (F := one_first a c O Ba s). destruct (one_head a c O) as (b & r & n & -> & _ & _).
    cbn [app] in *. rewrite walk_first, F. cbn [obind fst snd]. rewrite (IH Bs f) by (cbn [List.length] in L; lia). reflexivity.
Qed.
Lemma walk_cut : forall s cs, cut_after s cs -> Forall is_byte s -> forall f, (List.length s <= f)%nat -> walk_forward f s 0 = UB.
Proof.
  intros s cs (a & b & r & n & -> & H & W & K). induction H as [|a' c s cs O H IH]; intros B f L.
  - cbn [app] in *. destruct f as [|f]; [cbn in L; lia|]. inversion B as [|? ? Hb Hr]; subst. rewrite walk_first.
    destruct (first_cases b r Hb) as [(x & c & s & E & O & F)|(_ & F)]; [|rewrite F; reflexivity].
    exfalso. destruct (one_head x c O) as (b' & r' & n' & -> & W' & L'). cbn [app] in E. injection E as <- E.
    rewrite (width_one _ _ _ W' W) in L'. subst r. cbn [List.length] in *. rewrite app_length in K. lia.
  - rewrite <- app_assoc in *. destruct (bytes_app _ _ B) as (Ba & Bs). rewrite app_length in L. assert (La := one_length a' c O).
    destruct f as [|f]; [lia|]. assert (F := one_first a' c O Ba (s ++ b :: r)). destruct (one_head a' c O) as (b' & r' & n' & -> & _ & _).
    cbn [app] in *. rewrite walk_first, F. cbn [obind fst snd]. rewrite (IH Bs f) by (cbn [List.length] in L; lia). reflexivity.
Qed.
Lemma walk_exact : forall s, Forall is_byte s ->
  (forall cs, walk_forward (List.length s) s 0 = Ok cs <-> codes s cs) /\
  (walk_forward (List.length s) s 0 = UB <-> exists cs, cut_after s cs) /\
  (forall m, walk_forward (List.length s) s 0 <> Throw m).
Proof.
  intros s B. destruct (codes_or_cut (List.length s) s (le_n _) B) as [(cs & H)|(cs & H)].
  - assert (E := walk_codes s cs H B (List.length s) (le_n _)). rewrite E. split; [|split].
    + intros ds. split; [intros K; injection K as <-; exact H|]. intros K. rewrite (walk_codes s ds K B (List.length s) (le_n _)) in E. congruence.
    + split; [discriminate|]. intros (ds & K). rewrite (walk_cut s ds K B (List.length s) (le_n _)) in E. discriminate E.
    + discriminate.
  - assert (E := walk_cut s cs H B (List.length s) (le_n _)). rewrite E. split; [|split].
    + intros ds. split; [discriminate|]. intros K. rewrite (walk_codes s ds K B (List.length s) (le_n _)) in E. discriminate E.
    + split; [eauto|reflexivity].
    + discriminate.
Qed.

(** Valid UTF-8 is read as it is meant. *)
Lemma utf8_one : forall c a, utf8_of c a -> one_code a c.
Proof.
  assert (M64 : forall y, y < 64 -> (0x80 + y) mod 64 = y).
  { intros y H. change 0x80 with (2 * 64). rewrite N.add_comm, N.mod_add by discriminate. apply N.mod_small. exact H. }
  intros c a H. destruct H as [c H|x y Hx Hy L|x y z Hx Hy Hz L|w x y z Hw Hx Hy Hz L K].
  - constructor. constructor. exact H.
  - replace (64 * x + y) with (64 * ((0xC0 + x) mod 32) + (0x80 + y) mod 64); [constructor; constructor; lia|].
    rewrite M64 by assumption. change 0xC0 with (6 * 32). rewrite N.add_comm with (n := 6 * 32), N.mod_add by discriminate.
    rewrite N.mod_small by assumption. reflexivity.
  - replace (4096 * x + 64 * y + z) with (4096 * ((0xE0 + x) mod 16) + 64 * ((0x80 + y) mod 64) + (0x80 + z) mod 64); [constructor; constructor; lia|].
    rewrite !M64 by assumption. change 0xE0 with (14 * 16). rewrite N.add_comm with (n := 14 * 16), N.mod_add by discriminate.
    rewrite N.mod_small by assumption. reflexivity.
  - replace (262144 * w + 4096 * x + 64 * y + z) with (262144 * ((0xF0 + w) mod 8) + 4096 * ((0x80 + x) mod 64) + 64 * ((0x80 + y) mod 64) + (0x80 + z) mod 64);
      [constructor; constructor; lia|].
    rewrite !M64 by assumption. change 0xF0 with (30 * 8). rewrite N.add_comm with (n := 30 * 8), N.mod_add by discriminate.
    rewrite N.mod_small by lia. reflexivity.
Qed.
Lemma utf8_codes : forall cs s, utf8_text cs s -> codes s cs.
Proof. induction 1 as [|c a cs b Hc H IH]; constructor; [apply utf8_one; exact Hc|exact IH]. Qed.
Lemma utf8_is_byte : forall cs s, utf8_text cs s -> Forall is_byte s.
Proof. intros cs s H. exact (utf8_text_bytes cs s H). Qed.
Lemma codes_one : forall s cs ds, Forall is_byte s -> codes s cs -> codes s ds -> cs = ds.
Proof.
  intros s cs ds B H K. assert (E := walk_codes s cs H B _ (le_n _)). rewrite (walk_codes s ds K B _ (le_n _)) in E. congruence.
Qed.
Lemma codes_cut : forall s cs ds, Forall is_byte s -> codes s cs -> cut_after s ds -> False.
Proof.
  intros s cs ds B H K. assert (E := walk_codes s cs H B _ (le_n _)). rewrite (walk_cut s ds K B _ (le_n _)) in E. discriminate E.
Qed.
Lemma codes_nil : forall s, codes s [] -> s = [].
Proof. intros s H. inversion H. reflexivity. Qed.
Lemma codes_empty : forall cs, codes [] cs -> cs = [].
Proof. intros cs H. inversion H as [|a c s cs' O K E]; [reflexivity|]. destruct (one_head a c O) as (b & r & n & -> & _ & _). discriminate. Qed.
Lemma codes_null : forall s cs, codes s cs -> (s = [] <-> cs = []).
Proof. intros s cs H. split; intros ->; [apply codes_empty; exact H|apply codes_nil; exact H]. Qed.

(** ** Adding and finding *)
Lemma u_add_step : forall f b r t, u_add (S f) (b :: r) t = obind (first_code (b :: r)) (fun cw =>
          match t with
          | Node n e kids =>
              obind (match kid_find (fst cw) kids with
                     | Some (Node m e' ks) => match snd cw with [] => Ok (Node m true ks) | _ => u_add f (snd cw) (Node m e' ks) end
                     | None => u_add f (snd cw) (new_trie (match snd cw with [] => true | _ => false end))
                     end)
                    (fun k => Ok (Node (n + 1) e (kid_set (fst cw) k kids)))
          end).
Proof. reflexivity. Qed.
Lemma u_add_codes : forall w cs, codes w cs -> Forall is_byte w -> forall f t, (List.length w <= f)%nat -> u_add f w t = Ok (add_word cs t).
Proof.
  induction 1 as [|a c s cs O H IH]; intros B f t L.
  - rewrite add_word_nil. destruct f; reflexivity.
  - destruct (bytes_app _ _ B) as (Ba & Bs). rewrite app_length in L. assert (La := one_length a c O).
    destruct f as [|f]; [lia|]. assert (F := one_first a c O Ba s). destruct (one_head a c O) as (b & r & n & -> & _ & _).
    assert (LL : (List.length s <= f)%nat) by (cbn [List.length] in L; lia).
    cbn [app] in *. rewrite u_add_step, F. cbn [obind fst snd]. destruct t as [m e kids]. cbn [add_word].
    assert (N := codes_null s cs H).
    destruct (kid_find c kids) as [[m' e' ks]|].
    + destruct s as [|s0 s'].
      * destruct cs; [|destruct N as (N & _); discriminate (N eq_refl)]. reflexivity.
      * destruct cs; [destruct N as (_ & N); discriminate (N eq_refl)|]. rewrite (IH Bs f _ LL). reflexivity.
    + rewrite (IH Bs f _ LL). cbn [obind].
      replace (match s with [] => true | _ :: _ => false end) with (match cs with [] => true | _ :: _ => false end); [reflexivity|].
      destruct s, cs; try reflexivity; [destruct N as (N & _); discriminate (N eq_refl)|destruct N as (_ & N); discriminate (N eq_refl)].
Qed.
Lemma first_cut : forall b r n, b < 256 -> width b n -> (S (List.length r) < n)%nat -> first_code (b :: r) = UB.
Proof.
  intros b r n Hb W K. destruct (first_cases b r Hb) as [(x & c & s & E & O & F)|(_ & F)]; [|exact F].
  exfalso. destruct (one_head x c O) as (b' & r' & n' & -> & W' & L'). cbn [app] in E. injection E as <- E.
  rewrite (width_one _ _ _ W' W) in L'. subst r. cbn [List.length] in *. rewrite app_length in K. lia.
Qed.
Lemma u_add_cut : forall w cs, cut_after w cs -> Forall is_byte w -> forall f t, (List.length w <= f)%nat -> u_add f w t = UB.
Proof.
  intros s cs (a & b & r & n & -> & H & W & K). induction H as [|a' c s cs O H IH]; intros B f t L.
  - cbn [app] in *. destruct f as [|f]; [cbn in L; lia|]. inversion B as [|? ? Hb Hr]; subst. rewrite u_add_step, (first_cut b r n Hb W K). reflexivity.
  - rewrite <- app_assoc in *. destruct (bytes_app _ _ B) as (Ba & Bs). rewrite app_length in L. assert (La := one_length a' c O).
    destruct f as [|f]; [lia|]. assert (F := one_first a' c O Ba (s ++ b :: r)). destruct (one_head a' c O) as (b' & r' & n' & -> & _ & _).
    assert (LL : (List.length (s ++ b :: r) <= f)%nat) by (cbn [List.length] in L; lia).
    cbn [app] in *. rewrite u_add_step, F. cbn [obind fst snd]. destruct t as [m e kids].
    destruct (s ++ b :: r) as [|s0 s'] eqn:E; [destruct s; discriminate|].
    destruct (kid_find c kids) as [[m' e' ks]|]; rewrite (IH Bs f _ LL); reflexivity.
Qed.
Lemma u_add_exact : forall w t, Forall is_byte w ->
  (forall cs, codes w cs -> u_add_word w t = Ok (add_word cs t)) /\ ((exists cs, cut_after w cs) -> u_add_word w t = UB).
Proof.
  intros w t B. split; [intros cs H; apply u_add_codes; auto|intros (cs & H); apply (u_add_cut w cs); auto].
Qed.
Fixpoint follow (fin : trie -> bool) (cs : list N) (t : trie) : bool :=
  match cs with
  | [] => fin t
  | c :: cs' => match kid_find c (t_kids t) with Some k => follow fin cs' k | None => false end
  end.
Lemma u_find_codes : forall fin w cs, codes w cs -> Forall is_byte w -> forall f t, (List.length w <= f)%nat -> u_find f fin w t = Ok (follow fin cs t).
Proof.
  intros fin. induction 1 as [|a c s cs O H IH]; intros B f t L.
  - destruct f; reflexivity.
  - destruct (bytes_app _ _ B) as (Ba & Bs). rewrite app_length in L. assert (La := one_length a c O).
    destruct f as [|f]; [lia|]. assert (F := one_first a c O Ba s). destruct (one_head a c O) as (b & r & n & -> & _ & _).
    assert (LL : (List.length s <= f)%nat) by (cbn [List.length] in L; lia).
    cbn [app] in *. cbn [u_find]. rewrite F. cbn [obind fst snd follow]. destruct (kid_find c (t_kids t)); [apply IH; assumption|reflexivity].
Qed.
Lemma u_find_cut : forall fin w cs, cut_after w cs -> Forall is_byte w -> forall f t, (List.length w <= f)%nat ->
  u_find f fin w t = if is_prefix cs t then UB else Ok false.
Proof.
  intros fin s cs (a & b & r & n & -> & H & W & K). induction H as [|a' c s cs O H IH]; intros B f t L.
  - cbn [app] in *. destruct f as [|f]; [cbn in L; lia|]. inversion B as [|? ? Hb Hr]; subst. cbn [u_find]. rewrite (first_cut b r n Hb W K). reflexivity.
  - rewrite <- app_assoc in *. destruct (bytes_app _ _ B) as (Ba & Bs). rewrite app_length in L. assert (La := one_length a' c O).
    destruct f as [|f]; [lia|]. assert (F := one_first a' c O Ba (s ++ b :: r)). destruct (one_head a' c O) as (b' & r' & n' & -> & _ & _).
    assert (LL : (List.length (s ++ b :: r) <= f)%nat) by (cbn [List.length] in L; lia).
    cbn [app] in *. cbn [u_find is_prefix]. rewrite F. cbn [obind fst snd]. destruct (kid_find c (t_kids t)); [apply IH; assumption|reflexivity].
Qed.
Lemma follow_word : forall cs t, follow t_fin cs t = is_word cs t.
Proof. induction cs as [|c cs IH]; intros t; [reflexivity|]. cbn [follow is_word]. destruct (kid_find c (t_kids t)); [apply IH|reflexivity]. Qed.
Lemma follow_prefix : forall cs t, follow (fun _ => true) cs t = is_prefix cs t.
Proof. induction cs as [|c cs IH]; intros t; [reflexivity|]. cbn [follow is_prefix]. destruct (kid_find c (t_kids t)); [apply IH|reflexivity]. Qed.
Lemma u_find_exact : forall w t, Forall is_byte w ->
  (forall cs, codes w cs -> u_is_word w t = Ok (is_word cs t) /\ u_is_prefix w t = Ok (is_prefix cs t)) /\
  (forall cs, cut_after w cs -> u_is_word w t = (if is_prefix cs t then UB else Ok false) /\ u_is_prefix w t = (if is_prefix cs t then UB else Ok false)).
Proof.
  intros w t B. split; intros cs H.
  - rewrite <- follow_word, <- follow_prefix. split; apply u_find_codes; auto.
  - split; apply u_find_cut; auto.
Qed.

(** ** A trie of words *)
Lemma u_fill_codes : forall ws css, Forall2 codes ws css -> Forall (Forall is_byte) ws -> forall t,
  u_fill ws t = Ok (fold_left (fun t w => add_word w t) css t).
Proof.
  induction 1 as [|w cs ws css H Hs IH]; intros B t; [reflexivity|]. inversion B; subst. cbn [u_fill fold_left].
  rewrite (proj1 (u_add_exact w t ltac:(assumption)) cs H). cbn [obind]. apply IH. assumption.
Qed.
Lemma u_trie_codes : forall ws css, Forall2 codes ws css -> Forall (Forall is_byte) ws -> u_trie_of ws = Ok (trie_of css).
Proof. intros ws css H B. apply u_fill_codes; assumption. Qed.
Lemma u_fill_cut : forall ws w cs, In w ws -> cut_after w cs -> Forall (Forall is_byte) ws -> forall t, u_fill ws t = UB.
Proof.
  induction ws as [|v ws IH]; intros w cs Hin H B t; [destruct Hin|]. inversion B as [|? ? Bv Bs]; subst. cbn [u_fill]. destruct Hin as [->|Hin].
  - rewrite (proj2 (u_add_exact w t ltac:(assumption)) (ex_intro _ cs H)). reflexivity.
  - destruct (codes_or_cut (List.length v) v (le_n _) ltac:(assumption)) as [(ds & K)|(ds & K)].
    + rewrite (proj1 (u_add_exact v t ltac:(assumption)) ds K). cbn [obind]. apply (IH w cs); assumption.
    + rewrite (proj2 (u_add_exact v t ltac:(assumption)) (ex_intro _ ds K)). reflexivity.
Qed.
Lemma all_codes : forall ws, Forall (Forall is_byte) ws -> (exists css, Forall2 codes ws css) \/ (exists w cs, In w ws /\ cut_after w cs).
Proof.
  induction 1 as [|w ws B Bs IH]; [left; exists []; constructor|].
  destruct (codes_or_cut (List.length w) w (le_n _) B) as [(ds & K)|(ds & K)].
  - destruct IH as [(css & H)|(v & cs & Hin & H)]; [left; exists (ds :: css); constructor; assumption|right; exists v, cs; split; [right; exact Hin|exact H]].
  - right. exists w, ds. split; [left; reflexivity|exact K].
Qed.
Lemma u_trie_exact : forall ws, Forall (Forall is_byte) ws ->
  (u_trie_of ws = UB <-> exists w cs, In w ws /\ cut_after w cs) /\
  (forall t, u_trie_of ws = Ok t <-> exists css, Forall2 codes ws css /\ t = trie_of css) /\
  (forall m, u_trie_of ws <> Throw m).
Proof.
  intros ws B. destruct (all_codes ws B) as [(css & H)|(w & cs & Hin & H)].
  - rewrite (u_trie_codes ws css H B). split; [|split].
    + split; [discriminate|]. intros (w & cs & Hin & K). destruct (forall2_in_l _ _ _ _ _ H w Hin) as (ds & _ & L).
      exfalso. refine (codes_cut w ds cs _ L K). rewrite Forall_forall in B. apply B. exact Hin.
    + intros t. split.
      * intros E. exists css. split; [exact H|]. injection E as <-. reflexivity.
      * intros (dss & K & ->). rewrite <- (u_trie_codes ws css H B). apply u_trie_codes; assumption.
    + discriminate.
  - assert (E : u_trie_of ws = UB) by exact (u_fill_cut ws w cs Hin H B _). rewrite E. split; [|split].
    + split; [intros _; exists w, cs; auto|reflexivity].
    + intros t. split; [discriminate|]. intros (css & K & ->). rewrite (u_trie_codes ws css K B) in E. discriminate E.
    + discriminate.
Qed.
Lemma u_member : forall ws t w, Forall (Forall is_byte) ws -> Forall is_byte w -> u_trie_of ws = Ok t ->
  (u_is_word w t = Ok true <-> exists v cs, In v ws /\ cs <> [] /\ codes v cs /\ codes w cs) /\
  (u_is_prefix w t = Ok true <-> w = [] \/ exists v cs ds, In v ws /\ codes v (cs ++ ds) /\ codes w cs).
Proof.
  intros ws t w B Bw E. apply (proj1 (proj2 (u_trie_exact ws B))) in E. destruct E as (css & H & ->).
  destruct (trie_words css) as (T1 & T2 & _). destruct (u_find_exact w (trie_of css) Bw) as (F1 & F2).
  assert (U : forall v cs, In v ws -> codes v cs -> In cs css).
  { intros v cs Hin K. destruct (forall2_in_l _ _ _ _ _ H v Hin) as (ds & Hd & L). rewrite Forall_forall in B. rewrite (codes_one v cs ds (B v Hin) K L). exact Hd. }
  split; split.
  - intros E. destruct (codes_or_cut (List.length w) w (le_n _) Bw) as [(cs & K)|(cs & K)].
    + destruct (F1 cs K) as (G & _). rewrite G in E. injection E as E. apply T1 in E. destruct E as (Hn & Hin).
      destruct (forall2_in_r _ _ _ _ _ H cs Hin) as (v & Hv & L). exists v, cs. auto.
    + destruct (F2 cs K) as (G & _). rewrite G in E. destruct (is_prefix cs (trie_of css)); discriminate.
  - intros (v & cs & Hin & Hn & K & L). destruct (F1 cs L) as (G & _). rewrite G. f_equal. apply T1. split; [exact Hn|]. exact (U v cs Hin K).
  - intros E. destruct (codes_or_cut (List.length w) w (le_n _) Bw) as [(cs & K)|(cs & K)].
    + destruct (F1 cs K) as (_ & G). rewrite G in E. injection E as E. apply T2 in E. destruct E as [->|(x & Hin & s & ->)].
      * left. apply codes_nil. exact K.
      * destruct (forall2_in_r _ _ _ _ _ H _ Hin) as (v & Hv & L). right. exists v, cs, s. auto.
    + destruct (F2 cs K) as (_ & G). rewrite G in E. destruct (is_prefix cs (trie_of css)); discriminate.
  - intros [->|(v & cs & ds & Hin & K & L)].
    + destruct (F1 [] cd_nil) as (_ & G). rewrite G. reflexivity.
    + destruct (F1 cs L) as (_ & G). rewrite G. f_equal. apply T2. right. exists (cs ++ ds). split; [exact (U v _ Hin K)|]. exists ds. reflexivity.
Qed.
