(** Encoding, iterating forwards and backwards. *)
From Coq Require Import String List NArith ZArith Bool Lia.
From Verif Require Import Base_model Utf8_model Utf8_spec.
Import ListNotations.
Local Open Scope N_scope.

(** Facts about bytes by inspection. *)
Fixpoint below (n : nat) : list N := match n with O => [] | S m => N.of_nat m :: below m end.
Lemma below_in : forall n x, (N.to_nat x < n)%nat -> In x (below n).
Proof.
  induction n as [|n IH]; intros x H; [lia|]. simpl. destruct (Nat.eq_dec (N.to_nat x) n).
  - left. lia.
  - right. apply IH. lia.
Qed.
Lemma check_below : forall n (P : N -> bool), forallb P (below n) = true -> forall x, x < N.of_nat n -> P x = true.
Proof. intros n P H x Hx. rewrite forallb_forall in H. apply H. apply below_in. lia. Qed.

Lemma cont_byte_eq : forall x, cont_byte x = 128 + x mod 64.
Proof.
  intros x. unfold cont_byte, byte_of.
  assert (E : N.land (N.land (N.lor x 128) 255) 191 = N.lor (N.land x 63) 128).
  { apply N.bits_inj. intros i. rewrite N.lor_spec, !N.land_spec, N.lor_spec.
    destruct (N.ltb_spec i 8) as [H|H].
    - assert (I : i = 0 \/ i = 1 \/ i = 2 \/ i = 3 \/ i = 4 \/ i = 5 \/ i = 6 \/ i = 7) by lia.
      destruct I as [->|[->|[->|[->|[->|[->|[->| ->]]]]]]]; simpl; try (destruct (N.testbit x _); reflexivity);
        rewrite ?andb_true_r, ?andb_false_r, ?orb_false_r, ?orb_true_r; reflexivity.
    - assert (B : forall m, m < 256 -> N.testbit m i = false).
      { intros m Hm. destruct (N.eq_dec m 0) as [->|Hz]; [apply N.bits_0|]. apply N.bits_above_log2.
        assert (N.log2 m < 8) by (apply N.log2_lt_pow2; [lia|exact Hm]). lia. }
      rewrite (B 255), (B 191), (B 63), (B 128) by reflexivity. rewrite !andb_false_r. reflexivity. }
  rewrite E. change 63 with (N.ones 6). rewrite N.land_ones. change (2 ^ 6) with 64.
  assert (H : x mod 64 < 64) by (apply N.mod_lt; discriminate). revert H. generalize (x mod 64). intros y H.
  assert (C := check_below 64 (fun y => N.lor y 128 =? 128 + y) eq_refl y H). apply N.eqb_eq in C. exact C.
Qed.
Lemma shiftr_div : forall c n, N.shiftr c n = c / 2 ^ n.
Proof. intros. apply N.shiftr_div_pow2. Qed.
Lemma lead_2 : forall x, x < 32 -> byte_of (N.lor 0xc0 x) = 0xc0 + x.
Proof. intros x H. assert (C := check_below 32 (fun x => byte_of (N.lor 0xc0 x) =? 0xc0 + x) eq_refl x H). apply N.eqb_eq; exact C. Qed.
Lemma lead_3 : forall x, x < 16 -> byte_of (N.lor 0xe0 x) = 0xe0 + x.
Proof. intros x H. assert (C := check_below 16 (fun x => byte_of (N.lor 0xe0 x) =? 0xe0 + x) eq_refl x H). apply N.eqb_eq; exact C. Qed.
Lemma lead_4 : forall x, x < 8 -> byte_of (N.lor 0xf0 x) = 0xf0 + x.
Proof. intros x H. assert (C := check_below 8 (fun x => byte_of (N.lor 0xf0 x) =? 0xf0 + x) eq_refl x H). apply N.eqb_eq; exact C. Qed.
Lemma ascii_byte : forall x, x < 128 -> byte_of x = x.
Proof. intros x H. assert (C := check_below 128 (fun x => byte_of x =? x) eq_refl x H). apply N.eqb_eq; exact C. Qed.

(** The encoder produces the UTF-8 form, and only that. *)
Lemma encode_one : forall c, scalar c -> exists a, code_point_to_utf8 c = Ok a /\ utf8_of c a.
Proof.
  intros c H. unfold scalar in H. unfold code_point_to_utf8.
  destruct (N.leb_spec 0x110000 c); [lia|].
  destruct (N.ltb_spec c 0x80).
  { eexists. split; [reflexivity|]. rewrite ascii_byte by assumption. constructor; assumption. }
  destruct (N.ltb_spec c 0x800).
  { eexists. split; [reflexivity|]. rewrite cont_byte_eq, shiftr_div. change (2 ^ 6) with 64.
    assert (D := N.div_mod c 64 ltac:(discriminate)). assert (M := N.mod_lt c 64 ltac:(discriminate)).
    assert (c / 64 < 32) by (apply N.div_lt_upper_bound; lia).
    rewrite lead_2 by assumption. rewrite D at 1. apply u8_2; try assumption. lia. }
  destruct (N.ltb_spec c 0x10000).
  { eexists. split; [reflexivity|]. rewrite !cont_byte_eq, !shiftr_div. change (2 ^ 6) with 64. change (2 ^ 12) with 4096.
    assert (D := N.div_mod c 64 ltac:(discriminate)). assert (M := N.mod_lt c 64 ltac:(discriminate)).
    assert (D2 := N.div_mod (c / 64) 64 ltac:(discriminate)). assert (M2 := N.mod_lt (c / 64) 64 ltac:(discriminate)).
    rewrite N.div_div in D2 by discriminate. change (64 * 64) with 4096 in D2.
    assert (c / 4096 < 16) by (apply N.div_lt_upper_bound; lia).
    rewrite lead_3 by assumption.
    replace c with (4096 * (c / 4096) + 64 * ((c / 64) mod 64) + c mod 64) at 1 by lia.
    apply u8_3; try assumption. lia. }
  { eexists. split; [reflexivity|]. rewrite !cont_byte_eq, !shiftr_div. change (2 ^ 6) with 64. change (2 ^ 12) with 4096.
    change (2 ^ 18) with 262144.
    assert (D := N.div_mod c 64 ltac:(discriminate)). assert (M := N.mod_lt c 64 ltac:(discriminate)).
    assert (D2 := N.div_mod (c / 64) 64 ltac:(discriminate)). assert (M2 := N.mod_lt (c / 64) 64 ltac:(discriminate)).
    rewrite N.div_div in D2 by discriminate. change (64 * 64) with 4096 in D2.
    assert (D3 := N.div_mod (c / 4096) 64 ltac:(discriminate)). assert (M3 := N.mod_lt (c / 4096) 64 ltac:(discriminate)).
    rewrite N.div_div in D3 by discriminate. change (4096 * 64) with 262144 in D3.
    assert (c / 262144 < 5) by (apply N.div_lt_upper_bound; lia).
    rewrite lead_4 by lia.
    replace c with (262144 * (c / 262144) + 4096 * ((c / 4096) mod 64) + 64 * ((c / 64) mod 64) + c mod 64) at 1 by lia.
    apply u8_4; try assumption; lia. }
Qed.
Lemma encode_big : forall c, ~ scalar c -> exists m, code_point_to_utf8 c = Throw m.
Proof.
  intros c H. unfold scalar in H. unfold code_point_to_utf8. destruct (N.leb_spec 0x110000 c); [eexists; reflexivity|lia].
Qed.
Lemma encode_text : forall cs, Forall scalar cs -> exists s, encode cs = Ok s /\ utf8_text cs s.
Proof.
  induction 1 as [|c cs Hc Hcs (s & E & U)]; [exists []; split; [reflexivity|constructor]|].
  destruct (encode_one c Hc) as (a & Ea & Ua). exists (a ++ s). simpl. rewrite Ea, E. split; [reflexivity|].
  constructor; assumption.
Qed.

(** ** Iteration *)
Lemma nth_pre : forall (p a s : list N) i, (i < List.length a)%nat ->
  nth_error (p ++ a ++ s) (List.length p + i) = nth_error a i.
Proof.
  intros p a s i H. rewrite nth_error_app2 by lia. replace (List.length p + i - List.length p)%nat with i by lia.
  apply nth_error_app1. exact H.
Qed.
Lemma lead_bits_1 : forall c, c < 128 -> has_bit c 128 = false.
Proof. intros c H. assert (C := check_below 128 (fun c => negb (has_bit c 128)) eq_refl c H). apply negb_true_iff; exact C. Qed.
Lemma lead_bits_2 : forall x, x < 32 -> has_bit (0xC0 + x) 128 = true /\ has_bit (0xC0 + x) 32 = false /\
  N.land (0xC0 + x) 0x1f = x /\ has_bit (0xC0 + x) 64 = true.
Proof.
  intros x H. assert (C := check_below 32 (fun x => has_bit (0xC0 + x) 128 && negb (has_bit (0xC0 + x) 32) &&
    (N.land (0xC0 + x) 0x1f =? x) && has_bit (0xC0 + x) 64) eq_refl x H). cbv beta in C.
  rewrite !andb_true_iff, negb_true_iff, N.eqb_eq in C. tauto.
Qed.
Lemma lead_bits_3 : forall x, x < 16 -> has_bit (0xE0 + x) 128 = true /\ has_bit (0xE0 + x) 32 = true /\
  has_bit (0xE0 + x) 16 = false /\ N.land (0xE0 + x) 0x0f = x /\ has_bit (0xE0 + x) 64 = true.
Proof.
  intros x H. assert (C := check_below 16 (fun x => has_bit (0xE0 + x) 128 && has_bit (0xE0 + x) 32 &&
    negb (has_bit (0xE0 + x) 16) && (N.land (0xE0 + x) 0x0f =? x) && has_bit (0xE0 + x) 64) eq_refl x H). cbv beta in C.
  rewrite !andb_true_iff, negb_true_iff, N.eqb_eq in C. tauto.
Qed.
Lemma lead_bits_4 : forall x, x < 5 -> has_bit (0xF0 + x) 128 = true /\ has_bit (0xF0 + x) 32 = true /\
  has_bit (0xF0 + x) 16 = true /\ N.land (0xF0 + x) 0x07 = x /\ has_bit (0xF0 + x) 64 = true.
Proof.
  intros x H. assert (C := check_below 5 (fun x => has_bit (0xF0 + x) 128 && has_bit (0xF0 + x) 32 &&
    has_bit (0xF0 + x) 16 && (N.land (0xF0 + x) 0x07 =? x) && has_bit (0xF0 + x) 64) eq_refl x H). cbv beta in C.
  rewrite !andb_true_iff, N.eqb_eq in C. tauto.
Qed.
Lemma cont_bits : forall y, y < 64 -> has_bit (0x80 + y) 128 = true /\ has_bit (0x80 + y) 64 = false /\
  N.land (0x80 + y) 0x3f = y.
Proof.
  intros x H. assert (C := check_below 64 (fun y => has_bit (0x80 + y) 128 && negb (has_bit (0x80 + y) 64) &&
    (N.land (0x80 + y) 0x3f =? y)) eq_refl x H). cbv beta in C.
  rewrite !andb_true_iff, negb_true_iff, N.eqb_eq in C. tauto.
Qed.
Lemma utf8_len_pos : forall c a, utf8_of c a -> (1 <= List.length a)%nat.
Proof. intros c a H; destruct H; simpl; lia. Qed.

Lemma deref_at : forall c a, utf8_of c a -> forall p s, it_deref (p ++ a ++ s) (List.length p) = Ok c.
Proof.
  intros c a H p s. unfold it_deref.
  assert (R : forall i b, nth_error a i = Some b -> byte_at (p ++ a ++ s) (List.length p + i) = Ok b).
  { intros i b E. unfold byte_at. rewrite nth_pre; [rewrite E; reflexivity|]. apply nth_error_Some. congruence. }
  replace (byte_at (p ++ a ++ s) (List.length p)) with (byte_at (p ++ a ++ s) (List.length p + 0)) by (f_equal; lia).
  destruct H.
  - rewrite (R 0%nat c eq_refl). cbn [obind]. rewrite lead_bits_1 by assumption. reflexivity.
  - rewrite (R 0%nat _ eq_refl), (R 1%nat _ eq_refl). cbn [obind].
    destruct (lead_bits_2 x ltac:(assumption)) as (-> & -> & -> & _).
    destruct (cont_bits y ltac:(assumption)) as (_ & _ & ->). rewrite N.shiftl_mul_pow2. f_equal. change (2 ^ 6) with 64. lia.
  - rewrite (R 0%nat _ eq_refl), (R 1%nat _ eq_refl), (R 2%nat _ eq_refl). cbn [obind].
    destruct (lead_bits_3 x ltac:(assumption)) as (-> & -> & -> & -> & _).
    destruct (cont_bits y ltac:(assumption)) as (_ & _ & ->). destruct (cont_bits z ltac:(assumption)) as (_ & _ & ->).
    rewrite !N.shiftl_mul_pow2. f_equal. change (2 ^ 6) with 64. change (2 ^ 12) with 4096. lia.
  - rewrite (R 0%nat _ eq_refl), (R 1%nat _ eq_refl), (R 2%nat _ eq_refl), (R 3%nat _ eq_refl). cbn [obind].
    destruct (lead_bits_4 w ltac:(assumption)) as (-> & -> & -> & -> & _).
    destruct (cont_bits x ltac:(assumption)) as (_ & _ & ->).
    destruct (cont_bits y ltac:(assumption)) as (_ & _ & ->). destruct (cont_bits z ltac:(assumption)) as (_ & _ & ->).
    rewrite !N.shiftl_mul_pow2. f_equal. change (2 ^ 6) with 64. change (2 ^ 12) with 4096. change (2 ^ 18) with 262144. lia.
Qed.
Lemma next_at : forall c a, utf8_of c a -> forall p s,
  it_next (p ++ a ++ s) (List.length p) = Ok (List.length p + List.length a)%nat.
Proof.
  intros c a H p s. unfold it_next.
  assert (R : forall b, nth_error a 0 = Some b -> byte_at (p ++ a ++ s) (List.length p) = Ok b).
  { intros b E. unfold byte_at. replace (List.length p) with (List.length p + 0)%nat by lia. rewrite nth_pre.
    - rewrite E. reflexivity.
    - apply nth_error_Some. congruence. }
  assert (L : Nat.leb (List.length p + List.length a) (List.length (p ++ a ++ s)) = true).
  { apply Nat.leb_le. rewrite !app_length. lia. }
  destruct H; rewrite (R _ eq_refl); cbn [obind].
  - rewrite lead_bits_1 by assumption. simpl in *. rewrite L. reflexivity.
  - destruct (lead_bits_2 x ltac:(assumption)) as (-> & -> & _). simpl in *. rewrite L. reflexivity.
  - destruct (lead_bits_3 x ltac:(assumption)) as (-> & -> & -> & _). simpl in *. rewrite L. reflexivity.
  - destruct (lead_bits_4 w ltac:(assumption)) as (-> & -> & -> & _). simpl in *. rewrite L. reflexivity.
Qed.
Lemma prev_at : forall c a, utf8_of c a -> forall p s,
  it_prev (p ++ a ++ s) (List.length p + List.length a)%nat = Ok (List.length p).
Proof.
  intros c a H p s. unfold it_prev.
  assert (R : forall i b, nth_error a i = Some b -> byte_at (p ++ a ++ s) (i + List.length p) = Ok b).
  { intros i b E. unfold byte_at. rewrite Nat.add_comm, nth_pre; [rewrite E; reflexivity|]. apply nth_error_Some. congruence. }
  rewrite Nat.add_comm.
  destruct H; cbn [List.length Nat.add step_back obind].
  - pose proof (R 0%nat _ eq_refl) as R0; cbn [Nat.add] in R0; rewrite R0. cbn [obind]. rewrite lead_bits_1 by assumption. reflexivity.
  - pose proof (R 1%nat _ eq_refl) as R1; cbn [Nat.add] in R1; rewrite R1. cbn [obind]. destruct (cont_bits y ltac:(assumption)) as (-> & _ & _). cbn [step_back obind].
    pose proof (R 0%nat _ eq_refl) as R0; cbn [Nat.add] in R0; rewrite R0. cbn [obind]. destruct (lead_bits_2 x ltac:(assumption)) as (_ & _ & _ & ->). reflexivity.
  - pose proof (R 2%nat _ eq_refl) as R2; cbn [Nat.add] in R2; rewrite R2. cbn [obind]. destruct (cont_bits z ltac:(assumption)) as (-> & _ & _). cbn [step_back obind].
    pose proof (R 1%nat _ eq_refl) as R1; cbn [Nat.add] in R1; rewrite R1. cbn [obind]. destruct (cont_bits y ltac:(assumption)) as (_ & -> & _). cbn [step_back obind].
    pose proof (R 0%nat _ eq_refl) as R0; cbn [Nat.add] in R0; rewrite R0. cbn [obind]. destruct (lead_bits_3 x ltac:(assumption)) as (_ & _ & _ & _ & ->). reflexivity.
  - pose proof (R 3%nat _ eq_refl) as R3; cbn [Nat.add] in R3; rewrite R3. cbn [obind]. destruct (cont_bits z ltac:(assumption)) as (-> & _ & _). cbn [step_back obind].
    pose proof (R 2%nat _ eq_refl) as R2; cbn [Nat.add] in R2; rewrite R2. cbn [obind]. destruct (cont_bits y ltac:(assumption)) as (_ & -> & _). cbn [step_back obind].
    pose proof (R 1%nat _ eq_refl) as R1; cbn [Nat.add] in R1; rewrite R1. cbn [obind]. destruct (cont_bits x ltac:(assumption)) as (_ & -> & _). cbn [step_back obind].
    reflexivity.
Qed.
Lemma forward_from : forall cs s, utf8_text cs s -> forall p f, (List.length s <= f)%nat ->
  walk_forward f (p ++ s) (List.length p) = Ok cs.
Proof.
  induction 1 as [|c a cs b Hc Hcs IH]; intros p f Hf.
  - rewrite app_nil_r. destruct f; simpl; rewrite Nat.eqb_refl; reflexivity.
  - assert (La := utf8_len_pos c a Hc). rewrite app_length in Hf.
    destruct f as [|f]; [lia|]. cbn [walk_forward].
    replace (Nat.eqb (List.length p) (List.length (p ++ a ++ b))) with false
      by (symmetry; apply Nat.eqb_neq; rewrite !app_length; lia).
    rewrite (deref_at c a Hc). cbn [obind]. rewrite (next_at c a Hc). cbn [obind].
    replace (p ++ a ++ b) with ((p ++ a) ++ b) by (rewrite <- app_assoc; reflexivity).
    rewrite <- app_length. rewrite IH by lia. reflexivity.
Qed.
Lemma utf8_text_snoc : forall cs s, utf8_text cs s -> forall c a, utf8_of c a -> utf8_text (cs ++ [c]) (s ++ a).
Proof.
  induction 1 as [|d a' cs b Hd Hcs IH]; intros c a Hc.
  - simpl. rewrite <- (app_nil_r a). constructor; [assumption|constructor].
  - simpl. rewrite <- app_assoc. constructor; [assumption|]. apply IH. assumption.
Qed.
Lemma utf8_text_inv_snoc : forall cs c s, utf8_text (cs ++ [c]) s -> exists p a, s = p ++ a /\ utf8_text cs p /\ utf8_of c a.
Proof.
  induction cs as [|d cs IH]; intros c s H; simpl in H; inversion H; subst.
  - match goal with K : utf8_text [] _ |- _ => inversion K; subst end. exists [], a. rewrite app_nil_r.
    repeat split; [constructor|assumption].
  - destruct (IH c b ltac:(assumption)) as (p & a' & -> & Hp & Ha). exists (a ++ p), a'. rewrite app_assoc.
    repeat split; [constructor; assumption|assumption].
Qed.
Lemma backward_from : forall cs s, utf8_text cs s -> forall q f, (List.length s <= f)%nat ->
  walk_backward f (s ++ q) (List.length s) = Ok (rev cs).
Proof.
  intros cs. induction cs as [|c cs IH] using rev_ind; intros s H q f Hf.
  - inversion H; subst. destruct f; reflexivity.
  - apply utf8_text_inv_snoc in H. destruct H as (p & a & -> & Hp & Ha).
    assert (La := utf8_len_pos c a Ha). rewrite app_length in *. destruct f as [|f]; [lia|]. cbn [walk_backward].
    replace (Nat.eqb (List.length p + List.length a) 0) with false by (symmetry; apply Nat.eqb_neq; lia).
    rewrite <- app_assoc. rewrite (prev_at c a Ha). cbn [obind]. rewrite (deref_at c a Ha). cbn [obind].
    rewrite (IH p Hp (a ++ q) f) by lia. rewrite rev_app_distr. reflexivity.
Qed.
Lemma utf8_inverse : forall cs, Forall scalar cs -> exists s, encode cs = Ok s /\ utf8_text cs s /\
  walk_forward (List.length s) s 0 = Ok cs /\ walk_backward (List.length s) s (List.length s) = Ok (rev cs).
Proof.
  intros cs H. destruct (encode_text cs H) as (s & E & U). exists s. split; [exact E|]. split; [exact U|]. split.
  - apply (forward_from cs s U []). lia.
  - pose proof (backward_from cs s U [] (List.length s) ltac:(lia)) as B. rewrite app_nil_r in B. exact B.
Qed.
(** The encoding is injective, so texts may stand for their UTF-8 bytes. *)
Lemma encode_inj : forall cs ds s, Forall scalar cs -> Forall scalar ds -> encode cs = Ok s -> encode ds = Ok s -> cs = ds.
Proof.
  intros cs ds s Hc Hd Ec Ed. destruct (utf8_inverse cs Hc) as (s1 & E1 & _ & W1 & _).
  destruct (utf8_inverse ds Hd) as (s2 & E2 & _ & W2 & _). congruence.
Qed.
