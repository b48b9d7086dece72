(** Token::enumerate lists the Cartesian product. *)
From Coq Require Import List NArith ZArith Bool Lia Arith FinFun Sorting.Sorted.
From Verif Require Import Base_model Class_model Token_model Search_spec.
Import ListNotations.
Local Open Scope N_scope.

Lemma U64_pos : U64 <> 0.
Proof. discriminate. Qed.

Lemma enum_count_mod : forall ts,
  enum_count ts = (combinations ts) mod U64.
Proof.
  intros ts. unfold enum_count.
  assert (G : forall ts c, fold_left (fun cnt k => mul64 cnt (in_size k)) ts (c mod U64)
                           = (c * combinations ts) mod U64).
  { induction ts0 as [|k ts0 IH]; intros c; cbn [fold_left combinations fold_right].
    - rewrite N.mul_1_r. reflexivity.
    - unfold mul64 at 2. unfold in_size.
      rewrite N.mul_mod_idemp_l by apply U64_pos. rewrite IH.
      fold (combinations ts0). f_equal. lia. }
  specialize (G ts 1). rewrite N.mod_1_l in G by reflexivity. rewrite G, N.mul_1_l. reflexivity.
Qed.

(** Positional digits of [i] in the mixed radix given by the class counts. *)
Fixpoint digits (i : N) (ts : list token) : list intype :=
  match ts with
  | [] => []
  | k :: ts' => token_in k ((i / combinations ts') mod in_size k) :: digits i ts'
  end.

Lemma comb_cons : forall k ts, combinations (k :: ts) = in_size k * combinations ts.
Proof. reflexivity. Qed.

Lemma enum_one_digits : forall ts i num P,
  P = num * combinations ts -> i < P -> P <= 2 ^ 32 ->
  enum_one i P num ts = digits i ts.
Proof.
  induction ts as [|k ts IH]; intros i num P HP Hi HB; [reflexivity|].
  cbn [enum_one digits]. rewrite comb_cons in HP.
  assert (HPpos : 0 < P) by lia.
  assert (Hs : in_size k <> 0) by (intro E; rewrite E in HP; lia).
  assert (Hn : num <> 0) by (intro E; rewrite E in HP; lia).
  assert (HR : combinations ts <> 0) by (intro E; rewrite E in HP; lia).
  assert (HB64 : U64 = 2^32 * 2^32) by reflexivity.
  assert (Hnum' : num * in_size k <= P).
  { rewrite HP. rewrite N.mul_assoc. nia. }
  assert (E1 : mul64 num (in_size k) = num * in_size k).
  { unfold mul64. apply N.mod_small. rewrite HB64. change (2^32) with 4294967296 in *. nia. }
  rewrite E1.
  assert (E2 : mul64 i (num * in_size k) = i * (num * in_size k)).
  { unfold mul64. apply N.mod_small. rewrite HB64. change (2^32) with 4294967296 in *. nia. }
  rewrite E2. f_equal.
  - f_equal. f_equal.
    rewrite HP. rewrite (N.mul_assoc num). rewrite (N.mul_comm (num * in_size k) (combinations ts)).
    rewrite N.div_mul_cancel_r by nia. reflexivity.
  - apply IH; auto. rewrite HP. lia.
Qed.

Lemma digits_mod : forall ts i, digits (i mod combinations ts) ts = digits i ts.
Proof.
  assert (G : forall ts m i, m <> 0 -> combinations ts <> 0 ->
            digits (i mod (m * combinations ts)) ts = digits i ts).
  { induction ts as [|k ts IH]; intros m i Hm Hc; [reflexivity|].
    rewrite comb_cons in *. assert (in_size k <> 0 /\ combinations ts <> 0) as [Hk Ht] by nia.
    cbn [digits]. f_equal.
    - f_equal. set (s := in_size k) in *. set (R := combinations ts) in *.
      replace (m * (s * R)) with (R * (m * s)) by lia.
      rewrite N.mod_mul_r by nia.
      rewrite (N.mul_comm R (_ mod _)), N.div_add by assumption.
      rewrite N.div_small by (apply N.mod_upper_bound; assumption).
      rewrite N.add_0_l.
      rewrite (N.mul_comm m s), N.mod_mul_r by nia.
      rewrite N.mul_comm, N.mod_add by assumption. rewrite N.mod_mod by assumption. reflexivity.
    - rewrite N.mul_assoc. apply IH; nia. }
  intros ts i. destruct (N.eq_dec (combinations ts) 0) as [E|E].
  - rewrite E. destruct i; reflexivity.
  - specialize (G ts 1 i). rewrite N.mul_1_l in G. apply G; [discriminate|assumption].
Qed.

Lemma count_up_shift : forall n a b, count_up n (a + b) = map (fun x => a + x) (count_up n b).
Proof.
  induction n as [|n IH]; intros a b; [reflexivity|]. cbn [count_up map]. f_equal.
  rewrite <- N.add_succ_r. apply IH.
Qed.
Lemma count_up_app : forall n m a, count_up (n + m) a = count_up n a ++ count_up m (a + N.of_nat n).
Proof.
  induction n as [|n IH]; intros m a.
  - rewrite N.add_0_r. reflexivity.
  - cbn [count_up Nat.add app]. f_equal. rewrite IH. f_equal. f_equal. lia.
Qed.
Lemma count_up_In : forall n a x, In x (count_up n a) <-> a <= x < a + N.of_nat n.
Proof.
  induction n as [|n IH]; intros a x; cbn [count_up].
  - split; [intros []|lia].
  - cbn [In]. rewrite IH. lia.
Qed.
Lemma count_up_length : forall n a, List.length (count_up n a) = n.
Proof. induction n; intros; cbn; auto. Qed.

Lemma flat_map_ext_in : forall {A B} (f g : A -> list B) l,
  (forall x, In x l -> f x = g x) -> flat_map f l = flat_map g l.
Proof. induction l as [|x l IH]; intros H; [reflexivity|]. simpl. rewrite H by (left; auto). rewrite IH; auto. intros; apply H; right; auto. Qed.

(** A block decomposition of an initial segment. *)
Lemma count_up_blocks : forall s R, 
  count_up (s * R) 0 = flat_map (fun a => map (fun x => a * N.of_nat R + x) (count_up R 0)) (count_up s 0).
Proof.
  intros s R.
  assert (G : forall s a, count_up (s * R) (a * N.of_nat R)
            = flat_map (fun a => map (fun x => a * N.of_nat R + x) (count_up R 0)) (count_up s a)).
  { induction s0 as [|s0 IH]; intros a; [reflexivity|].
    cbn [Nat.mul count_up flat_map]. rewrite count_up_app. f_equal.
    - replace (a * N.of_nat R) with (a * N.of_nat R + 0) at 1 by lia. apply count_up_shift.
    - rewrite <- IH. f_equal. lia. }
  apply (G s 0).
Qed.

Lemma nth_count_up : forall (k : token),
  map (fun a => token_in k a) (count_up (List.length (t_in k)) 0) = t_in k.
Proof.
  intros k. unfold token_in. generalize (t_in k) as l.
  assert (G : forall (l pre : list intype),
     map (fun a => nth (N.to_nat a) (pre ++ l) I_BADTOKEN) (count_up (List.length l) (N.of_nat (List.length pre))) = l).
  { induction l as [|x l IH]; intros pre; [reflexivity|].
    cbn [List.length count_up map]. f_equal.
    - rewrite Nnat.Nat2N.id, app_nth2 by lia. rewrite Nat.sub_diag. reflexivity.
    - specialize (IH (pre ++ [x])). rewrite <- app_assoc in IH. cbn [app] in IH.
      rewrite app_length in IH. cbn [List.length] in IH.
      replace (N.succ (N.of_nat (List.length pre))) with (N.of_nat (List.length pre + 1)) by lia. exact IH. }
  intros l. exact (G l []).
Qed.

Lemma flat_map_map : forall {A B C} (g : A -> B) (f : B -> list C) l,
  flat_map f (map g l) = flat_map (fun x => f (g x)) l.
Proof. induction l; simpl; intros; [reflexivity|]. rewrite IHl. reflexivity. Qed.

Lemma digits_cart : forall ts,
  map (fun i => digits i ts) (count_up (N.to_nat (combinations ts)) 0) = cart (map t_in ts).
Proof.
  induction ts as [|k ts IH]; [reflexivity|].
  rewrite comb_cons. cbn [cart map].
  set (R := combinations ts) in *.
  replace (N.to_nat (in_size k * R)) with (List.length (t_in k) * N.to_nat R)%nat
    by (unfold in_size; lia).
  rewrite count_up_blocks.
  rewrite <- (nth_count_up k) at 2. rewrite flat_map_map.
  rewrite <- IH.
  rewrite flat_map_concat_map, concat_map, map_map, <- flat_map_concat_map.
  apply flat_map_ext_in. intros a Ha. apply count_up_In in Ha.
  rewrite !map_map. apply map_ext_in. intros x Hx. apply count_up_In in Hx.
  rewrite !Nnat.N2Nat.id in *.
  assert (HR : R <> 0) by lia.
  cbn [digits]. fold R. f_equal.
  - f_equal. rewrite N.add_comm, N.div_add by assumption. rewrite N.div_small by lia.
    rewrite N.add_0_l. apply N.mod_small. unfold in_size. lia.
  - rewrite <- (digits_mod ts (a * R + x)). fold R.
    rewrite N.add_comm, N.mod_add by assumption. rewrite N.mod_small by lia. reflexivity.
Qed.

Lemma enumerate_cart : forall ts,
  combinations ts <= 2 ^ 32 -> enumerate ts = cart (map t_in ts).
Proof.
  intros ts H. unfold enumerate. rewrite enum_count_mod.
  rewrite N.mod_small; [|change (2^32) with 4294967296 in H; unfold U64; lia].
  rewrite <- digits_cart. apply map_ext_in. intros i Hi. apply count_up_In in Hi.
  apply enum_one_digits; lia.
Qed.

(** Facts about the product, independent of its definition. *)
Lemma cart_In : forall {A} (l : list (list A)) c,
  In c (cart l) <-> Forall2 (fun s x => In x s) l c.
Proof.
  induction l as [|s l IH]; intros c; cbn [cart].
  - split.
    + intros [<-|[]]. constructor.
    + intros H. inversion H. left. reflexivity.
  - rewrite in_flat_map. split.
    + intros [x [Hx Hc]]. apply in_map_iff in Hc. destruct Hc as [c' [<- Hc']].
      constructor; [assumption|]. apply IH. assumption.
    + intros H. inversion H; subst. exists y. split; [assumption|]. apply in_map. apply IH. assumption.
Qed.
Lemma NoDup_app_intro : forall {A} (a b : list A),
  NoDup a -> NoDup b -> (forall x, In x a -> In x b -> False) -> NoDup (a ++ b).
Proof.
  induction a as [|x a IH]; intros b Ha Hb H; [assumption|]. inversion Ha; subst. cbn. constructor.
  - rewrite in_app_iff. intros [H'|H']; [contradiction|]. apply (H x); [left; auto|auto].
  - apply IH; auto. intros y Hy Hy'. apply (H y); [right; auto|auto].
Qed.
Lemma cart_NoDup : forall {A} (l : list (list A)), Forall (@NoDup A) l -> NoDup (cart l).
Proof.
  induction l as [|s l IH]; intros H.
  - constructor; [intros []|constructor].
  - inversion H as [|? ? Hs Hl]; subst. cbn [cart]. specialize (IH Hl). clear H Hl.
    induction s as [|x s IHs]; [constructor|]. inversion Hs; subst. cbn [flat_map].
    apply NoDup_app_intro.
    + apply Injective_map_NoDup; [|assumption]. intros a b E. congruence.
    + apply IHs. assumption.
    + intros c Hc Hc'. apply in_map_iff in Hc. destruct Hc as [c1 [<- _]].
      apply in_flat_map in Hc'. destruct Hc' as [y [Hy Hc']].
      apply in_map_iff in Hc'. destruct Hc' as [c2 [E _]]. inversion E; subst. contradiction.
Qed.

(** Whatever wraps, every produced pattern is a choice of classes. *)
Lemma enum_one_choice : forall ts i cnt num,
  Forall (fun k => t_in k <> []) ts -> chooses ts (enum_one i cnt num ts).
Proof.
  induction ts as [|k ts IH]; intros i cnt num H; [constructor|]. inversion H; subst.
  cbn [enum_one]. constructor; [|apply IH; assumption].
  unfold token_in. apply nth_In.
  assert (in_size k <> 0) by (unfold in_size; destruct (t_in k); [congruence|cbn; lia]).
  pose proof (N.mod_upper_bound (mul64 i (mul64 num (in_size k)) / cnt) (in_size k) H0).
  unfold in_size in *. lia.
Qed.
Lemma combinations_zero : forall ts k, In k ts -> t_in k = [] -> combinations ts = 0.
Proof.
  induction ts as [|a ts IH]; intros k Hk E; [destruct Hk|]. destruct Hk as [->|H].
  - rewrite comb_cons. unfold in_size. rewrite E. reflexivity.
  - rewrite comb_cons, (IH k H E). lia.
Qed.
Lemma enumerate_sound : forall ts pat, In pat (enumerate ts) -> chooses ts pat.
Proof.
  intros ts pat H. unfold enumerate in H. apply in_map_iff in H. destruct H as [i [<- Hi]].
  apply enum_one_choice. apply Forall_forall. intros k Hk E.
  rewrite enum_count_mod, (combinations_zero ts k Hk E) in Hi. exact Hi.
Qed.
Lemma enumerate_complete : forall ts pat,
  combinations ts <= 2 ^ 32 -> chooses ts pat -> In pat (enumerate ts).
Proof.
  intros ts pat HB H. rewrite enumerate_cart by assumption. apply cart_In.
  unfold chooses in H. induction H; cbn [map]; constructor; auto.
  apply IHForall2. rewrite comb_cons in HB.
  assert (in_size x <> 0) by (unfold in_size; destruct (t_in x); [destruct H|cbn; lia]). nia.
Qed.

(** Order of the product. *)
Lemma StronglySorted_app_intro : forall {A} (R : A -> A -> Prop) a b,
  StronglySorted R a -> StronglySorted R b -> (forall x y, In x a -> In y b -> R x y) -> StronglySorted R (a ++ b).
Proof.
  induction a as [|x a IH]; intros b Ha Hb H; [assumption|]. inversion Ha; subst. cbn. constructor.
  - apply IH; auto. intros; apply H; [right; auto|auto].
  - apply Forall_app. split; [assumption|]. apply Forall_forall. intros y Hy. apply H; [left; auto|auto].
Qed.
Lemma cart_sorted : forall l, Forall (StronglySorted class_lt) l -> StronglySorted lex_lt (cart l).
Proof.
  induction l as [|s l IH]; intros H.
  - constructor; constructor.
  - inversion H as [|? ? Hs Hl]; subst. cbn [cart]. specialize (IH Hl). clear H Hl.
    induction s as [|x s IHs]; [constructor|]. inversion Hs; subst. cbn [flat_map].
    apply StronglySorted_app_intro.
    + clear - IH. induction IH; cbn [map]; constructor; auto.
      apply Forall_map. eapply Forall_impl; [|eassumption]. intros b Hb. apply lex_tail. assumption.
    + apply IHs. assumption.
    + intros c c' Hc Hc'. apply in_map_iff in Hc. destruct Hc as [c1 [<- _]].
      apply in_flat_map in Hc'. destruct Hc' as [y [Hy Hc']].
      apply in_map_iff in Hc'. destruct Hc' as [c2 [<- _]].
      apply lex_head. rewrite Forall_forall in H2. apply H2. assumption.
Qed.
Lemma enumerate_sorted : forall ts, combinations ts <= 2 ^ 32 ->
  Forall (fun k => StronglySorted class_lt (t_in k)) ts -> StronglySorted lex_lt (enumerate ts).
Proof.
  intros ts HB H. rewrite enumerate_cart by assumption. apply cart_sorted. apply Forall_map. assumption.
Qed.

(** ** The number of patterns *)
Lemma enumerate_length : forall ts, N.of_nat (List.length (enumerate ts)) = combinations ts mod 2 ^ 64.
Proof.
  intros ts. unfold enumerate. rewrite map_length, count_up_length, enum_count_mod. change (2 ^ 64) with U64. apply N2Nat.id.
Qed.
Lemma combinations_pos : forall ts, Forall (fun k => t_in k <> []) ts -> 1 <= combinations ts.
Proof.
  intros ts F. induction F as [|k ts H F IH]; [unfold combinations; simpl; lia|]. rewrite comb_cons. unfold in_size.
  destruct (t_in k); [congruence|]. cbn [List.length]. nia.
Qed.
Lemma enumerate_some : forall ts, Forall (fun k => t_in k <> []) ts -> combinations ts < 2 ^ 64 -> enumerate ts <> [].
Proof.
  intros ts F L E. pose proof (enumerate_length ts) as H. rewrite E in H. simpl List.length in H. rewrite N.mod_small in H by exact L.
  pose proof (combinations_pos ts F). change (N.of_nat 0) with 0 in H. lia.
Qed.
