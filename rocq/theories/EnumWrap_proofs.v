(** Token::enumerate beyond 2^32 combinations. *)
From Coq Require Import String List NArith ZArith Bool Lia Arith FinFun Sorting.Sorted.
From Verif Require Import Base_model Class_model Token_model Sample_model Search_spec Enum_proofs.
Import ListNotations.
Local Open Scope N_scope.

(** ** Powers of two *)
Lemma mod_of_mod : forall i u v w, (v <= u) -> (w <= u - v) -> ((i mod 2 ^ u) / 2 ^ v) mod 2 ^ w = (i / 2 ^ v) mod 2 ^ w.
Proof.
  intros i u v w H K. apply N.bits_inj. intros n.
  destruct (N.lt_ge_cases n w) as [L|L].
  - rewrite !N.mod_pow2_bits_low by assumption. rewrite !N.div_pow2_bits. apply N.mod_pow2_bits_low. lia.
  - rewrite !N.mod_pow2_bits_high by assumption. reflexivity.
Qed.
Lemma power_step : forall i a j b, j + b <= a -> a + b <= 64 ->
  (mul64 i (2 ^ (j + b)) / 2 ^ a) mod 2 ^ b = (i / 2 ^ (a - (j + b))) mod 2 ^ b.
Proof.
  intros i a j b H K. unfold mul64. change U64 with (2 ^ 64). set (s := j + b) in *.
  replace (2 ^ 64) with (2 ^ (64 - s) * 2 ^ s) by (rewrite <- N.pow_add_r; f_equal; lia).
  rewrite N.mul_mod_distr_r by (apply N.pow_nonzero; discriminate).
  replace (2 ^ a) with (2 ^ (a - s) * 2 ^ s) by (rewrite <- N.pow_add_r; f_equal; lia).
  rewrite N.div_mul_cancel_r by (apply N.pow_nonzero; discriminate).
  apply mod_of_mod; subst s; lia.
Qed.
Lemma power_product : forall ts a, Forall (fun k => exists b, in_size k = 2 ^ b /\ a + b <= 64) ts -> exists r, combinations ts = 2 ^ r.
Proof.
  intros ts a H. induction H as [|k ts (b & E & _) H (r & IH)]; [exists 0; reflexivity|]. exists (b + r). rewrite comb_cons, E, IH, N.pow_add_r. reflexivity.
Qed.
Lemma enum_one_powers : forall a ts, a < 64 -> Forall (fun k => exists b, in_size k = 2 ^ b /\ a + b <= 64) ts -> forall i j, 2 ^ a = 2 ^ j * combinations ts ->
  enum_one i (2 ^ a) (2 ^ j) ts = digits i ts.
Proof.
  intros a ts A H. induction H as [|k ts (b & E & B) H IH]; intros i j HP; [reflexivity|]. cbn [enum_one digits]. rewrite comb_cons, E in HP.
  destruct (power_product ts a H) as (r & R). rewrite R in HP. rewrite <- !N.pow_add_r in HP. apply N.pow_inj_r in HP; [|lia].
  assert (E1 : mul64 (2 ^ j) (in_size k) = 2 ^ (j + b)).
  { rewrite E. unfold mul64. rewrite <- N.pow_add_r. change U64 with (2 ^ 64). apply N.mod_small. apply N.pow_lt_mono_r; lia. }
  rewrite E1. f_equal.
  - f_equal. rewrite E. rewrite power_step by lia. rewrite R. f_equal. f_equal. f_equal. lia.
  - apply IH. rewrite R, <- N.pow_add_r. f_equal. lia.
Qed.
Lemma enumerate_powers_cart : forall ts, combinations ts < 2 ^ 64 ->
  Forall (fun k => exists b, in_size k = 2 ^ b /\ combinations ts * in_size k <= 2 ^ 64) ts -> enumerate ts = cart (map t_in ts).
Proof.
  intros ts C H. assert (P : exists a, combinations ts = 2 ^ a).
  { clear C. revert H. generalize (combinations ts) at 1. intros c H. induction H as [|k ts (b & E & _) H (r & IH)]; [exists 0; reflexivity|]. exists (b + r). rewrite comb_cons, E, IH, N.pow_add_r. reflexivity. }
  destruct P as (a & P). assert (A : a < 64) by (rewrite P in C; apply N.pow_lt_mono_r_iff in C; [exact C|lia]).
  assert (H' : Forall (fun k => exists b, in_size k = 2 ^ b /\ a + b <= 64) ts).
  { eapply Forall_impl; [|exact H]. intros k (b & E & B). exists b. split; [exact E|]. rewrite P, E, <- N.pow_add_r in B. apply N.pow_le_mono_r_iff in B; [exact B|lia]. }
  unfold enumerate. rewrite enum_count_mod. change U64 with (2 ^ 64). rewrite N.mod_small by exact C. rewrite <- digits_cart. apply map_ext. intros i.
  rewrite P. apply (enum_one_powers a ts A H' i 0). rewrite P. cbn [N.pow]. lia.
Qed.
Lemma sorted_class_nodup : forall l, StronglySorted class_lt l -> NoDup l.
Proof.
  induction 1 as [|x l H IH F]; constructor; [|exact IH]. intros I. rewrite Forall_forall in F. specialize (F x I). unfold class_lt in F. lia.
Qed.
Lemma classes_nodup : forall ts, Forall (fun k => StronglySorted class_lt (t_in k)) ts -> NoDup (cart (map t_in ts)).
Proof. intros ts H. apply cart_NoDup. apply Forall_map. eapply Forall_impl; [|exact H]. intros k. apply sorted_class_nodup. Qed.
Lemma chooses_cart : forall ts pat, In pat (cart (map t_in ts)) <-> chooses ts pat.
Proof.
  intros ts pat. rewrite cart_In. unfold chooses. revert pat. induction ts as [|k ts IH]; intros pat; split; intros H; inversion H; subst; constructor; try assumption; apply IH; assumption.
Qed.
Lemma enumerate_powers : forall ts, Forall (fun k => StronglySorted class_lt (t_in k)) ts -> combinations ts < 2 ^ 64 ->
  Forall (fun k => exists b, N.of_nat (List.length (t_in k)) = 2 ^ b /\ combinations ts * 2 ^ b <= 2 ^ 64) ts ->
  (forall pat, In pat (enumerate ts) <-> chooses ts pat) /\ NoDup (enumerate ts).
Proof.
  intros ts S C H. rewrite enumerate_powers_cart; [|exact C|].
  - split; [apply chooses_cart|apply classes_nodup; exact S].
  - eapply Forall_impl; [|exact H]. intros k (b & E & B). exists b. unfold in_size. rewrite E. split; [reflexivity|exact B].
Qed.

(** ** Repeated and missing patterns *)
Lemma cart_count : forall ts, List.length (cart (map t_in ts)) = N.to_nat (combinations ts).
Proof. intros ts. rewrite <- digits_cart, map_length, count_up_length. reflexivity. Qed.
Lemma repeated_missing : forall ts i j, Forall (fun k => StronglySorted class_lt (t_in k)) ts -> combinations ts < 2 ^ 64 ->
  i < j -> j < combinations ts -> enum_one i (combinations ts) 1 ts = enum_one j (combinations ts) 1 ts ->
  ~ NoDup (enumerate ts) /\ exists pat, chooses ts pat /\ ~ In pat (enumerate ts).
Proof.
  intros ts i j S C Hij Hj E. assert (EC : enum_count ts = combinations ts) by (rewrite enum_count_mod; apply N.mod_small; exact C).
  assert (ND : ~ NoDup (enumerate ts)).
  { unfold enumerate. rewrite EC. intros D.
    replace (N.to_nat (combinations ts)) with (N.to_nat j + N.to_nat (combinations ts - j))%nat in D by lia.
    rewrite count_up_app, map_app in D. destruct (N.to_nat (combinations ts - j)) as [|n] eqn:En; [lia|]. cbn [count_up map] in D. apply NoDup_remove_2 in D. apply D. apply in_or_app. left.
    replace (0 + N.of_nat (N.to_nat j)) with j by lia. rewrite <- E. apply in_map_iff. exists i. split; [reflexivity|]. apply count_up_In. lia. }
  split; [exact ND|].
  assert (DEC : forall x y : list intype, {x = y} + {x <> y}) by (intros x y; apply list_eq_dec; decide equality).
  destruct (Forall_Exists_dec (fun pat => In pat (enumerate ts)) (fun pat => in_dec DEC pat (enumerate ts)) (cart (map t_in ts))) as [F|F].
  - exfalso. apply ND. apply (NoDup_incl_NoDup (classes_nodup ts S)).
    + rewrite cart_count. unfold enumerate. rewrite map_length, count_up_length, EC. apply le_n.
    + intros x I. rewrite Forall_forall in F. exact (F x I).
  - apply Exists_exists in F. destruct F as (pat & I & N). exists pat. split; [apply chooses_cart; exact I|exact N].
Qed.
Definition wrap_phrase : list token := tk "A" [I_NUMBER; I_WORD; I_SINGLE] :: repeat (tk "W" [I_NUMBER; I_WORD]) 31.
Lemma wrap_sorted : Forall (fun k => StronglySorted class_lt (t_in k)) wrap_phrase.
Proof.
  unfold wrap_phrase. constructor; [cbn; repeat constructor|]. apply Forall_forall. intros k I. apply repeat_spec in I. subst k. cbn. repeat constructor.
Qed.
Lemma wrap_combinations : combinations wrap_phrase = 3 * 2 ^ 31.
Proof. vm_compute. reflexivity. Qed.
Lemma product_wraps : exists ts, Forall (fun k => t_in k <> [] /\ StronglySorted class_lt (t_in k)) ts /\ List.length ts = 32%nat /\ combinations ts = 3 * 2 ^ 31 /\
  ~ NoDup (enumerate ts) /\ exists pat, chooses ts pat /\ ~ In pat (enumerate ts).
Proof.
  exists wrap_phrase. split.
  { assert (S := wrap_sorted). rewrite Forall_forall in *. intros k I. split; [|exact (S k I)]. destruct I as [<-|I]; [discriminate|]. apply repeat_spec in I. subst k. discriminate. }
  split; [reflexivity|]. split; [exact wrap_combinations|].
  apply (repeated_missing wrap_phrase 2863311530 2863311531 wrap_sorted); rewrite ?wrap_combinations; vm_compute; reflexivity.
Qed.
Definition pair_phrase : list token := repeat (tk "W" [I_NUMBER; I_WORD]) 63.
Lemma pair_setting : Forall (fun k => StronglySorted class_lt (t_in k)) pair_phrase /\ combinations pair_phrase = 2 ^ 63 /\
  Forall (fun k => exists b, N.of_nat (List.length (t_in k)) = 2 ^ b /\ combinations pair_phrase * 2 ^ b <= 2 ^ 64) pair_phrase.
Proof.
  assert (C : combinations pair_phrase = 2 ^ 63) by (vm_compute; reflexivity).
  split; [apply Forall_forall; intros k I; apply repeat_spec in I; subst k; cbn; repeat constructor|]. split; [exact C|].
  rewrite C. apply Forall_forall; intros k I; apply repeat_spec in I; subst k. exists 1. split; [reflexivity|]. discriminate.
Qed.
