(** The event counters. *)
From Coq Require Import List NArith Lia.
From Verif Require Import Base_model Token_model Lexicon_model Search_proofs LexMap_proofs Utils_model Utils_spec.
Import ListNotations.
Local Open Scope N_scope.

Lemma event_sorted : forall m e, sorted_keys m -> sorted_keys (apply_event m e).
Proof.
  intros m [k|k] H; simpl; [|apply map_del_sorted; exact H]. unfold count. destruct (map_get k m); apply map_put_sorted; exact H.
Qed.
Lemma after_sorted : forall h m, sorted_keys m -> sorted_keys (fold_left apply_event h m).
Proof. induction h as [|e h IH]; simpl; intros m H; [exact H|]. apply IH, event_sorted, H. Qed.
Lemma count_get : forall m k k', sorted_keys m -> get_count m k < U64 ->
  get_count (count m k') k = if teqb k k' then (get_count m k + 1) mod U64 else get_count m k.
Proof.
  intros m k k' H L. unfold count, get_count in *. destruct (map_get k' m) eqn:E; rewrite map_get_put by exact H;
    destruct (teqb k k') eqn:T; try reflexivity; apply teqb_eq in T; subst; rewrite E; reflexivity.
Qed.
Lemma clear_get : forall m k k', sorted_keys m -> get_count (clear m k') k = if teqb k k' then 0 else get_count m k.
Proof. intros m k k' H. unfold clear, get_count. rewrite map_get_del by exact H. destruct (teqb k k'); reflexivity. Qed.
Lemma run_counts : forall k h n, occurs (Count k) h n -> ~ In (Clear k) h -> forall m, sorted_keys m -> get_count m k < U64 ->
  get_count (fold_left apply_event h m) k = (get_count m k + N.of_nat n) mod U64.
Proof.
  induction 1 as [|h n O IH|e h n D O IH]; intros C m H L; cbn [fold_left].
  - rewrite N.add_0_r, N.mod_small by exact L. reflexivity.
  - assert (G : get_count (apply_event m (Count k)) k = (get_count m k + 1) mod U64) by (cbn [apply_event]; rewrite count_get, teqb_refl by assumption; reflexivity).
    rewrite IH; [|intros I; apply C; right; exact I|apply event_sorted; exact H|rewrite G; apply N.mod_lt; discriminate].
    rewrite G. rewrite N.add_mod_idemp_l by discriminate. f_equal. lia.
  - assert (G : get_count (apply_event m e) k = get_count m k).
    { destruct e as [k'|k']; cbn [apply_event].
      - rewrite count_get by assumption. destruct (teqb k k') eqn:T; [|reflexivity]. apply teqb_eq in T. subst. congruence.
      - rewrite clear_get by assumption. destruct (teqb k k') eqn:T; [|reflexivity]. apply teqb_eq in T. subst. exfalso. apply C. left. reflexivity. }
    rewrite IH; [rewrite G; reflexivity|intros I; apply C; right; exact I|apply event_sorted; exact H|rewrite G; exact L].
Qed.
Lemma counted_get : forall h k n, counted k h n -> get_count (after h) k = N.of_nat n mod U64.
Proof.
  intros h k n (h1 & h2 & -> & B & C & O). unfold after. rewrite fold_left_app.
  assert (G : get_count (fold_left apply_event h1 []) k = 0).
  { destruct B as [->|(h0 & ->)]; [reflexivity|]. rewrite fold_left_app. cbn [fold_left apply_event].
    rewrite clear_get, teqb_refl; [reflexivity|]. apply after_sorted. constructor. }
  rewrite (run_counts k h2 n O C).
  - rewrite G. reflexivity.
  - apply after_sorted. constructor.
  - rewrite G. reflexivity.
Qed.
Lemma event_dec : forall a b : event, {a = b} + {a <> b}.
Proof. decide equality; apply (list_eq_dec N.eq_dec). Qed.
Lemma occurs_snoc : forall e h n, occurs e h n -> occurs e (h ++ [e]) (S n).
Proof. induction 1; simpl; [repeat constructor|constructor; assumption|apply occurs_other; assumption]. Qed.
Lemma occurs_skip : forall e x h n, x <> e -> occurs e h n -> occurs e (h ++ [x]) n.
Proof. intros e x h n D. induction 1; simpl; [apply occurs_other; [exact D|constructor]|constructor; assumption|apply occurs_other; assumption]. Qed.
Lemma counted_ex : forall h k, exists n, counted k h n.
Proof.
  induction h as [|e h IH] using rev_ind; intros k.
  - exists 0%nat, [], []. split; [reflexivity|]. split; [left; reflexivity|]. split; [simpl; tauto|constructor].
  - destruct (event_dec e (Clear k)) as [->|D].
    + exists 0%nat, (h ++ [Clear k]), []. split; [symmetry; apply app_nil_r|]. split; [right; exists h; reflexivity|]. split; [simpl; tauto|constructor].
    + destruct (IH k) as (n & h1 & h2 & -> & B & C & O). rewrite <- app_assoc.
      assert (C' : ~ In (Clear k) (h2 ++ [e])) by (rewrite in_app_iff; simpl; intuition congruence).
      destruct (event_dec e (Count k)) as [->|D'].
      * exists (S n), h1, (h2 ++ [Count k]). split; [reflexivity|]. split; [exact B|]. split; [exact C'|apply occurs_snoc; exact O].
      * exists n, h1, (h2 ++ [e]). split; [reflexivity|]. split; [exact B|]. split; [exact C'|apply occurs_skip; assumption].
Qed.
Lemma counts : forall h k, exists n, counted k h n /\ get_count (after h) k = N.of_nat n mod 2 ^ 64.
Proof. intros h k. destruct (counted_ex h k) as (n & C). exists n. split; [exact C|]. apply (counted_get h k n C). Qed.
Lemma counted_once : forall h k n, counted k h n -> N.of_nat n < 2 ^ 64 -> get_count (after h) k = N.of_nat n.
Proof. intros h k n C L. rewrite (counted_get h k n C). apply N.mod_small. exact L. Qed.
