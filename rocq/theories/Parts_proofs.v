(** Proofs about the small operations on rules, tokens and sections. *)
From Coq Require Import String List NArith ZArith Bool Lia Sorted Floats.SpecFloat.
From Verif Require Import Base_model Class_model Float_model Token_model Rule_model Parts_spec Class_proofs Search_proofs Loaded_proofs.
Import ListNotations.

(** ** Rule::concat *)
Lemma add_comm : forall prec emax a b, SFadd prec emax a b = SFadd prec emax b a.
Proof.
  intros prec emax a b. destruct a as [sa|sa| |sa ma ea], b as [sb|sb| |sb mb eb]; simpl; try reflexivity;
    try (destruct sa, sb; reflexivity).
  rewrite (Z.min_comm eb ea). f_equal. apply Z.add_comm.
Qed.
Lemma concat_parts : forall a b,
  r_in (rule_concat a b) = r_in a ++ r_in b /\ r_out (rule_concat a b) = r_out a ++ r_out b /\
  r_score (rule_concat a b) = r_score (rule_concat b a).
Proof. intros a b. repeat split. unfold rule_concat, r_score, f32_add. do 3 f_equal. apply add_comm. Qed.
Lemma concat_match : forall a b pat, rule_match (rule_concat a b) pat = true <-> exists rest, pat = r_in a ++ r_in b ++ rest.
Proof.
  intros a b pat. rewrite rule_match_spec. cbn [rule_concat r_in].
  split; intros [rest E]; exists rest; [rewrite app_assoc|rewrite <- app_assoc]; assumption.
Qed.
Lemma concat_pos : forall a b i, List.length (r_in a) = List.length (r_out a) ->
  (i < List.length (r_in a) -> rule_in (rule_concat a b) i = rule_in a i /\ rule_out (rule_concat a b) i = rule_out a i) /\
  rule_in (rule_concat a b) (List.length (r_in a) + i) = rule_in b i /\
  rule_out (rule_concat a b) (List.length (r_in a) + i) = rule_out b i.
Proof.
  intros a b i E. unfold rule_in, rule_out. cbn [rule_concat r_in r_out]. split; [|split].
  - intros H. rewrite !app_nth1 by lia. split; reflexivity.
  - rewrite app_nth2 by lia. f_equal. lia.
  - rewrite app_nth2 by lia. f_equal. lia.
Qed.

(** ** Token *)
Lemma add_in_spec : forall k c,
  (forall d, In d (t_in (add_in k c)) <-> d = c \/ In d (t_in k)) /\
  (class_set (t_in k) -> class_set (t_in (add_in k c))) /\ but_classes (add_in k c) = but_classes k.
Proof.
  intros k c. split; [intros d; apply iset_insert_in|]. split; [intros H; apply iset_insert_set; exact H|reflexivity].
Qed.
Lemma queries_spec : forall k c s,
  (is_in_class k c = true <-> In c (t_in k)) /\ (is_in_class_set k s = true <-> exists d, In d s /\ In d (t_in k)).
Proof.
  intros k c s. split; [apply iset_mem_In|]. unfold is_in_class_set. rewrite existsb_exists.
  split; intros [d [H H']]; exists d; split; try assumption; apply iset_mem_In; exact H'.
Qed.
Lemma size_spec : forall k, class_set (t_in k) -> NoDup (t_in k) /\ in_size k = N.of_nat (List.length (t_in k)).
Proof.
  intros k H. split; [|reflexivity]. induction H as [|a s S IH F]; constructor; [|exact IH].
  intros J. rewrite Forall_forall in F. pose proof (F a J). lia.
Qed.

(** ** Sections *)
Lemma nth_pos : forall A (l : list A) i a, nth_error l i = Some a <-> at_pos l i a.
Proof.
  intros A l i a. split.
  - intros H. apply nth_error_split in H. destruct H as [p [q [E L]]]. exists p, q. auto.
  - intros [p [q [E L]]]. subst. rewrite nth_error_app2 by lia. rewrite Nat.sub_diag. reflexivity.
Qed.
Lemma meta_index : forall m i,
  (forall r, meta_rule_at m i = Ok r <-> at_pos (ms_rules m) i r) /\
  (List.length (ms_rules m) <= i -> meta_rule_at m i = Throw (s2t "MetaSection-Range-Error")) /\
  (i < List.length (ms_rules m) -> exists r, meta_rule_at m i = Ok r).
Proof.
  intros m i. unfold meta_rule_at. split; [|split].
  - intros r. rewrite <- nth_pos. destruct (nth_error (ms_rules m) i); split; intros H; congruence.
  - intros H. apply nth_error_None in H. rewrite H. reflexivity.
  - intros H. apply nth_error_Some in H. destruct (nth_error (ms_rules m) i) as [r|]; [exists r; reflexivity|congruence].
Qed.
Lemma rule_index : forall m i,
  (forall r, rule_rule_at m i = Ok r <-> at_pos (rs_rules m) i r) /\
  (List.length (rs_rules m) <= i -> rule_rule_at m i = Throw (s2t "RuleSection-Range-Error")) /\
  (i < List.length (rs_rules m) -> exists r, rule_rule_at m i = Ok r).
Proof.
  intros m i. unfold rule_rule_at. split; [|split].
  - intros r. rewrite <- nth_pos. destruct (nth_error (rs_rules m) i); split; intros H; congruence.
  - intros H. apply nth_error_None in H. rewrite H. reflexivity.
  - intros H. apply nth_error_Some in H. destruct (nth_error (rs_rules m) i) as [r|]; [exists r; reflexivity|congruence].
Qed.
Lemma class_index : forall r i,
  (forall c, at_pos (r_in r) i c -> rule_in r i = c) /\ (List.length (r_in r) <= i -> rule_in r i = I_BADTOKEN) /\
  (forall c, at_pos (r_out r) i c -> rule_out r i = c) /\ (List.length (r_out r) <= i -> rule_out r i = O_BADTOKEN).
Proof.
  intros r i. unfold rule_in, rule_out. repeat split.
  - intros c H. apply nth_pos in H. exact (nth_error_nth _ _ I_BADTOKEN H).
  - intros H. apply nth_overflow. exact H.
  - intros c H. apply nth_pos in H. exact (nth_error_nth _ _ O_BADTOKEN H).
  - intros H. apply nth_overflow. exact H.
Qed.
