(** Lexicon entries as values. *)
From Coq Require Import String List NArith Bool.
From Verif Require Import Base_model Class_model Class_spec Lexicon_model LexFile_spec Entry_spec Class_proofs LexMap_proofs LexFile_proofs.
Import ListNotations.

Lemma if_or : forall (a b : bool) (P Q : Prop), (a = true <-> P) -> (b = true <-> Q) -> ((if a then true else b) = true <-> P \/ Q).
Proof. intros [|] b P Q A B; [split; [left; apply A; reflexivity|reflexivity]|]. rewrite B. split; [auto|]. intros [H|H]; [apply A in H; discriminate|exact H]. Qed.
Lemma kinds : forall e,
  (is_prefix_att e = true <-> In ATT_PRE (le_att e)) /\ (is_suffix_att e = true <-> In ATT_SUF (le_att e)) /\
  (is_pre e = true <-> In DET_PRE (le_att e) \/ In ATT_PRE (le_att e)) /\ (is_suf e = true <-> In DET_SUF (le_att e) \/ In ATT_SUF (le_att e)) /\
  (is_attached e = true <-> In ATT_PRE (le_att e) \/ In ATT_SUF (le_att e)) /\
  (is_detached e = true <-> le_att e = [] \/ In DET_PRE (le_att e) \/ In DET_SUF (le_att e)) /\
  forall c, le_in_class e c = true <-> In c (le_type e).
Proof.
  intros e. split; [apply aset_mem_in|]. split; [apply aset_mem_in|]. split; [apply if_or; apply aset_mem_in|]. split; [apply if_or; apply aset_mem_in|]. split; [|split].
  - unfold is_attached. destruct (le_att e) as [|a l] eqn:E; [split; [discriminate|intros [[]|[]]]|]. rewrite (if_or _ _ _ _ (aset_mem_in ATT_SUF (a :: l)) (aset_mem_in ATT_PRE (a :: l))). tauto.
  - unfold is_detached. destruct (le_att e) as [|a l] eqn:E; [split; auto|]. rewrite (if_or _ _ _ _ (aset_mem_in DET_SUF (a :: l)) (aset_mem_in DET_PRE (a :: l))).
    split; [tauto|]. intros [K|K]; [discriminate|tauto].
  - intros c. apply iset_mem_in.
Qed.
Lemma one_kind : forall e, is_attached e = true \/ is_detached e = true.
Proof.
  intros e. destruct (kinds e) as (_ & _ & _ & _ & A & D & _). rewrite A, D. destruct (le_att e) as [|a l]; [auto|]. destruct a; simpl; auto 6.
Qed.
Lemma fields_entry : forall w s ty att le, lexentry_of_fields w s ty att = le <-> entry_with w s ty att le.
Proof.
  intros w s ty att le. unfold lexentry_of_fields, entry_with. split.
  - intros <-. cbn [le_word le_std le_type le_att]. repeat split; try apply type_named; try apply attach_named; try apply as_type_set; apply as_attach_set.
  - destruct le as [w' s' t' a']. cbn [le_word le_std le_type le_att]. intros (-> & -> & T & I & A & J). f_equal.
    + apply (sorted_same _ in_code); [apply as_type_set|exact I|]. intros c. rewrite T. apply type_named.
    + apply (sorted_same _ att_code); [apply as_attach_set|exact J|]. intros c. rewrite A. apply attach_named.
Qed.
Lemma line_iff : forall t le, lexentry_of_line t = le <-> entry_of t le.
Proof. intros t le. split; [intros <-; apply line_entry|]. intros H. exact (entry_fun t _ _ (line_entry t) H). Qed.
Lemma set_entry : forall e w s c,
  le_word (le_set e w s c) = w /\ le_std (le_set e w s c) = s /\ (forall d, In d (le_type (le_set e w s c)) <-> d = c) /\ le_att (le_set e w s c) = le_att e /\
  le_word (le_add_type e c) = le_word e /\ le_std (le_add_type e c) = le_std e /\ (forall d, In d (le_type (le_add_type e c)) <-> d = c \/ In d (le_type e)) /\ le_att (le_add_type e c) = le_att e.
Proof.
  intros e w s c. cbn [le_set le_add_type le_word le_std le_type le_att]. split; [reflexivity|]. split; [reflexivity|]. split; [intros d; simpl; intuition congruence|]. split; [reflexivity|].
  split; [reflexivity|]. split; [reflexivity|]. split; [|reflexivity]. intros d. rewrite iset_insert_in. intuition congruence.
Qed.
