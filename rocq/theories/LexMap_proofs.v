(** Lexicon as a map, cached patterns. *)
From Coq Require Import String List NArith ZArith Bool Lia Sorting.Sorted.
From Verif Require Import Base_model Class_model Uni_model Token_model Regex_model Trie_model Lexicon_model Lexicon_spec
  Search_proofs Class_proofs Trie_proofs.
Import ListNotations.
Local Open Scope N_scope.

(** ** Equality of entries *)
Lemma list_eqb_eq : forall A (f : A -> A -> bool), (forall a b, f a b = true <-> a = b) ->
  forall a b, list_eqb f a b = true <-> a = b.
Proof.
  intros A f H. induction a as [|x a IH]; destruct b as [|y b]; simpl; split; intros E; try congruence; try reflexivity.
  - apply andb_true_iff in E. destruct E as (E1 & E2). apply H in E1. apply IH in E2. congruence.
  - injection E as -> ->. apply andb_true_iff. split; [apply H|apply IH]; reflexivity.
Qed.
Lemma in_eqb_eq : forall a b, in_eqb a b = true <-> a = b.
Proof. intros a b. unfold in_eqb. rewrite Z.eqb_eq. split; [apply in_code_inj|congruence]. Qed.
Lemma att_eqb_eq : forall a b, att_eqb a b = true <-> a = b.
Proof. intros a b. unfold att_eqb. rewrite Z.eqb_eq. split; [apply att_code_inj|congruence]. Qed.
Lemma teqb_iff : forall a b, teqb a b = true <-> a = b.
Proof. intros a b. split; [apply teqb_eq|intros ->; apply teqb_refl]. Qed.
Lemma le_eqb_eq : forall a b, le_eqb a b = true <-> a = b.
Proof.
  intros [w s t a] [w' s' t' a']. unfold le_eqb. simpl. rewrite !andb_true_iff, !teqb_iff.
  rewrite (list_eqb_eq _ _ in_eqb_eq), (list_eqb_eq _ _ att_eqb_eq). split.
  - intros (((-> & ->) & ->) & ->). reflexivity.
  - intros E. injection E as -> -> -> ->. auto.
Qed.
Lemma le_mem : forall e l, existsb (fun y => le_eqb y e) l = true <-> In e l.
Proof.
  intros e l. rewrite existsb_exists. split.
  - intros (y & H & E). apply le_eqb_eq in E. subst. exact H.
  - intros H. exists e. split; [exact H|apply le_eqb_eq; reflexivity].
Qed.
Lemma le_dec : forall a b : lexentry, {a = b} + {a <> b}.
Proof.
  intros a b. destruct (le_eqb a b) eqn:E; [left; apply le_eqb_eq; exact E|right]. intros ->.
  assert (le_eqb b b = true) by (apply le_eqb_eq; reflexivity). congruence.
Qed.

(** ** Sorted maps *)
Definition sorted_keys {A} (l : list (text * A)) : Prop := StronglySorted (fun a b => tltb (fst a) (fst b) = true) l.
Lemma map_get_none : forall A k (l : list (text * A)), Forall (fun p => tltb k (fst p) = true) l -> map_get k l = None.
Proof.
  induction 1 as [|[k' v] l H Hl IH]; simpl; [reflexivity|]. destruct (teqb k k') eqn:E; [|exact IH].
  apply teqb_eq in E. subst. simpl in H. rewrite tltb_irrefl in H. discriminate.
Qed.
Lemma map_get_put : forall A k (v : A) k' l, sorted_keys l ->
  map_get k' (map_put k v l) = if teqb k' k then Some v else map_get k' l.
Proof.
  intros A k v k' l H. induction H as [|[k1 v1] l Hl IH Hall]; simpl; [reflexivity|].
  destruct (tltb k k1) eqn:E1.
  - simpl. reflexivity.
  - destruct (tltb k1 k) eqn:E2; simpl.
    + rewrite IH. destruct (teqb k' k1) eqn:E3; [|reflexivity]. apply teqb_eq in E3. subst.
      destruct (teqb k1 k) eqn:E4; [|reflexivity]. apply teqb_eq in E4. subst. rewrite tltb_irrefl in E2. discriminate.
    + assert (k = k1) by (apply tltb_total; assumption). subst. destruct (teqb k' k1); reflexivity.
Qed.
Lemma map_put_in : forall A k (v : A) l p, In p (map_put k v l) -> p = (k, v) \/ In p l.
Proof.
  induction l as [|[k1 v1] l IH]; simpl; intros p H; [intuition|].
  destruct (tltb k k1) eqn:E1; [simpl in H; intuition|]. destruct (tltb k1 k) eqn:E2.
  - destruct H as [H|H]; [auto|]. destruct (IH _ H); auto.
  - assert (k = k1) by (apply tltb_total; assumption). subst. simpl in H. intuition.
Qed.
Lemma map_put_sorted : forall A k (v : A) l, sorted_keys l -> sorted_keys (map_put k v l).
Proof.
  intros A k v l H. induction H as [|[k1 v1] l Hl IH Hall]; simpl; [repeat constructor|].
  destruct (tltb k k1) eqn:E1.
  - constructor; [constructor; assumption|]. constructor; [exact E1|]. eapply Forall_impl; [|exact Hall]. simpl.
    intros p Hp. eapply tltb_trans; eassumption.
  - destruct (tltb k1 k) eqn:E2.
    + constructor; [exact IH|]. apply Forall_forall. intros p Hp. apply map_put_in in Hp. destruct Hp as [->|Hp]; [exact E2|].
      rewrite Forall_forall in Hall. apply Hall. exact Hp.
    + assert (k = k1) by (apply tltb_total; assumption). subst. constructor; assumption.
Qed.
Lemma map_del_in : forall A k (l : list (text * A)) p, In p (map_del k l) -> In p l.
Proof.
  induction l as [|[k1 v1] l IH]; simpl; intros p H; [exact H|]. destruct (teqb k k1); [auto|]. destruct H; auto.
Qed.
Lemma map_del_sorted : forall A k (l : list (text * A)), sorted_keys l -> sorted_keys (map_del k l).
Proof.
  intros A k l H. induction H as [|[k1 v1] l Hl IH Hall]; simpl; [constructor|]. destruct (teqb k k1); [assumption|].
  constructor; [exact IH|]. rewrite Forall_forall in *. intros p Hp. apply Hall. eapply map_del_in. exact Hp.
Qed.
Lemma map_get_del : forall A k k' (l : list (text * A)), sorted_keys l ->
  map_get k' (map_del k l) = if teqb k' k then None else map_get k' l.
Proof.
  intros A k k' l H. induction H as [|[k1 v1] l Hl IH Hall]; simpl; [destruct (teqb k' k); reflexivity|].
  destruct (teqb k k1) eqn:E.
  - apply teqb_eq in E. subst. destruct (teqb k' k1) eqn:E1; [|reflexivity]. apply teqb_eq in E1. subst.
    apply map_get_none. exact Hall.
  - simpl. rewrite IH. destruct (teqb k' k1) eqn:E1; [|reflexivity]. apply teqb_eq in E1. subst.
    destruct (teqb k1 k) eqn:E2; [|reflexivity]. apply teqb_eq in E2. subst. rewrite teqb_refl in E. discriminate.
Qed.
(** A sorted map is determined by what [map_get] answers. *)
Lemma sorted_keys_ext : forall A (l m : list (text * A)), sorted_keys l -> sorted_keys m ->
  (forall k, map_get k l = map_get k m) -> l = m.
Proof.
  intros A l m Hl. revert m. induction Hl as [|[k v] l Hl IH Hall]; intros m Hm H.
  - destruct m as [|[k v] m]; [reflexivity|]. specialize (H k). simpl in H. rewrite teqb_refl in H. discriminate.
  - destruct Hm as [|[k' v'] m Hm Hall'].
    + specialize (H k). simpl in H. rewrite teqb_refl in H. discriminate.
    + assert (k = k').
      { apply tltb_total.
        - destruct (tltb k k') eqn:E; [|reflexivity]. specialize (H k). simpl in H. rewrite teqb_refl in H.
          destruct (teqb k k') eqn:E1; [apply teqb_eq in E1; subst; rewrite tltb_irrefl in E; discriminate|].
          rewrite map_get_none in H; [discriminate|]. eapply Forall_impl; [|exact Hall']. simpl. intros p Hp. eapply tltb_trans; eassumption.
        - destruct (tltb k' k) eqn:E; [|reflexivity]. specialize (H k'). simpl in H. rewrite teqb_refl in H.
          destruct (teqb k' k) eqn:E1; [apply teqb_eq in E1; subst; rewrite tltb_irrefl in E; discriminate|].
          rewrite map_get_none in H; [discriminate|]. eapply Forall_impl; [|exact Hall]. simpl. intros p Hp. eapply tltb_trans; eassumption. }
      subst k'. assert (v = v'). { specialize (H k). simpl in H. rewrite teqb_refl in H. congruence. }
      subst v'. f_equal. apply IH; [exact Hm|]. intros q. specialize (H q). simpl in H.
      destruct (teqb q k) eqn:E; [|exact H]. apply teqb_eq in E. subst.
      rewrite (map_get_none _ k l Hall), (map_get_none _ k m Hall'). reflexivity.
Qed.

(** ** Invariant of a lexicon: keys sorted, every key has entries, all of them for that key, each once. *)
Definition lex_wf (l : list (text * list lexentry)) : Prop :=
  sorted_keys l /\ Forall (fun kv => snd kv <> [] /\ NoDup (snd kv) /\ Forall (fun e => le_word e = fst kv) (snd kv)) l.
Definition cache_ok (x : lexicon) : Prop :=
  (x_regex x = [] \/ x_regex x = make_regex (x_lex x)) /\ (x_pre x = [] \/ x_pre x = make_pre (x_lex x)) /\
  (x_suf x = [] \/ x_suf x = make_suf (x_lex x)).
Lemma map_get_in : forall A k (l : list (text * A)) v, map_get k l = Some v -> In (k, v) l.
Proof.
  induction l as [|[k1 v1] l IH]; simpl; intros v H; [discriminate|]. destruct (teqb k k1) eqn:E.
  - apply teqb_eq in E. left. congruence.
  - right. auto.
Qed.
Lemma find_wf : forall x w, lex_wf (x_lex x) -> NoDup (lex_find x w) /\ Forall (fun e => le_word e = w) (lex_find x w).
Proof.
  intros x w (_ & H). unfold lex_find. destruct (map_get w (x_lex x)) as [l|] eqn:E; [|split; constructor].
  apply map_get_in in E. rewrite Forall_forall in H. destruct (H _ E) as (_ & H1 & H2). split; assumption.
Qed.
Lemma find_some_get : forall x w, lex_wf (x_lex x) -> map_get w (x_lex x) = match lex_find x w with [] => None | l => Some l end.
Proof.
  intros x w (_ & H). unfold lex_find. destruct (map_get w (x_lex x)) as [l|] eqn:E; [|reflexivity].
  apply map_get_in in E. rewrite Forall_forall in H. destruct (H _ E) as (H0 & _). simpl in H0. destruct l; [congruence|reflexivity].
Qed.
Lemma nodup_snoc : forall A (l : list A) a, NoDup l -> ~ In a l -> NoDup (l ++ [a]).
Proof.
  induction 1 as [|b l Hb Hl IH]; simpl; intros Ha; [repeat constructor; intros []|]. constructor.
  - rewrite in_app_iff. simpl. intuition.
  - apply IH. intuition.
Qed.
Lemma insert_wf : forall x e, lex_wf (x_lex x) -> lex_wf (x_lex (lex_insert x e)).
Proof.
  intros x e H. unfold lex_insert. destruct (existsb _ _) eqn:E; [exact H|].
  assert (Hn : ~ In e (lex_find x (le_word e))). { intros K. apply le_mem in K. congruence. }
  destruct (find_wf x (le_word e) H) as (F1 & F2). destruct H as (H1 & H2). simpl. split; [apply map_put_sorted; exact H1|].
  apply Forall_forall. intros p Hp. apply map_put_in in Hp. destruct Hp as [->|Hp].
  - simpl. split; [destruct (lex_find x (le_word e)); discriminate|]. split; [apply nodup_snoc; assumption|].
    apply Forall_app. split; [exact F2|]. repeat constructor.
  - rewrite Forall_forall in H2. apply H2. exact Hp.
Qed.
Lemma erase_in : forall e l y, In y (erase_first e l) -> In y l.
Proof. induction l as [|z l IH]; simpl; intros y H; [exact H|]. destruct (le_eqb z e); [auto|]. destruct H; auto. Qed.
Lemma erase_nodup : forall e l, NoDup l -> NoDup (erase_first e l).
Proof.
  induction 1 as [|z l Hz Hl IH]; simpl; [constructor|]. destruct (le_eqb z e); [exact Hl|]. constructor; [|exact IH].
  intros K. apply Hz. eapply erase_in. exact K.
Qed.
Lemma erase_remove : forall e l, NoDup l -> erase_first e l = remove le_dec e l.
Proof.
  induction 1 as [|z l Hz Hl IH]; simpl; [reflexivity|]. destruct (le_eqb z e) eqn:E.
  - apply le_eqb_eq in E. subst z. destruct (le_dec e e); [|congruence]. symmetry. apply notin_remove. exact Hz.
  - destruct (le_dec e z) as [->|N]; [|rewrite IH; reflexivity].
    assert (le_eqb z z = true) by (apply le_eqb_eq; reflexivity). congruence.
Qed.
Lemma remove_wf : forall x e, lex_wf (x_lex x) -> lex_wf (x_lex (lex_remove x e)).
Proof.
  intros x e H. destruct (find_wf x (le_word e) H) as (F1 & F2). destruct H as (H1 & H2).
  unfold lex_remove. destruct (lex_find x (le_word e)) as [|a l] eqn:E; [split; assumption|]. rewrite <- E in *. clear E a l.
  simpl. destruct (existsb _ _); [|split; assumption].
  destruct (erase_first e (lex_find x (le_word e))) as [|a l] eqn:E.
  - split; [apply map_del_sorted; exact H1|]. rewrite Forall_forall in *. intros p Hp. apply H2. eapply map_del_in. exact Hp.
  - split; [apply map_put_sorted; exact H1|]. rewrite Forall_forall in *. intros p Hp. apply map_put_in in Hp. destruct Hp as [->|Hp]; [|auto].
    simpl. rewrite <- E. split; [rewrite E; discriminate|]. split; [apply erase_nodup; exact F1|].
    apply Forall_forall. intros y Hy. apply F2. eapply erase_in. exact Hy.
Qed.
Lemma step_wf : forall x o, lex_wf (x_lex x) -> lex_wf (x_lex (step x o)).
Proof.
  intros x [e|e| | |] H; simpl; [apply insert_wf; exact H|apply remove_wf; exact H| | |];
    [unfold lex_regex; destruct (x_regex x)|unfold lex_pre; destruct (x_pre x)|unfold lex_suf; destruct (x_suf x)]; exact H.
Qed.
Lemma run_wf : forall h x, lex_wf (x_lex x) -> lex_wf (x_lex (run x h)).
Proof. induction h as [|o h IH]; intros x H; [exact H|]. simpl. apply IH, step_wf, H. Qed.
Lemma new_wf : forall n, lex_wf (x_lex (new_lexicon n)).
Proof. intros n. split; constructor. Qed.

(** ** What [find] answers *)
Lemma find_insert : forall x e w, lex_wf (x_lex x) ->
  lex_find (lex_insert x e) w =
  if teqb w (le_word e) then (if in_dec le_dec e (lex_find x w) then lex_find x w else lex_find x w ++ [e]) else lex_find x w.
Proof.
  intros x e w (H1 & H2). unfold lex_insert. destruct (existsb _ _) eqn:E.
  - destruct (teqb w (le_word e)) eqn:Ew; [|reflexivity]. apply teqb_eq in Ew. subst w.
    apply le_mem in E. destruct (in_dec le_dec e (lex_find x (le_word e))); [reflexivity|contradiction].
  - unfold lex_find at 1. simpl. rewrite map_get_put by exact H1. destruct (teqb w (le_word e)) eqn:Ew; [|reflexivity].
    apply teqb_eq in Ew. subst w. destruct (in_dec le_dec e (lex_find x (le_word e))) as [K|K]; [apply le_mem in K; congruence|reflexivity].
Qed.
Lemma find_remove : forall x e w, lex_wf (x_lex x) -> lex_find (lex_remove x e) w = remove le_dec e (lex_find x w).
Proof.
  intros x e w H. destruct (find_wf x w H) as (G1 & G2).
  assert (Hother : teqb w (le_word e) = false -> remove le_dec e (lex_find x w) = lex_find x w).
  { intros E. apply notin_remove. intros K. rewrite Forall_forall in G2. apply G2 in K. subst. rewrite teqb_refl in E. discriminate. }
  unfold lex_remove. destruct (lex_find x (le_word e)) as [|a l] eqn:E.
  - symmetry. apply notin_remove. intros K. assert (Q := K). rewrite Forall_forall in G2. apply G2 in Q. subst w. rewrite E in K. destruct K.
  - rewrite <- E. clear a l E. destruct (existsb _ _) eqn:Ex.
    + destruct H as (H1 & H2). destruct (erase_first e (lex_find x (le_word e))) as [|a l] eqn:Er.
      * unfold lex_find at 1. simpl. rewrite map_get_del by exact H1. destruct (teqb w (le_word e)) eqn:Ew.
        -- apply teqb_eq in Ew. subst w. rewrite <- erase_remove by exact G1. rewrite Er. reflexivity.
        -- rewrite Hother by reflexivity. reflexivity.
      * unfold lex_find at 1. simpl. rewrite map_get_put by exact H1. destruct (teqb w (le_word e)) eqn:Ew.
        -- apply teqb_eq in Ew. subst w. rewrite <- erase_remove by exact G1. rewrite Er. reflexivity.
        -- rewrite Hother by reflexivity. reflexivity.
    + transitivity (lex_find x w); [reflexivity|]. symmetry. destruct (teqb w (le_word e)) eqn:Ew; [|auto].
      apply teqb_eq in Ew. subst w. apply notin_remove. intros K. apply le_mem in K. congruence.
Qed.
Lemma find_other : forall x o w, (forall e, o <> Ins e /\ o <> Rem e) -> lex_find (step x o) w = lex_find x w.
Proof.
  intros x [e|e| | |] w H; simpl; try (destruct (H e); congruence);
    [unfold lex_regex; destruct (x_regex x)|unfold lex_pre; destruct (x_pre x)|unfold lex_suf; destruct (x_suf x)]; reflexivity.
Qed.

(** ** Histories, seen backwards *)
Lemma present_nil : forall e, ~ present [] e.
Proof. intros e (h1 & h2 & H & _). destruct h1; discriminate. Qed.
Lemma snoc_split : forall A (h : list A) o h1 a h2, h ++ [o] = h1 ++ a :: h2 ->
  (h2 = [] /\ a = o /\ h = h1) \/ (exists h2', h2 = h2' ++ [o] /\ h = h1 ++ a :: h2').
Proof.
  intros A h o h1 a h2 H. destruct h2 as [|b h2 _] using rev_ind.
  - apply app_inj_tail in H. destruct H as (-> & ->). auto.
  - right. exists h2. split; [|change (h1 ++ a :: h2 ++ [b]) with (h1 ++ (a :: h2) ++ [b]) in H;
      rewrite app_assoc in H; apply app_inj_tail in H; destruct H as (-> & ->); reflexivity].
    change (h1 ++ a :: h2 ++ [b]) with (h1 ++ (a :: h2) ++ [b]) in H. rewrite app_assoc in H. apply app_inj_tail in H. destruct H as (_ & ->). reflexivity.
Qed.
Lemma present_snoc : forall h o e, present (h ++ [o]) e <-> o = Ins e \/ (present h e /\ o <> Rem e).
Proof.
  intros h o e. split.
  - intros (h1 & h2 & H & Hn). apply snoc_split in H. destruct H as [(-> & E & ->)|(h2' & -> & ->)]; [left; congruence|].
    right. split; [exists h1, h2'; split; [reflexivity|]; intros K; apply Hn; apply in_or_app; auto|].
    intros ->. apply Hn. apply in_or_app. right. left. reflexivity.
  - intros [->|((h1 & h2 & -> & Hn) & Ho)].
    + exists h, []. split; [reflexivity|intros []].
    + exists h1, (h2 ++ [o]). rewrite <- app_assoc. split; [reflexivity|]. rewrite in_app_iff. simpl. intuition.
Qed.
Lemma since_snoc : forall h o e h1, since h e h1 -> o <> Rem e -> since (h ++ [o]) e h1.
Proof.
  intros h o e h1 (h2 & -> & H1 & H2) Ho. exists (h2 ++ [o]). rewrite <- app_assoc. split; [reflexivity|]. split; [|exact H2].
  rewrite in_app_iff. simpl. intuition.
Qed.

(** Before in a list. *)
Lemma before_snoc : forall A (l : list A) c a b, before (l ++ [c]) a b -> before l a b \/ (b = c /\ In a l).
Proof.
  intros A l c a b (l1 & l2 & l3 & H).
  change (l1 ++ a :: l2 ++ b :: l3) with (l1 ++ (a :: l2) ++ b :: l3) in H. rewrite app_assoc in H.
  apply snoc_split in H. destruct H as [(-> & -> & ->)|(l3' & -> & ->)].
  - right. split; [reflexivity|]. apply in_or_app. right. left. reflexivity.
  - left. exists l1, l2, l3'. rewrite <- app_assoc. reflexivity.
Qed.
Lemma before_remove : forall (l : list lexentry) e a b, before (remove le_dec e l) a b -> before l a b.
Proof.
  induction l as [|z l IH]; simpl; intros e a b (l1 & l2 & l3 & H); [destruct l1; discriminate|].
  destruct (le_dec e z) as [E|E].
  - destruct (IH e a b) as (p & q & r & ->); [exists l1, l2, l3; exact H|]. exists (z :: p), q, r. reflexivity.
  - destruct l1 as [|y l1]; simpl in H; injection H as -> H.
    + assert (K : In b l). { apply (in_remove le_dec l b e). rewrite H. apply in_or_app. right. left. reflexivity. }
      apply in_split in K. destruct K as (p & q & ->). exists [], p, q. reflexivity.
    + destruct (IH e a b) as (p & q & r & ->); [exists l1, l2, l3; exact H|]. exists (y :: p), q, r. reflexivity.
Qed.
Lemma before_in : forall A (l : list A) a b, before l a b -> In a l /\ In b l.
Proof.
  intros A l a b (l1 & l2 & l3 & ->). split; [apply in_or_app; right; left; reflexivity|].
  apply in_or_app. right. right. apply in_or_app. right. left. reflexivity.
Qed.

Lemma history : forall h n w,
  (forall e, In e (lex_find (run (new_lexicon n) h) w) <-> le_word e = w /\ present h e) /\
  NoDup (lex_find (run (new_lexicon n) h) w) /\
  (forall a b, before (lex_find (run (new_lexicon n) h) w) a b ->
    exists ha hb, since h a ha /\ since h b hb /\ (List.length ha < List.length hb)%nat).
Proof.
  intros h n w. split; [|split; [apply find_wf, run_wf, new_wf|]].
  - induction h as [|o h IH] using rev_ind; intros e.
    + simpl. split; [intros []|]. intros (_ & H). apply (present_nil e). exact H.
    + unfold run. rewrite fold_left_app. fold (run (new_lexicon n) h). cbn [fold_left].
      assert (W := run_wf h _ (new_wf n)). rewrite present_snoc. destruct o as [d|d| | |].
      * simpl. rewrite find_insert by exact W. destruct (teqb w (le_word d)) eqn:Ew.
        -- apply teqb_eq in Ew. destruct (in_dec le_dec d _) as [K|K].
           ++ rewrite IH. split; [intuition discriminate|]. intros (E1 & [E2|(E2 & _)]); [|auto]. injection E2 as ->. apply IH in K. exact K.
           ++ rewrite in_app_iff, IH. simpl. split.
              ** intros [(E1 & E2)|[->|[]]]; [split; [exact E1|right; split; [exact E2|discriminate]]|auto].
              ** intros (E1 & [E2|(E2 & _)]); [injection E2 as ->; auto|auto].
        -- rewrite IH. split; [intuition discriminate|]. intros (E1 & [E2|(E2 & _)]); [|auto]. injection E2 as ->. subst w. rewrite teqb_refl in Ew. discriminate.
      * simpl. rewrite find_remove by exact W. split.
        -- intros K. apply in_remove in K. destruct K as (K & N). apply IH in K. destruct K as (K1 & K2). split; [exact K1|]. right. split; [exact K2|congruence].
        -- intros (E1 & [E2|(E2 & E3)]); [discriminate|]. apply in_in_remove; [congruence|]. apply IH. auto.
      * rewrite find_other by (intros; split; discriminate). rewrite IH. intuition discriminate.
      * rewrite find_other by (intros; split; discriminate). rewrite IH. intuition discriminate.
      * rewrite find_other by (intros; split; discriminate). rewrite IH. intuition discriminate.
  - assert (P : forall h e, In e (lex_find (run (new_lexicon n) h) w) -> exists ha, since h e ha).
    { clear h. induction h as [|o h IH] using rev_ind; intros e; [intros []|].
      unfold run. rewrite fold_left_app. fold (run (new_lexicon n) h). cbn [fold_left].
      assert (W := run_wf h _ (new_wf n)).
      assert (T : In e (lex_find (run (new_lexicon n) h) w) -> o <> Rem e -> exists ha, since (h ++ [o]) e ha).
      { intros K Ho. destruct (IH e K) as (ha & S). exists ha. apply since_snoc; assumption. }
      destruct o as [d|d| | |].
      + simpl. rewrite find_insert by exact W. destruct (teqb w (le_word d)) eqn:Ew; [|intros K; apply T; [exact K|discriminate]].
        destruct (in_dec le_dec d _) as [K|K]; [intros K'; apply T; [exact K'|discriminate]|].
        rewrite in_app_iff. intros [K'|[->|[]]]; [apply T; [exact K'|discriminate]|].
        exists h, []. split; [reflexivity|]. split; [intros []|]. intros Q. apply K. apply teqb_eq in Ew.
        assert (G : forall h0 e0, present h0 e0 -> le_word e0 = w -> In e0 (lex_find (run (new_lexicon n) h0) w)).
        { clear - w. intros h0. induction h0 as [|o h IH] using rev_ind; intros e0 Hp Hw; [destruct (present_nil _ Hp)|].
          apply present_snoc in Hp. unfold run. rewrite fold_left_app. fold (run (new_lexicon n) h). cbn [fold_left].
          assert (W := run_wf h _ (new_wf n)). destruct o as [d|d| | |].
          - simpl. rewrite find_insert by exact W. destruct Hp as [Hp|(Hp & _)].
            + injection Hp as ->. rewrite <- Hw, teqb_refl. rewrite Hw. destruct (in_dec _ _ _); [assumption|apply in_or_app; right; left; reflexivity].
            + specialize (IH e0 Hp Hw). destruct (teqb _ _); [|exact IH]. destruct (in_dec _ _ _); [exact IH|apply in_or_app; left; exact IH].
          - simpl. rewrite find_remove by exact W. destruct Hp as [Hp|(Hp & N)]; [discriminate|]. apply in_in_remove; [congruence|auto].
          - rewrite find_other by (intros; split; discriminate). destruct Hp as [Hp|(Hp & _)]; [discriminate|auto].
          - rewrite find_other by (intros; split; discriminate). destruct Hp as [Hp|(Hp & _)]; [discriminate|auto].
          - rewrite find_other by (intros; split; discriminate). destruct Hp as [Hp|(Hp & _)]; [discriminate|auto]. }
        apply G; [exact Q|congruence].
      + simpl. rewrite find_remove by exact W. intros K. apply in_remove in K. destruct K as (K & N). apply T; [exact K|congruence].
      + rewrite find_other by (intros; split; discriminate). intros K. apply T; [exact K|discriminate].
      + rewrite find_other by (intros; split; discriminate). intros K. apply T; [exact K|discriminate].
      + rewrite find_other by (intros; split; discriminate). intros K. apply T; [exact K|discriminate]. }
    induction h as [|o h IH] using rev_ind; intros a b.
    { intros (l1 & l2 & l3 & H). simpl in H. destruct l1; discriminate. }
    unfold run. rewrite fold_left_app. fold (run (new_lexicon n) h). cbn [fold_left].
    assert (W := run_wf h _ (new_wf n)).
    assert (T : before (lex_find (run (new_lexicon n) h) w) a b -> o <> Rem a -> o <> Rem b ->
       exists ha hb, since (h ++ [o]) a ha /\ since (h ++ [o]) b hb /\ (List.length ha < List.length hb)%nat).
    { intros K Ha Hb. destruct (IH a b K) as (ha & hb & S1 & S2 & L). exists ha, hb.
      split; [apply since_snoc; assumption|]. split; [apply since_snoc; assumption|exact L]. }
    destruct o as [d|d| | |].
    + simpl. rewrite find_insert by exact W. destruct (teqb w (le_word d)) eqn:Ew; [|intros K; apply T; [exact K|discriminate|discriminate]].
      destruct (in_dec le_dec d _) as [K|K]; [intros K'; apply T; [exact K'|discriminate|discriminate]|].
      intros B. apply before_snoc in B. destruct B as [B|(-> & B)]; [apply T; [exact B|discriminate|discriminate]|].
      destruct (P h a B) as (ha & S). exists ha, h. split; [apply since_snoc; [exact S|discriminate]|].
      assert (Sb : exists hb, since (h ++ [Ins d]) d hb /\ hb = h).
      { exists h. split; [|reflexivity]. exists []. split; [reflexivity|]. split; [intros []|]. intros Q.
        assert (Z : In d (lex_find (run (new_lexicon n) (h ++ [Ins d])) w) /\ True).
        { split; [|exact I]. unfold run. rewrite fold_left_app. fold (run (new_lexicon n) h). cbn [fold_left step].
          rewrite find_insert by exact W. rewrite Ew. destruct (in_dec _ _ _); [contradiction|]. apply in_or_app. right. left. reflexivity. }
        clear Z. apply K. clear - Q Ew W. apply teqb_eq in Ew. revert d Q Ew W.
        induction h as [|o h IH] using rev_ind; intros e0 Hp Hw _; [destruct (present_nil _ Hp)|].
        apply present_snoc in Hp. unfold run. rewrite fold_left_app. fold (run (new_lexicon n) h). cbn [fold_left].
        assert (W := run_wf h _ (new_wf n)). destruct o as [d|d| | |].
        - simpl. rewrite find_insert by exact W. destruct Hp as [Hp|(Hp & _)].
          + injection Hp as ->. rewrite Hw, teqb_refl. destruct (in_dec _ _ _); [assumption|apply in_or_app; right; left; reflexivity].
          + specialize (IH e0 Hp Hw W). destruct (teqb _ _); [|exact IH]. destruct (in_dec _ _ _); [exact IH|apply in_or_app; left; exact IH].
        - simpl. rewrite find_remove by exact W. destruct Hp as [Hp|(Hp & N)]; [discriminate|]. apply in_in_remove; [congruence|auto].
        - rewrite find_other by (intros; split; discriminate). destruct Hp as [Hp|(Hp & _)]; [discriminate|auto].
        - rewrite find_other by (intros; split; discriminate). destruct Hp as [Hp|(Hp & _)]; [discriminate|auto].
        - rewrite find_other by (intros; split; discriminate). destruct Hp as [Hp|(Hp & _)]; [discriminate|auto]. }
      destruct Sb as (hb & Sb & ->). split; [exact Sb|].
      destruct S as (h2 & -> & _). rewrite app_length. simpl. lia.
    + simpl. rewrite find_remove by exact W. intros B. assert (B' := before_in _ _ _ _ B). destruct B' as (Ba & Bb).
      apply in_remove in Ba. apply in_remove in Bb. apply T; [eapply before_remove; exact B| |]; destruct Ba, Bb; congruence.
    + rewrite find_other by (intros; split; discriminate). intros K. apply T; [exact K|discriminate|discriminate].
    + rewrite find_other by (intros; split; discriminate). intros K. apply T; [exact K|discriminate|discriminate].
    + rewrite find_other by (intros; split; discriminate). intros K. apply T; [exact K|discriminate|discriminate].
Qed.

(** ** Caches *)
Lemma regex_nonempty : forall l, make_regex l <> [].
Proof. intros l. unfold make_regex. intros K. apply app_eq_nil in K. destruct K as (_ & K). discriminate. Qed.
Lemma step_cache : forall x o, cache_ok x -> cache_ok (step x o).
Proof.
  intros x o (C1 & C2 & C3). destruct o as [e|e| | |]; simpl.
  - unfold lex_insert. destruct (existsb _ _); [repeat split; assumption|]. repeat split; left; reflexivity.
  - unfold lex_remove. destruct (lex_find x (le_word e)); [repeat split; assumption|]. repeat split; left; reflexivity.
  - unfold lex_regex. destruct (x_regex x) eqn:E; simpl; repeat split; simpl; auto. rewrite E. exact C1.
  - unfold lex_pre. destruct (x_pre x) eqn:E; simpl; repeat split; simpl; auto. rewrite E. exact C2.
  - unfold lex_suf. destruct (x_suf x) eqn:E; simpl; repeat split; simpl; auto. rewrite E. exact C3.
Qed.
Lemma run_cache : forall h x, cache_ok x -> cache_ok (run x h).
Proof. induction h as [|o h IH]; intros x H; [exact H|]. simpl. apply IH, step_cache, H. Qed.
Lemma new_cache : forall n, cache_ok (new_lexicon n).
Proof. intros n. repeat split; left; reflexivity. Qed.
Lemma patterns_of : forall x, cache_ok x ->
  fst (lex_regex x) = make_regex (x_lex x) /\ fst (lex_pre x) = make_pre (x_lex x) /\ fst (lex_suf x) = make_suf (x_lex x).
Proof.
  intros x (C1 & C2 & C3). unfold lex_regex, lex_pre, lex_suf. repeat split.
  - destruct (x_regex x); [reflexivity|]. destruct C1; [discriminate|assumption].
  - destruct (x_pre x); [reflexivity|]. destruct C2; [discriminate|assumption].
  - destruct (x_suf x); [reflexivity|]. destruct C3; [discriminate|assumption].
Qed.
Lemma find_determines : forall x y, lex_wf (x_lex x) -> lex_wf (x_lex y) ->
  (forall w, lex_find x w = lex_find y w) -> x_lex x = x_lex y.
Proof.
  intros x y Wx Wy H. apply sorted_keys_ext; [apply Wx|apply Wy|]. intros k.
  rewrite !find_some_get by assumption. rewrite H. reflexivity.
Qed.
Lemma same_patterns : forall x y, lex_wf (x_lex x) -> lex_wf (x_lex y) -> cache_ok x -> cache_ok y ->
  (forall w, lex_find x w = lex_find y w) ->
  fst (lex_regex x) = fst (lex_regex y) /\ fst (lex_pre x) = fst (lex_pre y) /\ fst (lex_suf x) = fst (lex_suf y).
Proof.
  intros x y Wx Wy Cx Cy H. assert (E := find_determines x y Wx Wy H).
  destruct (patterns_of x Cx) as (-> & -> & ->). destruct (patterns_of y Cy) as (-> & -> & ->). rewrite E. auto.
Qed.
(** A history of insertions leading to the same entries. *)
Definition ins_all (l : list lexentry) : list lexop := map Ins l.
Lemma ins_all_find : forall l n w, NoDup l -> lex_find (run (new_lexicon n) (ins_all l)) w = filter (fun e => teqb w (le_word e)) l.
Proof.
  induction l as [|e l IH] using rev_ind; intros n w H; [reflexivity|].
  assert (Hl : NoDup l /\ ~ In e l).
  { apply NoDup_rev in H. rewrite rev_app_distr in H. simpl in H. inversion H as [|? ? H1 H2]; subst.
    apply NoDup_rev in H2. rewrite rev_involutive in H2. split; [exact H2|]. rewrite in_rev. exact H1. }
  destruct Hl as (Hl & He).
  unfold ins_all, run. rewrite map_app, fold_left_app. cbn [map fold_left step].
  fold (ins_all l). fold (run (new_lexicon n) (ins_all l)).
  rewrite find_insert by apply run_wf, new_wf. rewrite IH by exact Hl. rewrite filter_app. simpl.
  destruct (teqb w (le_word e)); [|rewrite app_nil_r; reflexivity].
  destruct (in_dec le_dec e _) as [K|K]; [|reflexivity]. apply filter_In in K. destruct K. contradiction.
Qed.
Lemma NoDup_concat_words : forall l, lex_wf l -> NoDup (concat (map snd l)).
Proof.
  intros l (H1 & H2). induction H1 as [|[k v] l Hl IH Hall]; [constructor|]. inversion H2 as [|? ? H2a H2b]; subst. simpl.
  destruct H2a as (_ & Hn & Hw). simpl in *. specialize (IH H2b).
  assert (D : forall e, In e v -> ~ In e (concat (map snd l))).
  { intros e He K. apply in_concat in K. destruct K as (vs & Hvs & K). apply in_map_iff in Hvs. destruct Hvs as ([k' v'] & <- & Hin).
    simpl in K. rewrite Forall_forall in Hw. apply Hw in He. rewrite Forall_forall in H2b. specialize (H2b _ Hin). destruct H2b as (_ & _ & Hw').
    simpl in Hw'. rewrite Forall_forall in Hw'. apply Hw' in K. rewrite Forall_forall in Hall. specialize (Hall _ Hin). simpl in Hall.
    rewrite <- He, <- K, tltb_irrefl in Hall. discriminate. }
  clear - Hn IH D. induction Hn as [|e v He Hv IHv]; simpl; [exact IH|]. constructor.
  - rewrite in_app_iff. intros [K|K]; [contradiction|]. apply (D e); [left; reflexivity|exact K].
  - apply IHv. intros z Hz. apply D. right. exact Hz.
Qed.
Lemma filter_words : forall (l : list (text * list lexentry)) w, lex_wf l ->
  filter (fun e => teqb w (le_word e)) (concat (map snd l)) = match map_get w l with Some v => v | None => [] end.
Proof.
  intros l w (H1 & H2). induction H1 as [|[k v] l Hl IH Hall]; [reflexivity|]. inversion H2 as [|? ? H2a H2b]; subst. simpl.
  destruct H2a as (_ & _ & Hw). simpl in *. rewrite filter_app, (IH H2b). destruct (teqb w k) eqn:E.
  - apply teqb_eq in E. subst k. rewrite (map_get_none _ w l Hall), app_nil_r. clear - Hw. induction Hw as [|e v He Hv IHv]; simpl; [reflexivity|].
    rewrite He, teqb_refl, IHv. reflexivity.
  - assert (Z : filter (fun e => teqb w (le_word e)) v = []).
    { clear - Hw E. induction Hw as [|e v He Hv IHv]; simpl; [reflexivity|]. rewrite He, E. exact IHv. }
    rewrite Z. reflexivity.
Qed.
Lemma fresh_exists : forall x n, lex_wf (x_lex x) -> exists es, forall w, lex_find (run (new_lexicon n) (map Ins es)) w = lex_find x w.
Proof.
  intros x n H. exists (concat (map snd (x_lex x))). intros w. fold (ins_all (concat (map snd (x_lex x)))).
  rewrite ins_all_find by (apply NoDup_concat_words; exact H). rewrite filter_words by exact H. reflexivity.
Qed.

Lemma never_stale : forall h h' n n', let x := run (new_lexicon n) h in let y := run (new_lexicon n') h' in
  (forall w, lex_find x w = lex_find y w) ->
  fst (lex_regex x) = fst (lex_regex y) /\ fst (lex_pre x) = fst (lex_pre y) /\ fst (lex_suf x) = fst (lex_suf y).
Proof.
  intros h h' n n' x y H. apply same_patterns; [apply run_wf, new_wf|apply run_wf, new_wf|apply run_cache, new_cache|apply run_cache, new_cache|exact H].
Qed.
Lemma fresh_history : forall h n, exists es, forall w, lex_find (run (new_lexicon n) (map Ins es)) w = lex_find (run (new_lexicon n) h) w.
Proof. intros h n. apply fresh_exists, run_wf, new_wf. Qed.
