(** Linking: what [update_pointers] does, and the characterization of grammar loading. *)
From Coq Require Import String List NArith ZArith Bool Lia.
From Verif Require Import Base_model Class_model Float_model Uni_model Rule_model Search_model Grammar_model
  Search_spec Grammar_spec Search_proofs SearchTop_proofs GrammarLine_proofs GrammarLoad_proofs.
Import ListNotations.
Local Open Scope N_scope.

Lemma link_all_spec : forall {A} (f : A -> outcome (A * text)) (R : A -> A -> Prop) (Q : A -> Prop) l,
  (forall x, In x l -> exists y t, f x = Ok (y, t) /\ R x y /\ (t = [] <-> Q x)) ->
  exists ys ts, link_all f l = Ok (ys, ts) /\ Forall2 R l ys /\ (ts = [] <-> Forall Q l).
Proof.
  intros A f R Q l. induction l as [|x l IH]; intros H.
  - exists [], []. simpl. repeat split; auto.
  - destruct (H x (or_introl eq_refl)) as (y & t & H1 & H2 & H3).
    destruct IH as (ys & ts & I1 & I2 & I3). { intros; apply H; right; auto. }
    exists (y :: ys), (t ++ ts). simpl. rewrite H1. simpl. rewrite I1. simpl. repeat split; auto.
    + intros K. apply app_eq_nil in K. destruct K. constructor; tauto.
    + intros K. inversion K; subst. rewrite (proj2 H3), (proj2 I3); auto.
Qed.

(** The invariant as a statement about a grammar whose references are not linked yet. *)
Definition unlinked (r : metarule) : Prop := r <> [] /\ exists ns, r = map new_ref ns.
Record prelinked (g : grammar) : Prop := {
  pl_unique : NoDup (section_names g);
  pl_index_unique : NoDup (map fst (g_index g));
  pl_index : forall n i, In (n, i) (g_index g) ->
      (exists ms, nth_error (g_metas g) i = Some ms /\ ms_name ms = n) \/
      (exists rs, nth_error (g_rules g) i = Some rs /\ rs_name rs = n);
  pl_indexed : forall n, In n (section_names g) -> In n (map fst (g_index g));
  pl_unlinked : forall ms r, In ms (g_metas g) -> In r (ms_rules ms) -> unlinked r }.

(** The same sections, references named alike and linked when they can be. *)
Definition ref_rel (g : grammar) (x y : sref) : Prop :=
  f_name y = f_name x /\ (In (f_name x) (section_names g) -> ref_ok g y).
Definition rule_rel (g : grammar) (x y : metarule) : Prop := Forall2 (ref_rel g) x y.
Definition meta_rel (g : grammar) (x y : metasection) : Prop :=
  ms_name y = ms_name x /\ Forall2 (rule_rel g) (ms_rules x) (ms_rules y).
Definition ref_def (g : grammar) (x : sref) : Prop := In (f_name x) (section_names g).
Definition meta_def (g : grammar) (x : metasection) : Prop := Forall (Forall (ref_def g)) (ms_rules x).

Lemma pl_names_index : forall g n, prelinked g -> (In n (map fst (g_index g)) <-> In n (section_names g)).
Proof.
  intros g n H. split; [|apply (pl_indexed g H)].
  intros K. apply in_map_iff in K. destruct K as ((m & i) & E & K). simpl in E. subst m.
  unfold section_names. destruct (pl_index g H _ _ K) as [(ms & H1 & <-)|(rs & H1 & <-)]; apply in_or_app.
  - left. apply in_map. eapply nth_error_In; eauto.
  - right. apply in_map. eapply nth_error_In; eauto.
Qed.

Lemma missing_nonempty : forall (w s : text), s2t "Missing rule: " ++ w ++ s = [] -> False.
Proof. intros. discriminate. Qed.

Lemma link_ref_spec : forall g self m n, prelinked g -> nth_error (g_metas g) self = Some m ->
  exists y t, link_ref (g_metas g) (g_rules g) (g_index g) self (ms_name m) (new_ref n) = Ok (y, t) /\
    ref_rel g (new_ref n) y /\ (t = [] <-> ref_def g (new_ref n)).
Proof.
  intros g self m n Hg Hm. unfold link_ref. cbn [f_name new_ref f_meta f_rule]. cbv zeta.
  assert (Hin : In (ms_name m) (section_names g)).
  { unfold section_names. apply in_or_app. left. apply in_map. eapply nth_error_In; eauto. }
  destruct (teqb n (ms_name m)) eqn:E.
  - apply teqb_eq in E. subst n. eexists _, _. split; [reflexivity|]. split.
    + split; [reflexivity|]. intros _. left. exists self, m. auto.
    + split; auto.
  - destruct (index_find (g_index g) n) as [i|] eqn:Ei.
    + pose proof (index_find_In _ _ _ Ei) as K.
      assert (Hn : In n (section_names g)).
      { apply pl_names_index; auto. apply in_map_iff. exists (n, i). auto. }
      destruct (nth_error (g_metas g) i) as [ms|] eqn:Em.
      * destruct (teqb (ms_name ms) n) eqn:Et.
        { apply teqb_eq in Et. eexists _, _. split; [reflexivity|]. split.
          - split; [reflexivity|]. intros _. left. exists i, ms. auto.
          - split; auto. }
        apply teqb_neq in Et.
        destruct (pl_index g Hg _ _ K) as [(ms' & K1 & K2)|(rs & K1 & K2)]; [congruence|].
        rewrite K1. rewrite (proj2 (teqb_eq _ _) K2). eexists _, _. split; [reflexivity|]. split.
        -- split; [reflexivity|]. intros _. right. split; auto. exists i, rs. auto.
        -- split; auto.
      * destruct (pl_index g Hg _ _ K) as [(ms' & K1 & K2)|(rs & K1 & K2)]; [congruence|].
        rewrite K1. rewrite (proj2 (teqb_eq _ _) K2). eexists _, _. split; [reflexivity|]. split.
        -- split; [reflexivity|]. intros _. right. split; auto. exists i, rs. auto.
        -- split; auto.
    + apply index_find_None in Ei.
      assert (Hn : ~ In n (section_names g)) by (rewrite <- pl_names_index; auto).
      eexists _, _. split; [reflexivity|]. split.
      * split; [reflexivity|]. simpl. intros; contradiction.
      * split; [intros K; exfalso; exact (missing_nonempty _ _ K)|]. unfold ref_def. simpl. intros; contradiction.
Qed.

Lemma link_rule_spec : forall g self m r, prelinked g -> nth_error (g_metas g) self = Some m -> unlinked r ->
  exists y t, link_rule (g_metas g) (g_rules g) (g_index g) self (ms_name m) r = Ok (y, t) /\
    rule_rel g r y /\ (t = [] <-> Forall (ref_def g) r).
Proof.
  intros g self m r Hg Hm (Hr & ns & ->). unfold link_rule.
  apply link_all_spec. intros x Hx. apply in_map_iff in Hx. destruct Hx as (n & <- & _).
  apply link_ref_spec; auto.
Qed.

Lemma link_section_spec : forall g self m, prelinked g -> nth_error (g_metas g) self = Some m ->
  exists y t, link_section (g_metas g) (g_rules g) (g_index g) self m = Ok (y, t) /\
    meta_rel g m y /\ (t = [] <-> meta_def g m).
Proof.
  intros g self m Hg Hm. unfold link_section.
  destruct (link_all_spec (link_rule (g_metas g) (g_rules g) (g_index g) self (ms_name m))
              (rule_rel g) (Forall (ref_def g)) (ms_rules m)) as (ys & ts & H1 & H2 & H3).
  - intros r Hr. apply link_rule_spec; auto. apply (pl_unlinked g Hg m r); auto. eapply nth_error_In; eauto.
  - rewrite H1. simpl. eexists _, _. split; [reflexivity|]. split; [split; auto|exact H3].
Qed.

Lemma link_metas_spec : forall g, prelinked g -> forall l self,
  (forall i m, nth_error l i = Some m -> nth_error (g_metas g) (self + i) = Some m) ->
  exists ys ts, link_metas (g_metas g) (g_rules g) (g_index g) self l = Ok (ys, ts) /\
    Forall2 (meta_rel g) l ys /\ (ts = [] <-> Forall (meta_def g) l).
Proof.
  intros g Hg. induction l as [|m l IH]; intros self H.
  - exists [], []. simpl. repeat split; auto.
  - destruct (link_section_spec g self m Hg) as (y & t & H1 & H2 & H3).
    { rewrite <- (Nat.add_0_r self). apply H. reflexivity. }
    destruct (IH (S self)) as (ys & ts & I1 & I2 & I3).
    { intros i m' K. replace (S self + i)%nat with (self + S i)%nat by lia. apply H. exact K. }
    exists (y :: ys), (t ++ ts). simpl. rewrite H1. simpl. rewrite I1. simpl. repeat split; auto.
    + intros K. apply app_eq_nil in K. destruct K. constructor; tauto.
    + intros K. inversion K; subst. rewrite (proj2 H3), (proj2 I3); auto.
Qed.

(** References and issues. *)
Lemma all_refs_In : forall ms n, In n (all_refs ms) <->
  exists m r x, In m ms /\ In r (ms_rules m) /\ In x r /\ f_name x = n.
Proof.
  intros. unfold all_refs. rewrite in_concat. split.
  - intros (l & H1 & H2). apply in_map_iff in H1. destruct H1 as (m & <- & H1).
    apply in_concat in H2. destruct H2 as (l' & H2 & H3). apply in_map_iff in H2. destruct H2 as (r & <- & H2).
    apply in_map_iff in H3. destruct H3 as (x & <- & H3). exists m, r, x. auto.
  - intros (m & r & x & H1 & H2 & H3 & <-).
    eexists. split. { apply in_map_iff. exists m. split; [reflexivity|exact H1]. }
    apply in_concat. eexists. split. { apply in_map_iff. exists r. split; [reflexivity|exact H2]. }
    apply in_map. exact H3.
Qed.

Lemma text_mem_In : forall w l, text_mem w l = true <-> In w l.
Proof.
  intros. unfold text_mem. rewrite existsb_exists. split.
  - intros (x & H1 & H2). apply teqb_eq in H2. subst. auto.
  - intros H. exists w. split; auto. apply teqb_refl.
Qed.

Lemma unref_issue_nil : forall refs n, unref_issue refs n = [] <-> (In n refs \/ n = ADDRESS).
Proof.
  intros. unfold unref_issue.
  destruct (text_mem n refs) eqn:E1; simpl.
  - apply text_mem_In in E1. tauto.
  - destruct (teqb n ADDRESS) eqn:E2; simpl.
    + apply teqb_eq in E2. tauto.
    + apply teqb_neq in E2. split; [discriminate|]. intros [K|K]; [|contradiction].
      apply text_mem_In in K. congruence.
Qed.

Lemma concat_nil_Forall : forall {A} (l : list (list A)), List.concat l = [] <-> Forall (fun x => x = []) l.
Proof.
  induction l as [|x l IH]; simpl; split; intros H; auto.
  - apply app_eq_nil in H. destruct H. constructor; tauto.
  - inversion H; subst. simpl. tauto.
Qed.

Lemma invalid_issues_nil : forall n rs pos, Forall (fun r => rule_valid r = true) rs -> invalid_issues n pos rs = [].
Proof.
  intros n rs. induction rs as [|r rs IH]; intros pos H; simpl; auto.
  inversion H; subst. rewrite H2. simpl. auto.
Qed.

Lemma rule_issues_valid : forall refs rs checked,
  Forall (fun sec => Forall (fun r => rule_valid r = true) (rs_rules sec)) rs ->
  rule_issues refs checked rs = (List.concat (map (fun e => unref_issue refs (rs_name e)) rs), []).
Proof.
  intros refs rs. induction rs as [|e rs IH]; intros checked H; simpl; auto.
  inversion H; subst. rewrite (IH _ H3), invalid_issues_nil by auto.
  destruct (text_mem _ _); reflexivity.
Qed.

Lemma nonempty_false : forall t, nonempty t = false <-> t = [].
Proof. intros [|c t]; simpl; split; intros; congruence. Qed.

Definition referenced (ms : list metasection) (n : text) : Prop :=
  exists m r x, In m ms /\ In r (ms_rules m) /\ In x r /\ f_name x = n.

Lemma update_pointers_spec : forall g, prelinked g ->
  Forall (fun sec => Forall (fun r => rule_valid r = true) (rs_rules sec)) (g_rules g) ->
  exists g' st issues, update_pointers g = Ok (g', st, issues) /\
    Forall2 (meta_rel g) (g_metas g) (g_metas g') /\ g_rules g' = g_rules g /\ g_index g' = g_index g /\
    (st <> CHECK_FATAL <-> (Forall (meta_def g) (g_metas g) /\ In ADDRESS (section_names g))) /\
    (st <> CHECK_FATAL ->
     (st = CHECK_OK <-> forall n, In n (section_names g) -> referenced (g_metas g) n \/ n = ADDRESS)) /\
    (st <> CHECK_FATAL -> st = CHECK_OK -> issues = []).
Proof.
  intros g Hg Hv. unfold update_pointers.
  destruct (link_metas_spec g Hg (g_metas g) 0%nat) as (ys & ts & H1 & H2 & H3). { auto. }
  rewrite H1. cbn [obind]. rewrite rule_issues_valid by exact Hv.
  eexists _, _, _. split; [reflexivity|]. cbn [g_metas g_rules g_index].
  split; auto. split; auto. split; auto.
  set (addr := match index_find (g_index g) ADDRESS with Some _ => [] | None => _ end).
  assert (Ha : addr = [] <-> In ADDRESS (section_names g)).
  { unfold addr. rewrite <- pl_names_index by auto. destruct (index_find (g_index g) ADDRESS) as [i|] eqn:E.
    - split; auto. intros _. apply index_find_In in E. apply in_map_iff. exists (ADDRESS, i). auto.
    - apply index_find_None in E. split; [discriminate|contradiction]. }
  set (mu := List.concat (map (fun e => unref_issue (all_refs (g_metas g)) (ms_name e)) ys)).
  set (ri := List.concat (map (fun e => unref_issue (all_refs (g_metas g)) (rs_name e)) (g_rules g))).
  assert (Hys : map ms_name ys = map ms_name (g_metas g)).
  { clear - H2. induction H2; simpl; auto. destruct H as (-> & _). congruence. }
  assert (Hr : mu ++ ri = [] <-> forall n, In n (section_names g) -> referenced (g_metas g) n \/ n = ADDRESS).
  { unfold mu, ri. rewrite <- (map_map ms_name (unref_issue (all_refs (g_metas g))) ys), Hys.
    rewrite <- (map_map rs_name (unref_issue (all_refs (g_metas g))) (g_rules g)).
    rewrite <- concat_app, <- map_app. rewrite concat_nil_Forall. rewrite Forall_forall. split.
    - intros K n Hn. assert (L : unref_issue (all_refs (g_metas g)) n = []) by (apply K; apply in_map; exact Hn).
      apply unref_issue_nil in L. destruct L as [L|L]; auto. left. apply all_refs_In. exact L.
    - intros K x Hx. apply in_map_iff in Hx. destruct Hx as (n & <- & Hn).
      apply unref_issue_nil. destruct (K n Hn) as [L|L]; auto. left. apply all_refs_In. exact L. }
  assert (Hf : (nonempty ts || nonempty addr || nonempty [] = false) <->
               (Forall (meta_def g) (g_metas g) /\ In ADDRESS (section_names g))).
  { rewrite !orb_false_iff, !nonempty_false. rewrite H3, Ha. simpl. tauto. }
  assert (Hw : (nonempty mu || nonempty ri = false) <-> mu ++ ri = []).
  { rewrite orb_false_iff, !nonempty_false. split.
    - intros (-> & ->). reflexivity.
    - intros K. apply app_eq_nil in K. exact K. }
  destruct (nonempty ts || nonempty addr || nonempty []) eqn:Ef.
  - split; [split; [congruence|]|split; congruence]. intros K. apply Hf in K. discriminate.
  - assert (Gf := proj1 Hf eq_refl).
    split; [split; [auto|]|].
    { intros _. destruct (nonempty mu || nonempty ri); discriminate. }
    destruct (nonempty mu || nonempty ri) eqn:Ew.
    + split; [|congruence]. intros _. split; [discriminate|]. intros K. apply Hr in K. apply Hw in K. discriminate.
    + split.
      * intros _. split; auto. intros _. apply Hr. apply Hw. reflexivity.
      * intros _ _. assert (K := proj1 Hw eq_refl). rewrite K, app_nil_r.
        destruct Gf as (G1 & G2). rewrite (proj2 H3 G1), (proj2 Ha G2). reflexivity.
Qed.
