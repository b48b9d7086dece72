(** Consequences for whole sessions (C48-C51, C66), and concrete sessions. *)
From Coq Require Import String List NArith ZArith Bool Lia Sorting.Permutation.
From Verif Require Import Base_model Float_model Uni_model Token_model Rule_model Search_model Grammar_model Lexicon_model Tokenizer_model
  Archive_model Wrapper_model Md5_model Sample_model Wrapper_spec Cache_model Cache_spec Lexicon_spec Search_proofs WrapperEx_proofs CacheMem_proofs Cache_proofs.
Import ListNotations.
Local Open Scope N_scope.

(** ** C48, C66 *)
Lemma answer_right : forall sv ops b l1 f a id row l2, fresh_contexts sv -> stores_patterns sv -> session sv new_backend ops = Ok b ->
  be_log b = l1 ++ Answered f a id row :: l2 ->
  exists lex gmr, In (Built f id lex gmr) l1 /\ ~ was_freed l1 id /\ sv_digest sv lex = sv_digest sv (a_lexicon a) /\ sv_digest sv gmr = sv_digest sv (a_grammar a) /\
    address_row (std_standardize (sv_env sv) (sv_atof sv) (a_address a) gmr lex (a_locale a) (a_filter a)) = Ok row.
Proof.
  intros sv ops b l1 f a id row l2 FC SP S1 L. destruct (run_ok _ _ _ FC SP S1) as (E & O).
  destruct (sound_answer _ _ (m_sound _ _ _ _ (ok_mem _ _ _ _ O)) _ _ _ _ _ _ L) as (NF & lex & gmr & A1 & A2 & A3 & A4). exists lex, gmr. auto 6.
Qed.
Lemma in_answered : forall f a l1 id row l2, In (f, a) (answered_calls (l1 ++ Answered f a id row :: l2)).
Proof. intros. rewrite answered_app. apply in_app_iff. right. left. reflexivity. Qed.
Lemma in_calls : forall f a ops, In (f, a) (calls_of ops) -> In (Call f a) ops.
Proof.
  intros f a ops H. unfold calls_of in H. apply in_concat in H. destruct H as (l & H & I). apply in_map_iff in H. destruct H as (o & <- & J). destruct o as [f' a'|f']; [|destruct I].
  destruct I as [I|[]]. injection I as -> ->. exact J.
Qed.
Lemma answer_exact : forall sv ops b l1 f a id row l2, fresh_contexts sv -> stores_patterns sv -> no_collisions sv ops -> session sv new_backend ops = Ok b ->
  be_log b = l1 ++ Answered f a id row :: l2 ->
  In (Built f id (a_lexicon a) (a_grammar a)) l1 /\
  address_row (std_standardize (sv_env sv) (sv_atof sv) (a_address a) (a_grammar a) (a_lexicon a) (a_locale a) (a_filter a)) = Ok row.
Proof.
  intros sv ops b l1 f a id row l2 FC SP NC S1 L. destruct (answer_right _ _ _ _ _ _ _ _ _ FC SP S1 L) as (lex & gmr & A1 & _ & A3 & A4 & A5).
  destruct (run_ok _ _ _ FC SP S1) as (E & O).
  destruct (ok_from _ _ _ _ O f id lex gmr) as (a' & C1 & C2 & C3); [rewrite L; apply in_app_iff; left; exact A1|].
  assert (CA : called ops a). { exists f. apply in_calls. rewrite <- (ok_answers _ _ _ _ O), L. apply in_answered. }
  assert (CA' : called ops a') by (exists f; exact C1). destruct (NC a' a CA' CA) as (N1 & N2). rewrite C2 in N1. rewrite C3 in N2. rewrite <- (N1 A3), <- (N2 A4). auto.
Qed.
Lemma all_answered : forall sv ops b, fresh_contexts sv -> stores_patterns sv -> session sv new_backend ops = Ok b -> answered_calls (be_log b) = calls_of ops.
Proof. intros sv ops b FC SP S1. destruct (run_ok _ _ _ FC SP S1) as (E & O). apply (ok_answers _ _ _ _ O). Qed.
(** The rows, one for each call, as without a cache. *)
Lemma rows_of_log : forall sv (l : list event), (forall l1 f a id row l2, l = l1 ++ Answered f a id row :: l2 ->
    address_row (std_standardize (sv_env sv) (sv_atof sv) (a_address a) (a_grammar a) (a_lexicon a) (a_locale a) (a_filter a)) = Ok row) ->
  map (fun fa => address_row (std_standardize (sv_env sv) (sv_atof sv) (a_address (snd fa)) (a_grammar (snd fa)) (a_lexicon (snd fa)) (a_locale (snd fa)) (a_filter (snd fa))))
      (answered_calls l) = map (fun r => Ok r) (rows_of l).
Proof.
  induction l as [|e l IH] using rev_ind; intros H; [reflexivity|]. rewrite answered_app, map_app, IH.
  - unfold rows_of. rewrite !map_app, concat_app, map_app. f_equal. destruct e as [| |f a id row]; [reflexivity|reflexivity|]. cbn. f_equal. apply (H l f a id row []). reflexivity.
  - intros l1 f a id row l2 ->. apply (H l1 f a id row (l2 ++ [e])). rewrite <- app_assoc. reflexivity.
Qed.
Lemma same_rows : forall sv ops b, fresh_contexts sv -> stores_patterns sv -> no_collisions sv ops -> session sv new_backend ops = Ok b ->
  map (fun fa => address_row (std_standardize (sv_env sv) (sv_atof sv) (a_address (snd fa)) (a_grammar (snd fa)) (a_lexicon (snd fa)) (a_locale (snd fa)) (a_filter (snd fa))))
      (calls_of ops) = map (fun r => Ok r) (rows_of (be_log b)).
Proof.
  intros sv ops b FC SP NC S1. rewrite <- (all_answered _ _ _ FC SP S1). apply rows_of_log. intros l1 f a id row l2 L. eapply answer_exact; eassumption.
Qed.

(** ** C49 *)
Lemma held_keys : forall c q, ring_ok c q -> Permutation (concat (map item_key (pc_items c))) (map en_key q).
Proof.
  intros c q (_ & _ & _ & R). assert (P : Permutation (pc_items c) (repeat empty_item (4 - List.length q) ++ map full q)).
  { rewrite <- R. unfold ring. rewrite Permutation_app_comm, firstn_skipn. reflexivity. }
  rewrite <- !flat_map_concat_map. rewrite (Permutation_flat_map _ P), flat_map_app.
  assert (flat_map item_key (repeat empty_item (4 - List.length q)) = []) as ->. { clear. induction (4 - List.length q)%nat as [|n IH]; [reflexivity|exact IH]. }
  cbn [app]. clear. induction q as [|e q IH]; [constructor|]. cbn. constructor. exact IH.
Qed.
Lemma held_ids : forall c q, ring_ok c q -> Permutation (concat (map (fun i => match ci_std i with Some id => [id] | None => [] end) (pc_items c))) (map en_id q).
Proof.
  intros c q (_ & _ & _ & R). assert (P : Permutation (pc_items c) (repeat empty_item (4 - List.length q) ++ map full q)).
  { rewrite <- R. unfold ring. rewrite Permutation_app_comm, firstn_skipn. reflexivity. }
  rewrite <- !flat_map_concat_map. rewrite (Permutation_flat_map _ P), flat_map_app.
  match goal with |- Permutation (?h ++ _) _ => assert (h = []) as -> end. { clear. induction (4 - List.length q)%nat as [|n IH]; [reflexivity|exact IH]. }
  cbn [app]. clear. induction q as [|e q IH]; [constructor|]. cbn. constructor. exact IH.
Qed.
Lemma four_places : forall sv ops b f, fresh_contexts sv -> stores_patterns sv -> session sv new_backend ops = Ok b ->
  (List.length (ids_held b f) <= 4)%nat /\ NoDup (keys_held b f) /\ List.length (keys_held b f) = List.length (ids_held b f).
Proof.
  intros sv ops b f FC SP S1. destruct (run_ok _ _ _ FC SP S1) as (E & O). pose proof (ok_ring _ _ _ _ O f) as R. unfold ids_held, keys_held.
  rewrite (Permutation_length (held_ids _ _ R)), (Permutation_length (held_keys _ _ R)), !map_length. split; [apply R|]. split; [|reflexivity].
  apply (Permutation_NoDup (Permutation_sym (held_keys _ _ R))). apply (ok_keys _ _ _ _ O).
Qed.
Lemma held_in_use : forall sv ops b id, fresh_contexts sv -> stores_patterns sv -> session sv new_backend ops = Ok b ->
  (In id (map fst (be_objects b)) <-> in_use (be_log b) id) /\ (in_use (be_log b) id <-> exists f, In id (ids_held b f)) /\
  (forall f g, In id (ids_held b f) -> In id (ids_held b g) -> f = g) /\ (forall f, NoDup (ids_held b f)).
Proof.
  intros sv ops b id FC SP S1. destruct (run_ok _ _ _ FC SP S1) as (E & [M R K Q B FR AN]).
  assert (HI : forall f, In id (ids_held b f) <-> exists e, In e E /\ en_site e = f /\ en_id e = id).
  { intros f. pose proof (held_ids _ _ (R f)) as P. split.
    - intros I. apply (Permutation_in _ P) in I. apply in_map_iff in I. destruct I as (e & EQ & I). apply of_site_in in I. exists e. tauto.
    - intros (e & I & SE & EQ). apply (Permutation_in _ (Permutation_sym P)). apply in_map_iff. exists e. split; [exact EQ|apply of_site_in; auto]. }
  pose proof (m_use _ _ _ _ M id) as U. cbn [app] in U. pose proof (m_objs _ _ _ _ M) as PO. cbn [app] in PO. pose proof (m_ids _ _ _ _ M) as ND. cbn [app] in ND.
  split; [|split; [|split]].
  - rewrite U. split; intros I; [exact (Permutation_in _ PO I)|exact (Permutation_in _ (Permutation_sym PO) I)].
  - rewrite U, in_map_iff. split.
    + intros (e & EQ & I). exists (en_site e). apply HI. exists e. auto.
    + intros (f & I). apply HI in I. destruct I as (e & I & _ & EQ). exists e. auto.
  - intros f g I J. apply HI in I, J. destruct I as (e & I & <- & EQ), J as (e' & J & <- & EQ'). f_equal.
    assert (UQ : forall l, NoDup (map en_id l) -> In e l -> In e' l -> e = e'); [|exact (UQ E ND I J)]. clear - EQ EQ'. induction l as [|a l IH]; intros D I J; [destruct I|]. cbn [map] in D. inversion D as [|? ? NI D']. subst.
    destruct I as [->|I], J as [->|J]; [reflexivity| | |exact (IH D' I J)].
    + exfalso. apply NI. rewrite <- EQ'. apply in_map. exact J.
    + exfalso. apply NI. rewrite EQ'. apply in_map. exact I.
  - intros f. apply (Permutation_NoDup (Permutation_sym (held_ids _ _ (R f)))). clear - ND. induction E as [|a E IH]; [constructor|]. cbn [map] in ND. inversion ND as [|? ? NI D]. subst.
    unfold of_site. cbn [filter]. fold (of_site f E). destruct (en_site a =? f); [|exact (IH D)]. cbn [map]. constructor; [|exact (IH D)].
    intros I. apply NI. apply in_map_iff in I. destruct I as (e & <- & I). apply in_map. apply of_site_in in I. apply I.
Qed.
Lemma ids_built_in : forall l id, In id (ids_built l) <-> was_built l id.
Proof.
  intros l id. unfold ids_built, was_built. rewrite in_concat. split.
  - intros (s & I & J). apply in_map_iff in I. destruct I as (e & <- & I). destruct e as [f i lex gmr|i|f a i row]; try destruct J as []. subst. eauto. destruct H.
  - intros (f & lex & gmr & I). exists [id]. split; [|left; reflexivity]. apply in_map_iff. exists (Built f id lex gmr). auto.
Qed.
Lemma ids_freed_in : forall l id, In id (ids_freed l) <-> was_freed l id.
Proof.
  intros l id. unfold ids_freed, was_freed. rewrite in_concat. split.
  - intros (s & I & J). apply in_map_iff in I. destruct I as (e & <- & I). destruct e as [f i lex gmr|i|f a i row]; try destruct J as []. subst. exact I. destruct H.
  - intros I. exists [id]. split; [|left; reflexivity]. apply in_map_iff. exists (Freed id). auto.
Qed.
Lemma once : forall sv l, sound sv l -> NoDup (ids_built l) /\ NoDup (ids_freed l) /\ incl (ids_freed l) (ids_built l).
Proof.
  intros sv l H. unfold ids_built, ids_freed. induction H as [|l f' id' lex gmr H (A & B & C) NB NF|l id' H (A & B & C) U|l f' a' id' row' lex gmr H (A & B & C) U Bu D1 D2 R];
    rewrite ?map_app, ?concat_app; cbn [map concat app]; rewrite ?app_nil_r.
  - repeat split; try constructor. intros ? [].
  - split; [|split; [exact B|apply incl_appl; exact C]]. apply (Permutation_NoDup (Permutation_cons_append _ _)). constructor; [|exact A]. intros I. apply NB, ids_built_in, I.
  - split; [exact A|]. split.
    + apply (Permutation_NoDup (Permutation_cons_append _ _)). constructor; [|exact B]. intros I. apply U, ids_freed_in, I.
    + intros i I. apply in_app_iff in I. destruct I as [I|[<-|[]]]; [exact (C i I)|apply ids_built_in, U].
  - auto.
Qed.
Lemma freed_once : forall sv ops b, fresh_contexts sv -> stores_patterns sv -> session sv new_backend ops = Ok b ->
  NoDup (ids_built (be_log b)) /\ NoDup (ids_freed (be_log b)) /\ incl (ids_freed (be_log b)) (ids_built (be_log b)).
Proof. intros sv ops b FC SP S1. destruct (run_ok _ _ _ FC SP S1) as (E & O). exact (once sv _ (m_sound _ _ _ _ (ok_mem _ _ _ _ O))). Qed.
Lemma free_order : forall sv ops b l1 id l2, fresh_contexts sv -> stores_patterns sv -> session sv new_backend ops = Ok b ->
  be_log b = l1 ++ Freed id :: l2 -> in_use l1 id.
Proof. intros sv ops b l1 id l2 FC SP S1 L. destruct (run_ok _ _ _ FC SP S1) as (E & O). exact (sound_free sv _ (m_sound _ _ _ _ (ok_mem _ _ _ _ O)) _ _ _ L). Qed.
Lemma no_entries : forall sv ops b E, ok sv ops b E -> (forall f, fst (queue sv f ops) = []) -> E = [].
Proof.
  intros sv ops b E O Q. destruct E as [|e E]; [reflexivity|]. exfalso. pose proof (ok_queue _ _ _ _ O (en_site e)) as K. rewrite Q in K.
  unfold of_site in K. cbn [filter] in K. rewrite N.eqb_refl in K. discriminate.
Qed.
Lemma ends_queue : forall sv f fs t, In f fs \/ fst t = [] -> fst (fold_left (queue_step sv f) (map End fs) t) = [].
Proof.
  intros sv f. induction fs as [|h fs IH]; intros t T; [destruct T as [[]|T]; exact T|]. cbn [map fold_left queue_step]. apply IH. destruct (N.eqb_spec h f) as [->|N]; [right; reflexivity|].
  destruct T as [[->|T]|T]; [congruence|left; exact T|right; exact T].
Qed.
Lemma queue_ends : forall sv ops fs f, (forall a, In (Call f a) ops -> In f fs) -> fst (queue sv f (ops ++ map End fs)) = [].
Proof.
  intros sv ops fs f. unfold queue. intros H. rewrite fold_left_app.
  assert (K : In f fs \/ fst (fold_left (queue_step sv f) ops ([], [])) = []).
  { destruct (in_dec N.eq_dec f fs) as [I|NI]; [left; exact I|right]. assert (NC : forall a, ~ In (Call f a) ops) by (intros a I; exact (NI (H a I))).
    clear - NC. induction ops as [|o ops IH] using rev_ind; [reflexivity|]. rewrite fold_left_app. cbn [fold_left].
    assert (NC' : forall a, ~ In (Call f a) ops) by (intros a I; apply (NC a), in_app_iff; left; exact I). specialize (IH NC').
    destruct o as [f' a|f']; cbn [queue_step].
    - destruct (N.eqb_spec f' f) as [->|N]; [exfalso; apply (NC a), in_app_iff; right; left; reflexivity|exact IH].
    - destruct (f' =? f); [reflexivity|exact IH]. }
  revert K. apply ends_queue.
Qed.
Lemma ends_ok : forall sv fs ops b E, ok sv ops b E -> exists b' E', session sv b (map End fs) = Ok b' /\ ok sv (ops ++ map End fs) b' E'.
Proof.
  intros sv fs. induction fs as [|f fs IH]; intros ops b E O; [exists b, E; rewrite app_nil_r; auto|]. cbn [map session do_op].
  destruct (end_ok sv ops b E f O) as (b1 & E1 & D & O1). rewrite D. cbn [obind]. destruct (IH _ _ _ O1) as (b' & E' & S1 & O'). exists b', E'. rewrite <- app_assoc in O'. auto.
Qed.
Lemma all_freed : forall sv ops b fs, fresh_contexts sv -> stores_patterns sv -> session sv new_backend ops = Ok b -> (forall f a, In (Call f a) ops -> In f fs) ->
  exists b', session sv new_backend (ops ++ map End fs) = Ok b' /\ be_objects b' = [] /\ be_hash b' = [] /\
    Permutation (ids_freed (be_log b')) (ids_built (be_log b')) /\ ids_built (be_log b') = ids_built (be_log b).
Proof.
  intros sv ops b fs FC SP S1 H. destruct (run_ok _ _ _ FC SP S1) as (E & O). destruct (ends_ok sv fs ops b E O) as (b' & E' & S2 & O').
  exists b'. split; [rewrite session_app, S1; exact S2|]. assert (EN : E' = []) by (eapply no_entries; [exact O'|intros f; apply queue_ends; apply H]). subst.
  destruct O' as [M R K Q B FR AN]. split; [|split; [|split]].
  - pose proof (Permutation_sym (m_objs _ _ _ _ M)) as P. cbn [app map] in P. apply Permutation_nil in P. apply map_eq_nil in P. exact P.
  - pose proof (Permutation_sym (m_hash _ _ _ _ M)) as P. cbn [map] in P. apply Permutation_nil in P. exact P.
  - destruct (once sv _ (m_sound _ _ _ _ M)) as (A1 & A2 & A3). apply NoDup_Permutation; [exact A2|exact A1|]. intros id. split; [apply A3|]. intros I.
    apply ids_freed_in. destruct (in_dec N.eq_dec id (ids_freed (be_log b'))) as [J|J]; [apply ids_freed_in; exact J|exfalso].
    pose proof (proj1 (m_use _ _ _ _ M id)) as U. apply U. split; [apply ids_built_in; exact I|]. intros F. apply J, ids_freed_in, F.
  - clear - S2. revert b S2. induction fs as [|f fs IH]; intros b S2; [injection S2 as <-; reflexivity|]. cbn [map session do_op] in S2.
    destruct (end_site b f) as [b1|m|] eqn:D; try discriminate. cbn [obind] in S2. rewrite (IH _ S2). clear - D. unfold end_site in D.
    destruct (delete_all b f (pc_children (site b f))) as [b2|m|] eqn:DA; try discriminate. injection D as <-. cbn [be_log]. revert DA. generalize (pc_children (site b f)).
    intros l. revert b. induction l as [|c l IH]; intros b DA; [injection DA as <-; reflexivity|]. cbn [delete_all] in DA. destruct (context_delete b f c) as [b1|m|] eqn:CD; try discriminate.
    cbn [obind] in DA. rewrite (IH _ DA). clear - CD. unfold context_delete in CD. destruct (existsb _ _); [|discriminate]. unfold context_callback in CD.
    destruct (nget c (be_hash b)) as [id|]; [|discriminate]. unfold std_free in CD. destruct (nget id (be_objects b)); [|discriminate]. cbn [obind] in CD. injection CD as <-.
    unfold set_site, note. cbn [be_log]. unfold ids_built. rewrite map_app, concat_app. apply app_nil_r.
Qed.

(** ** C50 *)
Lemma places_queue : forall sv ops b f, fresh_contexts sv -> stores_patterns sv -> session sv new_backend ops = Ok b ->
  Permutation (keys_held b f) (fst (queue sv f ops)) /\ keys_built sv f (be_log b) = snd (queue sv f ops).
Proof.
  intros sv ops b f FC SP S1. destruct (run_ok _ _ _ FC SP S1) as (E & O). split; [|apply (ok_built _ _ _ _ O)].
  rewrite <- (ok_queue _ _ _ _ O f). apply held_keys. apply (ok_ring _ _ _ _ O).
Qed.
Lemma few_queue : forall sv f ks ops, (List.length ks <= 4)%nat -> ~ In (End f) ops -> (forall a, In (Call f a) ops -> In (key_of sv a) ks) ->
  let q := queue sv f ops in fst q = snd q /\ NoDup (snd q) /\ forall k, In k (snd q) <-> exists a, In (Call f a) ops /\ key_of sv a = k.
Proof.
  intros sv f ks ops LK. induction ops as [|o ops IH] using rev_ind; intros NE IK; [repeat split; [constructor|intros []|intros (a & [] & _)]|].
  destruct IH as (A & B & C); [intros I; apply NE, in_app_iff; left; exact I|intros a I; apply IK, in_app_iff; left; exact I|]. cbv zeta. rewrite queue_snoc.
  destruct o as [f' a|f']; cbn [queue_step].
  - destruct (N.eqb_spec f' f) as [->|N].
    + destruct (in_dec key_eq_dec (key_of sv a) (fst (queue sv f ops))) as [I|NI].
      * split; [exact A|]. split; [exact B|]. intros k. rewrite C. split.
        -- intros (a' & I' & K). exists a'. split; [apply in_app_iff; left; exact I'|exact K].
        -- intros (a' & I' & K). apply in_app_iff in I'. destruct I' as [I'|[I'|[]]]; [exists a'; auto|]. injection I' as ->. apply C. rewrite <- A, <- K. exact I.
      * assert (L3 : (S (List.length (snd (queue sv f ops))) <= List.length ks)%nat).
        { apply (NoDup_incl_length (l := key_of sv a :: snd (queue sv f ops))); [constructor; [rewrite <- A; exact NI|exact B]|].
          intros k [<-|I]; [apply IK, in_app_iff; right; left; reflexivity|]. apply C in I. destruct I as (a' & I & <-). apply IK, in_app_iff. left. exact I. }
        cbn [fst snd]. unfold shift. rewrite A. destruct (Nat.eqb_spec (List.length (snd (queue sv f ops))) 4); [lia|]. split; [reflexivity|]. split.
        -- apply (Permutation_NoDup (Permutation_cons_append _ _)). constructor; [rewrite <- A; exact NI|exact B].
        -- intros k. rewrite in_app_iff, C. split.
           ++ intros [(a' & I' & K)|[<-|[]]]; [exists a'; split; [apply in_app_iff; left; exact I'|exact K]|]. exists a. split; [apply in_app_iff; right; left; reflexivity|reflexivity].
           ++ intros (a' & I' & K). apply in_app_iff in I'. destruct I' as [I'|[I'|[]]]; [left; exists a'; auto|]. injection I' as ->. right. left. exact K.
    + split; [exact A|]. split; [exact B|]. intros k. rewrite C. split; intros (a' & I' & K); exists a'; (split; [|exact K]).
      * apply in_app_iff. left. exact I'.
      * apply in_app_iff in I'. destruct I' as [I'|[I'|[]]]; [exact I'|congruence].
  - destruct (N.eqb_spec f' f) as [->|N]; [exfalso; apply NE, in_app_iff; right; left; reflexivity|]. split; [exact A|]. split; [exact B|]. intros k. rewrite C. split; intros (a' & I' & K); exists a'; (split; [|exact K]).
    + apply in_app_iff. left. exact I'.
    + apply in_app_iff in I'. destruct I' as [I'|[I'|[]]]; [exact I'|discriminate].
Qed.
Lemma built_once : forall sv ops b f ks, fresh_contexts sv -> stores_patterns sv -> session sv new_backend ops = Ok b ->
  (List.length ks <= 4)%nat -> ~ In (End f) ops -> (forall a, In (Call f a) ops -> In (key_of sv a) ks) ->
  NoDup (keys_built sv f (be_log b)) /\ (forall k, In k (keys_built sv f (be_log b)) <-> exists a, In (Call f a) ops /\ key_of sv a = k).
Proof.
  intros sv ops b f ks FC SP S1 L NE IK. destruct (places_queue sv ops b f FC SP S1) as (_ & ->). apply (few_queue sv f ks ops L NE IK).
Qed.

(** ** C51 *)
Lemma bad_texts : forall sv b f a, is_in_cache (site b f) (sv_digest sv (a_lexicon a)) (sv_digest sv (a_grammar a)) = false -> ~ good_call sv a -> as_standardize sv b f a = UB.
Proof.
  intros sv b f a IC NG. unfold as_standardize, get_std. rewrite site_set, N.eqb_refl, IC. unfold add_to_cache, create_std, good_call in *.
  destruct (get_lexicon (sv_env sv) (a_lexicon a)) as [x|m|] eqn:LX; try reflexivity. destruct (get_grammar (sv_env sv) (sv_atof sv) (a_grammar a)) as [g|m|] eqn:LG; try reflexivity.
  exfalso. apply NG. split; eauto.
Qed.
Lemma good_session : forall sv ops, fresh_contexts sv -> stores_patterns sv -> fine sv ops -> exists b, session sv new_backend ops = Ok b.
Proof. intros sv ops FC SP F. destruct (session_ok sv ops FC SP) as [(b & E & S1 & _)|(_ & NF)]; [eauto|contradiction]. Qed.

(** ** Concrete sessions *)
Definition top_of (l : list N) : N := fold_right N.max 0 l.
Definition c_server : server := mkServer ascii_env sample_atof md5_hex (fun _ l => top_of l + 1) (fun _ _ => [Regex; Pre; Suf]).
Lemma c_fresh : fresh_contexts c_server.
Proof. intros n l I. assert (K : top_of l + 1 <= top_of l); [|lia]. cbn in I. revert I. generalize (top_of l + 1). intros m I. induction l as [|a l IH]; [destruct I|]. cbn. destruct I as [->|I]; [lia|]. specialize (IH I). unfold top_of in IH. lia. Qed.
Lemma c_stores : stores_patterns c_server.
Proof. intros x t. repeat constructor. Qed.
(** Grammars [0] to [5], different texts; all load. *)
Definition c_grammar (n : nat) : text := (w_grammar ++ repeat 10 n)%list.
Definition c_call (n : nat) (address : text) : args := mkArgs address (c_grammar n) w_lexicon en w_filter.
Definition c_ops : list op := [Call 1 (c_call 0 w_addr); Call 1 (c_call 1 w_addr); Call 2 (c_call 0 w_addr); Call 1 (c_call 0 (s2t "12 Main st")); Call 1 (c_call 2 w_addr);
  Call 1 (c_call 3 w_addr); Call 1 (c_call 4 w_addr); Call 1 (c_call 1 w_addr); Call 1 (c_call 0 w_addr); End 2].
Definition c_end : backend := match session c_server new_backend c_ops with Ok b => b | _ => new_backend end.
Definition c_view (e : event) : N * N * N := match e with Built f id _ _ => (0, f, id) | Freed id => (1, 0, id) | Answered f _ id _ => (2, f, id) end.
Lemma c_runs : session c_server new_backend c_ops = Ok c_end.
Proof. vm_compute. reflexivity. Qed.
Definition c_args : list args := concat (map (fun o => match o with Call _ a => [a] | End _ => [] end) c_ops).
Lemma c_called : forall a, called c_ops a -> In a c_args.
Proof. intros a (f & I). unfold c_args. apply in_concat. exists [a]. split; [|left; reflexivity]. apply in_map_iff. exists (Call f a). auto. Qed.
Lemma c_no_collisions : no_collisions c_server c_ops.
Proof.
  assert (K : forallb (fun a => forallb (fun b =>
      implb (teqb (md5_hex (a_lexicon a)) (md5_hex (a_lexicon b))) (teqb (a_lexicon a) (a_lexicon b)) &&
      implb (teqb (md5_hex (a_grammar a)) (md5_hex (a_grammar b))) (teqb (a_grammar a) (a_grammar b))) c_args) c_args = true) by (vm_compute; reflexivity).
  intros a b A B. apply c_called in A, B. rewrite forallb_forall in K. specialize (K a A). rewrite forallb_forall in K. specialize (K b B).
  apply andb_true_iff in K. destruct K as (K1 & K2). change (sv_digest c_server) with md5_hex. split; intros H.
  - rewrite H, teqb_refl in K1. apply teqb_eq. exact K1.
  - rewrite H, teqb_refl in K2. apply teqb_eq. exact K2.
Qed.
Lemma c_fine : fine c_server c_ops.
Proof.
  split.
  - assert (K : forallb (fun a => match get_lexicon ascii_env (a_lexicon a), get_grammar ascii_env sample_atof (a_grammar a) with Ok _, Ok _ => true | _, _ => false end) c_args = true)
      by (vm_compute; reflexivity).
    intros a A. apply c_called in A. rewrite forallb_forall in K. specialize (K a A). unfold good_call. cbn [c_server sv_env sv_atof].
    destruct (get_lexicon ascii_env (a_lexicon a)); try discriminate. destruct (get_grammar ascii_env sample_atof (a_grammar a)); try discriminate. split; eauto.
  - assert (K : forallb (fun a => forallb (fun b => match std_standardize ascii_env sample_atof (a_address a) (a_grammar b) (a_lexicon b) (a_locale a) (a_filter a) with UB => false | _ => true end)
                c_args) c_args = true) by (vm_compute; reflexivity).
    intros a b A B _ H. apply c_called in A, B. rewrite forallb_forall in K. specialize (K a A). rewrite forallb_forall in K. specialize (K b B).
    cbn [c_server sv_env sv_atof] in H. rewrite H in K. discriminate.
Qed.
(** C51 *)
Definition bad_call : args := mkArgs w_addr (s2t "junk") w_lexicon en w_filter.
Definition bad_call2 : args := mkArgs w_addr w_grammar (s2t "junk") en w_filter.
Lemma error_undefined : exists sv f a m, fresh_contexts sv /\ stores_patterns sv /\ get_grammar (sv_env sv) (sv_atof sv) (a_grammar a) = Throw m /\
  session sv new_backend [Call f a] = UB.
Proof. exists c_server, 1, bad_call. eexists. split; [exact c_fresh|]. split; [exact c_stores|]. split; [reflexivity|vm_compute; reflexivity]. Qed.
Lemma error_undefined2 : exists sv f a m, fresh_contexts sv /\ stores_patterns sv /\ get_lexicon (sv_env sv) (a_lexicon a) = Throw m /\
  session sv new_backend [Call f a] = UB.
Proof. exists c_server, 1, bad_call2. eexists. split; [exact c_fresh|]. split; [exact c_stores|]. split; [reflexivity|vm_compute; reflexivity]. Qed.
