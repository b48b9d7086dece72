(** Memory of the standardizer cache: contexts, hash entries, standardizers (C48-C50, C66). *)
From Coq Require Import String List NArith ZArith Bool Lia Sorting.Permutation.
From Verif Require Import Base_model Float_model Uni_model Token_model Rule_model Search_model Grammar_model Lexicon_model Tokenizer_model
  Archive_model Wrapper_model Wrapper_spec Cache_model Cache_spec Lexicon_spec Search_proofs WrapperTop_proofs.
Import ListNotations.
Local Open Scope N_scope.

(** ** Maps *)
Section maps.
Context {A : Type}.
Implicit Types (l : list (N * A)) (k i : N) (v : A).
Lemma nget_nset : forall l k i v, nget i (nset k v l) = if k =? i then Some v else nget i l.
Proof.
  induction l as [|(j, a) l IH]; intros k i v; cbn [nset nget].
  - destruct (k =? i); reflexivity.
  - destruct (N.eqb_spec j k) as [->|H]; cbn [nget].
    + destruct (k =? i); reflexivity.
    + rewrite IH. destruct (N.eqb_spec j i) as [->|H1]; [|reflexivity]. destruct (N.eqb_spec k i) as [->|H2]; [contradiction|reflexivity].
Qed.
Lemma nget_in : forall l k v, nget k l = Some v -> In (k, v) l.
Proof. induction l as [|(j, a) l IH]; intros k v H; [discriminate|]. cbn [nget] in H. destruct (N.eqb_spec j k) as [->|N]; [injection H as ->; left; reflexivity|right; apply IH; exact H]. Qed.
Lemma nget_some : forall l k, In k (map fst l) <-> exists v, nget k l = Some v.
Proof.
  intros l k. split.
  - induction l as [|(j, a) l IH]; intros H; [destruct H|]. cbn [nget]. destruct (N.eqb_spec j k) as [->|N]; [eauto|]. destruct H as [H|H]; [contradiction|apply IH, H].
  - intros (v & H). apply nget_in in H. apply (in_map fst) in H. exact H.
Qed.
Lemma in_nget : forall l k v, NoDup (map fst l) -> In (k, v) l -> nget k l = Some v.
Proof.
  induction l as [|(j, a) l IH]; intros k v D H; [destruct H|]. cbn [map fst] in D. inversion D as [|? ? D1 D2]; subst. cbn [nget]. destruct H as [H|H].
  - injection H as -> ->. rewrite N.eqb_refl. reflexivity.
  - destruct (N.eqb_spec j k) as [->|N]; [|apply IH; assumption]. exfalso. apply D1. apply (in_map fst) in H. exact H.
Qed.
Lemma nget_none : forall l k, nget k l = None <-> ~ In k (map fst l).
Proof. intros l k. rewrite nget_some. destruct (nget k l); split; intros H; try discriminate; [exfalso; apply H; eauto|intros (v & K); discriminate|reflexivity]. Qed.
Lemma ndel_perm : forall l k v, nget k l = Some v -> Permutation l ((k, v) :: ndel k l).
Proof.
  induction l as [|(j, a) l IH]; intros k v H; [discriminate|]. cbn [nget ndel] in *. destruct (N.eqb_spec j k) as [->|N]; [injection H as ->; reflexivity|].
  rewrite (IH k v H) at 1. apply perm_swap.
Qed.
Lemma nget_ndel : forall l k i, NoDup (map fst l) -> nget i (ndel k l) = if k =? i then None else nget i l.
Proof.
  induction l as [|(j, a) l IH]; intros k i D; [destruct (k =? i); reflexivity|]. cbn [map fst] in D. inversion D as [|? ? D1 D2]; subst. cbn [ndel nget].
  destruct (N.eqb_spec j k) as [->|N1].
  - destruct (N.eqb_spec k i) as [->|N2]; [apply nget_none; exact D1|reflexivity].
  - cbn [nget]. rewrite IH by exact D2. destruct (N.eqb_spec j i) as [->|N2]; [|reflexivity]. destruct (N.eqb_spec k i) as [->|N3]; [contradiction|reflexivity].
Qed.
Lemma nset_new : forall l k v, nget k l = None -> Permutation (nset k v l) ((k, v) :: l).
Proof.
  induction l as [|(j, a) l IH]; intros k v H; [reflexivity|]. cbn [nget nset] in *. destruct (N.eqb_spec j k) as [->|N]; [discriminate|].
  rewrite (IH k v H). apply perm_swap.
Qed.
Lemma nset_keys : forall l k v w, nget k l = Some w -> map fst (nset k v l) = map fst l.
Proof.
  induction l as [|(j, a) l IH]; intros k v w H; [discriminate|]. cbn [nget nset] in *. destruct (N.eqb_spec j k) as [->|N]; [reflexivity|].
  cbn [map fst]. rewrite (IH k v w H). reflexivity.
Qed.
Lemma nset_nodup : forall l k v, NoDup (map fst l) -> NoDup (map fst (nset k v l)).
Proof.
  intros l k v D. destruct (nget k l) as [w|] eqn:E; [rewrite (nset_keys _ _ _ _ E); exact D|].
  apply (Permutation_NoDup (Permutation_map fst (Permutation_sym (nset_new l k v E)))). cbn [map fst]. constructor; [apply nget_none; exact E|exact D].
Qed.
Lemma ndel_nodup : forall l k, NoDup (map fst l) -> NoDup (map fst (ndel k l)).
Proof.
  intros l k D. destruct (nget k l) as [w|] eqn:E.
  - apply (Permutation_NoDup (Permutation_map fst (ndel_perm l k w E))) in D. cbn [map] in D. inversion D; assumption.
  - replace (ndel k l) with l; [exact D|]. clear D. induction l as [|(j, a) l IH]; [reflexivity|]. cbn [nget ndel] in *. destruct (j =? k); [discriminate|]. f_equal. apply IH, E.
Qed.
End maps.
Lemma site_set : forall b f c i, site (set_site b f c) i = if f =? i then c else site b i.
Proof. intros b f c i. unfold site, set_site. cbn [be_sites]. rewrite nget_nset. destruct (f =? i); reflexivity. Qed.

(** ** Entries *)
Record entry := mkEntry { en_site : N; en_lex : text; en_gmr : text; en_id : N; en_ctx : N }.
Definition of_site (f : N) (E : list entry) : list entry := filter (fun e => en_site e =? f) E.
(** The standardizer has what its texts give. *)
Definition holds (sv : server) (b : backend) (f : N) (l g : text) (id : N) : Prop :=
  exists lex gmr x gr h, In (Built f id lex gmr) (be_log b) /\ sv_digest sv lex = l /\ sv_digest sv gmr = g /\
    get_lexicon (sv_env sv) lex = Ok x /\ get_grammar (sv_env sv) (sv_atof sv) gmr = Ok gr /\ Forall asks h /\
    nget id (be_objects b) = Some (mkObject (run x h) gr).
Record mem (sv : server) (b : backend) (E : list entry) (pend : list N) : Prop := mkMem {
  m_ctx : NoDup (map en_ctx E);
  m_ids : NoDup (pend ++ map en_id E);
  m_hash : Permutation (be_hash b) (map (fun e => (en_ctx e, en_id e)) E);
  m_objs : Permutation (map fst (be_objects b)) (pend ++ map en_id E);
  m_children : forall f, pc_children (site b f) = rev (map en_ctx (of_site f E));
  m_sites : NoDup (map fst (be_sites b));
  m_built : forall e, In e E -> holds sv b (en_site e) (en_lex e) (en_gmr e) (en_id e);
  m_use : forall id, in_use (be_log b) id <-> In id (pend ++ map en_id E);
  m_count : forall id, was_built (be_log b) id -> id < be_count b;
  m_sound : sound sv (be_log b) }.

Lemma of_site_app : forall f E1 E2, of_site f (E1 ++ E2) = of_site f E1 ++ of_site f E2.
Proof. intros. apply filter_app. Qed.
Lemma filter_all : forall A (p : A -> bool) l, (forall a, In a l -> p a = true) -> filter p l = l.
Proof. induction l as [|a l IH]; intros H; [reflexivity|]. cbn [filter]. rewrite H by (left; reflexivity). f_equal. apply IH. intros c I. apply H. right. exact I. Qed.
Lemma filter_rev : forall A (p : A -> bool) l, filter p (rev l) = rev (filter p l).
Proof. induction l as [|a l IH]; [reflexivity|]. cbn [rev filter]. rewrite filter_app, IH. cbn [filter]. destruct (p a); [reflexivity|apply app_nil_r]. Qed.
Lemma filter_map : forall A B (p : B -> bool) (g : A -> B) l, filter p (map g l) = map g (filter (fun a => p (g a)) l).
Proof. induction l as [|a l IH]; [reflexivity|]. cbn [map filter]. destruct (p (g a)); cbn [map]; rewrite IH; reflexivity. Qed.
(** Taking out an entry. *)
Lemma drop_one : forall E1 e E2 f, NoDup (map en_ctx (E1 ++ e :: E2)) ->
  filter (fun d => negb (d =? en_ctx e)) (rev (map en_ctx (of_site f (E1 ++ e :: E2)))) = rev (map en_ctx (of_site f (E1 ++ E2))).
Proof.
  intros E1 e E2 f D. rewrite filter_rev, filter_map. f_equal. f_equal. rewrite map_app in D. cbn [map] in D.
  pose proof (NoDup_remove_2 _ _ _ D) as NI. rewrite <- map_app in NI.
  assert (K : forall a, In a (E1 ++ E2) -> negb (en_ctx a =? en_ctx e) = true).
  { intros a I. apply negb_true_iff, N.eqb_neq. intros H. apply NI. rewrite <- H. apply in_map. exact I. }
  rewrite !of_site_app. unfold of_site at 2. cbn [filter]. fold (of_site f E2).
  assert (Q : forall E, (forall a, In a E -> In a (E1 ++ E2)) -> filter (fun a => negb (en_ctx a =? en_ctx e)) (of_site f E) = of_site f E).
  { intros E H. apply filter_all. intros a I. apply filter_In in I. apply K, H, I. }
  rewrite filter_app, (Q E1) by (intros a I; apply in_or_app; left; exact I). f_equal.
  destruct (en_site e =? f); cbn [filter]; [rewrite N.eqb_refl; cbn [negb]|]; apply Q; intros a I; apply in_or_app; right; exact I.
Qed.

Lemma built_snoc : forall l ev id, was_built (l ++ [ev]) id <-> was_built l id \/ exists f lex gmr, ev = Built f id lex gmr.
Proof.
  intros l ev id. unfold was_built. split.
  - intros (f & lex & gmr & H). apply in_app_iff in H. destruct H as [H|[H|[]]]; [left; eauto|right; eauto].
  - intros [(f & lex & gmr & H)|(f & lex & gmr & ->)]; exists f, lex, gmr; apply in_app_iff; [left; exact H|right; left; reflexivity].
Qed.
Lemma freed_snoc : forall l ev id, was_freed (l ++ [ev]) id <-> was_freed l id \/ ev = Freed id.
Proof. intros l ev id. unfold was_freed. rewrite in_app_iff. cbn [In]. intuition. Qed.
Lemma sound_freed : forall sv l id, sound sv l -> was_freed l id -> was_built l id.
Proof.
  intros sv l id H. induction H as [|l f i lex gmr H IH N1 N2|l i H IH U|l f a i row lex gmr H IH U B D1 D2 R]; intros F; [destruct F|..];
    apply freed_snoc in F; apply built_snoc; destruct F as [F|F]; try discriminate F; try (left; apply IH; exact F).
  injection F as ->. left. apply U.
Qed.

Lemma deleted : forall sv b E1 e E2 pend, mem sv b (E1 ++ e :: E2) pend ->
  exists b', context_delete b (en_site e) (en_ctx e) = Ok b' /\ mem sv b' (E1 ++ E2) pend /\
    (forall f, pc_items (site b' f) = pc_items (site b f) /\ pc_next (site b' f) = pc_next (site b f)) /\
    be_count b' = be_count b /\ be_log b' = be_log b ++ [Freed (en_id e)] /\
    (forall id, id <> en_id e -> nget id (be_objects b') = nget id (be_objects b)).
Proof.
  intros sv b E1 e E2 pend [Mctx Mids Mhash Mobjs Mch Msites Mbuilt Muse Mcount Msound].
  assert (IE : In e (E1 ++ e :: E2)) by (apply in_elt).
  assert (DH : NoDup (map fst (be_hash b))).
  { apply (Permutation_NoDup (Permutation_sym (Permutation_map fst Mhash))). rewrite map_map. cbn [fst]. exact Mctx. }
  assert (DO : NoDup (map fst (be_objects b))) by (apply (Permutation_NoDup (Permutation_sym Mobjs)), Mids).
  assert (H1 : nget (en_ctx e) (be_hash b) = Some (en_id e)).
  { apply in_nget; [exact DH|]. apply (Permutation_in _ (Permutation_sym Mhash)). apply (in_map (fun a => (en_ctx a, en_id a))) in IE. exact IE. }
  destruct (Mbuilt e IE) as (lex & gmr & x & gr & h & _ & _ & _ & _ & _ & _ & O).
  assert (CH : existsb (N.eqb (en_ctx e)) (pc_children (site b (en_site e))) = true).
  { apply existsb_exists. exists (en_ctx e). split; [|apply N.eqb_refl]. rewrite Mch. apply -> in_rev. apply in_map. apply filter_In. split; [exact IE|apply N.eqb_refl]. }
  unfold context_delete, context_callback, std_free. rewrite CH, H1, O. cbn [obind]. eexists. split; [reflexivity|].
  unfold note. cbn [be_sites be_hash be_objects be_count be_log].
  match goal with |- context [set_site ?q _ _] => set (b1 := q) end.
  assert (S1 : forall f, site b1 f = site b f) by reflexivity.
  assert (EH : be_hash b1 = ndel (en_ctx e) (be_hash b)) by reflexivity.
  assert (EO : be_objects b1 = ndel (en_id e) (be_objects b)) by reflexivity.
  assert (EL : be_log b1 = be_log b ++ [Freed (en_id e)]) by reflexivity.
  assert (EC : be_count b1 = be_count b) by reflexivity.
  assert (ES : be_sites b1 = be_sites b) by reflexivity. clearbody b1.
  assert (IDS : Permutation (pend ++ map en_id (E1 ++ e :: E2)) (en_id e :: pend ++ map en_id (E1 ++ E2))).
  { rewrite !map_app. cbn [map]. rewrite !app_assoc. symmetry. apply Permutation_middle. }
  assert (NI : ~ In (en_id e) (pend ++ map en_id (E1 ++ E2))).
  { apply (Permutation_NoDup IDS) in Mids. inversion Mids; assumption. }
  assert (OO : forall id, id <> en_id e -> nget id (ndel (en_id e) (be_objects b)) = nget id (be_objects b)).
  { intros id N. rewrite nget_ndel by exact DO. destruct (N.eqb_spec (en_id e) id) as [K|K]; [congruence|reflexivity]. }
  split; [|split; [|split; [|split]]].
  2:{ intros f. rewrite site_set, S1. destruct (N.eqb_spec (en_site e) f) as [<-|N]; [split; reflexivity|rewrite S1; split; reflexivity]. }
  2:{ exact EC. }
  2:{ exact EL. }
  2:{ unfold set_site. cbn [be_objects]. rewrite EO. exact OO. }
  assert (Ch : forall f, pc_children (site (set_site b1 (en_site e) (drop_child (site b1 (en_site e)) (en_ctx e))) f) = rev (map en_ctx (of_site f (E1 ++ E2)))).
  { intros f. rewrite site_set, S1. destruct (N.eqb_spec (en_site e) f) as [<-|N].
    + cbn [drop_child pc_children]. rewrite Mch. apply drop_one. exact Mctx.
    + rewrite S1, Mch, !of_site_app. unfold of_site at 2. cbn [filter]. destruct (N.eqb_spec (en_site e) f); [contradiction|reflexivity]. }
  constructor; try exact Ch; unfold set_site; cbn [be_sites be_hash be_objects be_count be_log]; rewrite ?EH, ?EO, ?EL, ?EC, ?ES.
  - rewrite map_app in *. cbn [map] in Mctx. exact (NoDup_remove_1 _ _ _ Mctx).
  - apply (Permutation_NoDup IDS) in Mids. inversion Mids; assumption.
  - apply (Permutation_cons_inv (a := (en_ctx e, en_id e))). rewrite <- (ndel_perm _ _ _ H1). rewrite Mhash, !map_app. cbn [map]. symmetry. apply Permutation_middle.
  - apply (Permutation_cons_inv (a := en_id e)). rewrite <- IDS, <- Mobjs. symmetry. exact (Permutation_map fst (ndel_perm _ _ _ O)).
  - apply nset_nodup. exact Msites.
  - intros a I. assert (I' : In a (E1 ++ e :: E2)) by (apply in_app_iff; apply in_app_iff in I; destruct I as [I|I]; [left|right; right]; exact I).
    destruct (Mbuilt a I') as (lex' & gmr' & x' & gr' & h' & K1 & K2 & K3 & K4 & K5 & K6 & K7). exists lex', gmr', x', gr', h'. cbn [be_log be_objects]. rewrite ?EL, ?EO.
    split; [apply in_app_iff; left; exact K1|]. do 5 (split; [assumption|]). rewrite OO; [exact K7|]. intros Q. apply NI. rewrite <- Q. apply in_app_iff. right. apply in_map, I.
  - intros id. unfold in_use. rewrite built_snoc, freed_snoc. specialize (Muse id). unfold in_use in Muse.
    assert (Q : In id (pend ++ map en_id (E1 ++ e :: E2)) <-> id = en_id e \/ In id (pend ++ map en_id (E1 ++ E2))).
    { split; intros H; [apply (Permutation_in _ IDS) in H; destruct H as [<-|H]; auto|apply (Permutation_in _ (Permutation_sym IDS)); destruct H as [->|H]; [left; reflexivity|right; exact H]]. }
    rewrite Q in Muse. split.
    + intros ([B|(f & l & g & K)] & F); [|discriminate]. destruct (proj1 Muse) as [->|H]; [tauto| |exact H]. exfalso. apply F. right. reflexivity.
    + intros H. destruct (proj2 Muse (or_intror H)) as (B & F). split; [left; exact B|]. intros [K|K]; [exact (F K)|]. injection K as K. apply NI. rewrite K. exact H.
  - intros id B. apply built_snoc in B. destruct B as [B|(f & l & g & K)]; [|discriminate]. apply Mcount, B.
  - apply so_freed; [exact Msound|]. apply Muse. apply in_app_iff. right. apply in_map, IE.
Qed.

(** ** Building *)
Lemma created : forall sv b E f lex gmr x g, mem sv b E [] -> get_lexicon (sv_env sv) lex = Ok x -> get_grammar (sv_env sv) (sv_atof sv) gmr = Ok g ->
  exists b', create_std sv b f lex gmr = Ok (be_count b, b') /\ mem sv b' E [be_count b] /\
    holds sv b' f (sv_digest sv lex) (sv_digest sv gmr) (be_count b) /\ (forall i, site b' i = site b i) /\
    be_count b' = be_count b + 1 /\ be_log b' = be_log b ++ [Built f (be_count b) lex gmr].
Proof.
  intros sv b E f lex gmr x g [Mctx Mids Mhash Mobjs Mch Msites Mbuilt Muse Mcount Msound] L G. unfold create_std. rewrite L, G.
  eexists. split; [reflexivity|]. unfold note. cbn [be_sites be_hash be_objects be_count be_log].
  assert (NB : ~ was_built (be_log b) (be_count b)) by (intros H; apply Mcount in H; lia).
  assert (NF : ~ was_freed (be_log b) (be_count b)) by (intros H; apply NB; eapply sound_freed; eauto).
  assert (NI : ~ In (be_count b) (map en_id E)) by (intros H; apply NB; apply Muse; exact H).
  assert (NO : nget (be_count b) (be_objects b) = None) by (apply nget_none; intros H; apply NI; apply (Permutation_in _ Mobjs) in H; exact H).
  assert (HH : holds sv (mkBackend (be_sites b) (be_hash b) (nset (be_count b) (mkObject x g) (be_objects b)) (be_count b + 1) (be_log b ++ [Built f (be_count b) lex gmr]))
     f (sv_digest sv lex) (sv_digest sv gmr) (be_count b)).
  { exists lex, gmr, x, g, []. cbn [be_log be_objects]. split; [apply in_app_iff; right; left; reflexivity|]. do 4 (split; [assumption||reflexivity|]). split; [constructor|].
    rewrite nget_nset, N.eqb_refl. reflexivity. }
  split; [|split; [exact HH|]]; [|auto].
  constructor; cbn [be_sites be_hash be_objects be_count be_log app].
  - exact Mctx.
  - constructor; assumption.
  - exact Mhash.
  - rewrite (Permutation_map fst (nset_new _ _ (mkObject x g) NO)). cbn [map fst]. constructor. exact Mobjs.
  - exact Mch.
  - exact Msites.
  - intros e I. destruct (Mbuilt e I) as (l' & g' & x' & gr' & h' & K1 & K2 & K3 & K4 & K5 & K6 & K7). exists l', g', x', gr', h'. cbn [be_log be_objects].
    split; [apply in_app_iff; left; exact K1|]. do 5 (split; [assumption|]). rewrite nget_nset. destruct (N.eqb_spec (be_count b) (en_id e)) as [Q|Q]; [|exact K7].
    exfalso. apply NI. rewrite Q. apply in_map, I.
  - intros id. unfold in_use. rewrite built_snoc, freed_snoc. specialize (Muse id). unfold in_use in Muse. cbn [app] in Muse. cbn [In]. split.
    + intros ([B|(f' & l' & g' & K)] & F); [right; apply Muse; tauto|left; congruence].
    + intros [<-|H]; [split; [right; eauto|intros [K|K]; [exact (NF K)|discriminate K]]|]. apply Muse in H. destruct H as (B & F). split; [left; exact B|intros [K|K]; [exact (F K)|discriminate K]].
  - intros id B. apply built_snoc in B. destruct B as [B|(f' & l' & g' & K)]; [apply Mcount in B; lia|]. injection K as _ K _ _. lia.
  - apply so_built; assumption.
Qed.

(** ** Inserting *)
Lemma inserted : forall sv b E f l g id ctx items next, mem sv b E [id] -> holds sv b f l g id -> nget ctx (be_hash b) = None ->
  mem sv (set_site (mkBackend (be_sites b) (nset ctx id (be_hash b)) (be_objects b) (be_count b) (be_log b)) f
       (mkPortal items next (ctx :: pc_children (site b f)))) (E ++ [mkEntry f l g id ctx]) [].
Proof.
  intros sv b E f l g id ctx items next [Mctx Mids Mhash Mobjs Mch Msites Mbuilt Muse Mcount Msound] H NC.
  assert (NX : ~ In ctx (map en_ctx E)).
  { intros I. apply nget_none in NC. apply NC. apply (Permutation_in _ (Permutation_sym (Permutation_map fst Mhash))). rewrite map_map. cbn [fst]. exact I. }
  assert (P : Permutation (id :: map en_id E) (map en_id (E ++ [mkEntry f l g id ctx]))) by (rewrite map_app; apply Permutation_cons_append).
  constructor.
  - rewrite map_app. cbn [map en_ctx]. apply (Permutation_NoDup (Permutation_cons_append _ _)). constructor; assumption.
  - exact (Permutation_NoDup P Mids).
  - unfold set_site. cbn [be_hash]. rewrite (nset_new _ _ id NC), Mhash, map_app. cbn [map en_ctx en_id]. apply Permutation_cons_append.
  - unfold set_site. cbn [be_objects app]. rewrite <- P. exact Mobjs.
  - intros i. rewrite site_set, of_site_app. unfold of_site at 2. cbn [filter en_site]. destruct (f =? i) eqn:Q.
    + apply N.eqb_eq in Q. subst i. cbn [pc_children]. rewrite map_app, rev_app_distr, Mch. reflexivity.
    + rewrite app_nil_r. exact (Mch i).
  - unfold set_site. cbn [be_sites]. apply nset_nodup, Msites.
  - intros e I. apply in_app_iff in I. destruct I as [I|[<-|[]]]; [exact (Mbuilt e I)|exact H].
  - intros i. unfold set_site. cbn [be_log app]. rewrite (Muse i). split; intros K; [apply (Permutation_in _ P K)|apply (Permutation_in _ (Permutation_sym P) K)].
  - exact Mcount.
  - exact Msound.
Qed.
Lemma touched : forall sv b E f c pend, mem sv b E pend -> pc_children c = pc_children (site b f) -> mem sv (set_site b f c) E pend.
Proof.
  intros sv b E f c pend [Mctx Mids Mhash Mobjs Mch Msites Mbuilt Muse Mcount Msound] HC. constructor; try assumption.
  - intros i. rewrite site_set. destruct (N.eqb_spec f i) as [<-|N]; [rewrite HC|]; apply Mch.
  - unfold set_site. cbn [be_sites]. apply nset_nodup, Msites.
Qed.
(** A new context is not in the hash. *)
Lemma fresh_hash : forall sv b E pend, fresh_contexts sv -> mem sv b E pend -> nget (sv_alloc sv (be_count b) (all_contexts b)) (be_hash b) = None.
Proof.
  intros sv b E pend F [Mctx Mids Mhash Mobjs Mch Msites Mbuilt Muse Mcount Msound]. apply nget_none. intros I. apply (F (be_count b) (all_contexts b)).
  apply (Permutation_in _ (Permutation_map fst Mhash)) in I. rewrite map_map in I. cbn [fst] in I. apply in_map_iff in I. destruct I as (e & EQ & I). rewrite <- EQ.
  assert (K : In (en_ctx e) (pc_children (site b (en_site e)))).
  { rewrite Mch. apply -> in_rev. apply in_map, filter_In. split; [exact I|apply N.eqb_refl]. }
  unfold all_contexts. unfold site in K. destruct (nget (en_site e) (be_sites b)) as [c|] eqn:Q; [|destruct K]. apply nget_in in Q.
  apply in_concat. exists (pc_children c). split; [apply in_map_iff; exists (en_site e, c); auto|exact K].
Qed.

(** ** Answering *)
Lemma runs_app : forall x h1 h2, run x (h1 ++ h2) = run (run x h1) h2.
Proof. intros. unfold run. apply fold_left_app. Qed.
Lemma answered_mem : forall sv b E e a row, stores_patterns sv -> mem sv b E [] -> In e E -> en_lex e = sv_digest sv (a_lexicon a) -> en_gmr e = sv_digest sv (a_grammar a) ->
  exists s, nget (en_id e) (be_objects b) = Some s /\
    (address_row (standardize_addr (sv_env sv) (ob_gmr s) (ob_lex s) (a_locale a) (a_filter a) (a_address a)) = Ok row ->
     mem sv (note (mkBackend (be_sites b) (be_hash b)
                        (nset (en_id e) (mkObject (run (ob_lex s) (sv_stored sv (ob_lex s) (a_address a))) (ob_gmr s)) (be_objects b))
                        (be_count b) (be_log b)) (Answered (en_site e) a (en_id e) row)) E []).
Proof.
  intros sv b E e a row SP [Mctx Mids Mhash Mobjs Mch Msites Mbuilt Muse Mcount Msound] I EL EG.
  destruct (Mbuilt e I) as (lex & gmr & x & gr & h & K1 & K2 & K3 & K4 & K5 & K6 & K7). exists (mkObject (run x h) gr). split; [exact K7|]. cbn [ob_lex ob_gmr]. intros R.
  assert (ND : NoDup (map en_id E)) by exact Mids.
  unfold note. cbn [be_sites be_hash be_objects be_count be_log]. constructor; cbn [be_sites be_hash be_objects be_count be_log]; try assumption.
  - rewrite (nset_keys _ _ _ _ K7). exact Mobjs.
  - intros e' I'. destruct (Mbuilt e' I') as (l' & g' & x' & gr' & h' & Q1 & Q2 & Q3 & Q4 & Q5 & Q6 & Q7). unfold holds. cbn [be_log be_objects].
    destruct (N.eqb_spec (en_id e) (en_id e')) as [EQ|NE].
    + rewrite <- EQ, K7 in Q7. injection Q7 as Q7 Q8. exists l', g', x', gr', (h' ++ sv_stored sv (run x h) (a_address a)).
      split; [apply in_app_iff; left; exact Q1|]. do 4 (split; [assumption|]). split; [apply Forall_app; split; [exact Q6|apply SP]|].
      rewrite nget_nset, EQ, N.eqb_refl, runs_app, <- Q7, <- Q8. reflexivity.
    + exists l', g', x', gr', h'. split; [apply in_app_iff; left; exact Q1|]. do 5 (split; [assumption|]). rewrite nget_nset.
      destruct (N.eqb_spec (en_id e) (en_id e')); [contradiction|exact Q7].
  - intros id. unfold in_use. rewrite built_snoc, freed_snoc. rewrite <- (Muse id). unfold in_use. split.
    + intros ([B|(f' & l' & g' & K)] & F); [tauto|discriminate].
    + intros (B & F). split; [left; exact B|intros [K|K]; [exact (F K)|discriminate K]].
  - intros id B. apply built_snoc in B. destruct B as [B|(f' & l' & g' & K)]; [apply Mcount in B; lia|discriminate].
  - eapply so_answered with (lex := lex) (gmr := gmr); [exact Msound| |exact K1|congruence|congruence|].
    + apply Muse. apply in_map. exact I.
    + unfold std_standardize. rewrite K5. cbn [obind]. rewrite K4. cbn [obind]. rewrite <- R. f_equal. symmetry. apply warm_results. exact K6.
Qed.

(** ** The end of a call site *)
Lemma of_site_in : forall f E e, In e (of_site f E) <-> In e E /\ en_site e = f.
Proof. intros. unfold of_site. rewrite filter_In, N.eqb_eq. reflexivity. Qed.
Lemma all_deleted : forall sv f pend q b E, mem sv b E pend -> map en_ctx (of_site f E) = rev q ->
  exists b' E', delete_all b f q = Ok b' /\ mem sv b' E' pend /\ of_site f E' = [] /\ (forall i, i <> f -> of_site i E' = of_site i E) /\
    (forall i, pc_items (site b' i) = pc_items (site b i) /\ pc_next (site b' i) = pc_next (site b i)) /\
    exists fr, be_log b' = be_log b ++ map Freed fr.
Proof.
  intros sv f pend. induction q as [|ctx q IH]; intros b E M Q.
  - exists b, E. cbn in Q. apply map_eq_nil in Q. do 5 (split; [auto|]). exists []. rewrite app_nil_r. reflexivity.
  - cbn [rev] in Q. assert (X : exists E1 e E2, E = E1 ++ e :: E2 /\ en_site e = f /\ en_ctx e = ctx /\ of_site f E1 ++ of_site f E2 = of_site f E1 /\ map en_ctx (of_site f E1) = rev q).
    { clear - Q. revert q Q. induction E as [|e E IHE] using rev_ind; intros q Q; [destruct (rev q); discriminate Q|].
      rewrite of_site_app in Q. unfold of_site at 2 in Q. cbn [filter] in Q. destruct (N.eqb_spec (en_site e) f) as [H|H].
      - rewrite map_app in Q. apply app_inj_tail in Q. destruct Q as (Q1 & Q2). exists E, e, []. split; [reflexivity|]. split; [exact H|]. split; [exact Q2|]. split; [apply app_nil_r|exact Q1].
      - rewrite app_nil_r in Q. destruct (IHE q Q) as (E1 & e1 & E2 & -> & A1 & A2 & A3 & A4). exists E1, e1, (E2 ++ [e]). split; [rewrite <- app_assoc; reflexivity|]. split; [exact A1|]. split; [exact A2|].
        split; [|exact A4]. rewrite of_site_app. unfold of_site at 3. cbn [filter]. destruct (N.eqb_spec (en_site e) f); [contradiction|]. rewrite app_nil_r. exact A3. }
    destruct X as (E1 & e & E2 & -> & S1 & <- & S3 & S4). destruct (deleted _ _ _ _ _ _ M) as (b1 & D & M1 & It & C & L & _). rewrite S1 in D.
    destruct (IH b1 (E1 ++ E2) M1) as (b' & E' & D' & M' & O1 & O2 & It' & fr & L'); [rewrite of_site_app, S3; exact S4|].
    exists b', E'. cbn [delete_all]. rewrite D. cbn [obind]. split; [exact D'|]. split; [exact M'|]. split; [exact O1|]. split.
    { intros i N. rewrite (O2 i N), !of_site_app. unfold of_site at 4. cbn [filter]. destruct (N.eqb_spec (en_site e) i); [congruence|reflexivity]. }
    split. { intros i. destruct (It' i) as (-> & ->). apply It. }
    exists (en_id e :: fr). rewrite L', L, <- app_assoc. reflexivity.
Qed.
Lemma ended : forall sv b E f, mem sv b E [] -> exists b' E', end_site b f = Ok b' /\ mem sv b' E' [] /\ of_site f E' = [] /\ (forall i, i <> f -> of_site i E' = of_site i E) /\
    (forall i, i <> f -> pc_items (site b' i) = pc_items (site b i) /\ pc_next (site b' i) = pc_next (site b i)) /\ site b' f = new_portal /\
    exists fr, be_log b' = be_log b ++ map Freed fr.
Proof.
  intros sv b E f M. destruct (all_deleted sv f [] (pc_children (site b f)) b E M) as (b1 & E' & D & M1 & O1 & O2 & It & fr & L).
  { rewrite (m_children _ _ _ _ M), rev_involutive. reflexivity. }
  unfold end_site. rewrite D. cbn [obind]. eexists. exists E'. split; [reflexivity|]. destruct M1 as [Mctx Mids Mhash Mobjs Mch Msites Mbuilt Muse Mcount Msound].
  set (b2 := mkBackend _ _ _ _ _).
  assert (SF : site b2 f = new_portal) by (unfold site, b2; cbn [be_sites]; rewrite nget_ndel, N.eqb_refl by exact Msites; reflexivity).
  assert (SO : forall i, i <> f -> site b2 i = site b1 i).
  { intros i N. unfold site, b2. cbn [be_sites]. rewrite nget_ndel by exact Msites. destruct (N.eqb_spec f i); [congruence|reflexivity]. }
  split; [|split; [exact O1|split; [exact O2|split; [|split; [exact SF|exists fr; exact L]]]]].
  - constructor; try assumption.
    + intros i. destruct (N.eq_dec i f) as [->|N]; [rewrite SF, O1; reflexivity|rewrite (SO i N); apply Mch].
    + unfold b2. cbn [be_sites]. apply ndel_nodup, Msites.
  - intros i N. rewrite (SO i N). apply It.
Qed.
