(** Sessions with the standardizer cache (C48-C51, C66). *)
From Coq Require Import String List NArith ZArith Bool Lia Sorting.Permutation.
From Verif Require Import Base_model Float_model Uni_model Token_model Rule_model Search_model Grammar_model Lexicon_model Tokenizer_model
  Archive_model Wrapper_model Wrapper_spec Cache_model Cache_spec Lexicon_spec Search_proofs Wrapper_proofs WrapperTop_proofs CacheMem_proofs.
Import ListNotations.
Local Open Scope N_scope.

(** ** The four places *)
Definition full (e : entry) : item := mkItem (Some (en_lex e)) (Some (en_gmr e)) (Some (en_id e)) (Some (en_ctx e)).
Definition ring (items : list item) (next : nat) : list item := skipn next items ++ firstn next items.
Definition ring_ok (c : portal) (q : list entry) : Prop :=
  List.length (pc_items c) = 4%nat /\ (pc_next c < 4)%nat /\ (List.length q <= 4)%nat /\
  ring (pc_items c) (pc_next c) = repeat empty_item (4 - List.length q) ++ map full q.
Definition en_key (e : entry) : text * text := (en_lex e, en_gmr e).

Lemma four : forall A (l : list A), List.length l = 4%nat -> exists a b c d, l = [a; b; c; d].
Proof. intros A l H. do 4 (destruct l as [|? l]; [discriminate H|]). destruct l; [eauto|discriminate H]. Qed.
Lemma ring_set : forall items next i, List.length items = 4%nat -> (next < 4)%nat ->
  ring (set_nth next i items) (Nat.modulo (next + 1) 4) = tl (ring items next) ++ [i] /\ List.length (set_nth next i items) = 4%nat /\
  (Nat.modulo (next + 1) 4 < 4)%nat /\ nth next items empty_item = hd empty_item (ring items next) /\
  (forall j, set_nth next i (set_nth next j items) = set_nth next i items).
Proof.
  intros items next i L N. destruct (four _ _ L) as (a & b & c & d & ->). do 4 (destruct next as [|next]; [cbn; repeat split; lia|]). lia.
Qed.
Lemma ring_in : forall items next i, In i items <-> In i (ring items next).
Proof. intros items next i. unfold ring. rewrite <- (firstn_skipn next items) at 1. rewrite !in_app_iff. tauto. Qed.
Lemma in_ring : forall c q i, ring_ok c q -> In i (pc_items c) -> i = empty_item \/ exists e, In e q /\ i = full e.
Proof.
  intros c q i (_ & _ & _ & R) I. apply (ring_in _ (pc_next c)) in I. rewrite R in I. apply in_app_iff in I. destruct I as [I|I]; [left; eapply repeat_spec; exact I|].
  apply in_map_iff in I. destruct I as (e & <- & I). right. eauto.
Qed.
Lemma ring_has : forall c q e, ring_ok c q -> In e q -> In (full e) (pc_items c).
Proof. intros c q e (_ & _ & _ & R) I. apply (ring_in _ (pc_next c)). rewrite R. apply in_app_iff. right. apply in_map, I. Qed.
Lemma item_full : forall l g e, item_is l g (full e) = true <-> en_key e = (l, g).
Proof.
  intros l g e. unfold item_is, full, otext_is, en_key. cbn [ci_lex ci_gmr]. rewrite andb_true_iff. split.
  - intros (A & B). apply teqb_eq in A, B. congruence.
  - intros H. injection H as -> ->. rewrite !teqb_refl. auto.
Qed.
Lemma cached : forall c q l g, ring_ok c q ->
  if is_in_cache c l g then exists e, In e q /\ en_key e = (l, g) /\ get_from_cache c l g = Some (en_id e) else ~ In (l, g) (map en_key q).
Proof.
  intros c q l g R. unfold is_in_cache, get_from_cache. destruct (existsb (item_is l g) (pc_items c)) eqn:X.
  - destruct (find (item_is l g) (pc_items c)) as [i|] eqn:F.
    + apply find_some in F. destruct F as (I & P). destruct (in_ring c q i R I) as [->|(e & J & ->)]; [discriminate P|]. exists e. apply item_full in P. auto.
    + exfalso. apply existsb_exists in X. destruct X as (i & I & P). rewrite (find_none _ _ F i I) in P. discriminate.
  - intros I. apply in_map_iff in I. destruct I as (e & K & I). assert (T : existsb (item_is l g) (pc_items c) = true); [|congruence].
    apply existsb_exists. exists (full e). split; [eapply ring_has; eassumption|apply item_full; exact K].
Qed.

(** ** Adding *)
Lemma first_of_site : forall f E e q, of_site f E = e :: q -> exists E1 E2, E = E1 ++ e :: E2 /\ of_site f E1 = [] /\ of_site f E2 = q.
Proof.
  induction E as [|a E IH]; intros e q H; [discriminate|]. unfold of_site in H. cbn [filter] in H. fold (of_site f E) in H. destruct (en_site a =? f) eqn:S1.
  - injection H as -> <-. exists [], E. auto.
  - destruct (IH e q H) as (E1 & E2 & -> & A & B). exists (a :: E1), E2. split; [reflexivity|]. split; [|exact B]. unfold of_site. cbn [filter]. rewrite S1. exact A.
Qed.
Definition shift_e (q : list entry) : list entry := if Nat.eqb (List.length q) 4 then tl q else q.
Lemma next_deleted : forall sv b E f pend, mem sv b E pend -> (forall i, ring_ok (site b i) (of_site i E)) ->
  exists b' E' fr, delete_next b f = Ok b' /\ mem sv b' E' pend /\ of_site f E' = shift_e (of_site f E) /\
    (forall i, i <> f -> of_site i E' = of_site i E) /\ (forall i, i <> f -> pc_items (site b' i) = pc_items (site b i) /\ pc_next (site b' i) = pc_next (site b i)) /\
    pc_next (site b' f) = pc_next (site b f) /\ (forall j, set_nth (pc_next (site b f)) j (pc_items (site b' f)) = set_nth (pc_next (site b f)) j (pc_items (site b f))) /\
    be_count b' = be_count b /\ be_log b' = be_log b ++ map Freed fr /\
    (forall id, ~ In id (map en_id E) -> nget id (be_objects b') = nget id (be_objects b)).
Proof.
  intros sv b E f pend M R. destruct (R f) as (L4 & N4 & Q4 & RG). destruct (ring_set _ _ empty_item L4 N4) as (_ & _ & _ & HN & _). unfold delete_next. rewrite HN, RG.
  destruct (Nat.eqb_spec (List.length (of_site f E)) 4) as [F4|F4].
  - rewrite F4. cbn [Nat.sub repeat app]. destruct (of_site f E) as [|e q] eqn:Q; [discriminate F4|]. cbn [map hd full ci_std ci_mcxt].
    destruct (first_of_site _ _ _ _ Q) as (E1 & E2 & -> & O1 & O2). assert (SF : en_site e = f).
    { assert (I : In e (of_site f (E1 ++ e :: E2))) by (rewrite Q; left; reflexivity). apply of_site_in in I. apply I. }
    destruct (deleted _ _ _ _ _ _ M) as (b1 & D & M1 & It & C & LG & OB). rewrite SF in D. rewrite D. cbn [obind].
    eexists. exists (E1 ++ E2), [en_id e]. split; [reflexivity|]. split; [apply touched; [exact M1|reflexivity]|].
    split; [unfold shift_e; rewrite F4; cbn [Nat.eqb tl]; rewrite of_site_app, O1; exact O2|].
    split. { intros i N. rewrite !of_site_app. unfold of_site at 4. cbn [filter]. destruct (N.eqb_spec (en_site e) i); [congruence|reflexivity]. }
    split. { intros i N. rewrite site_set. destruct (N.eqb_spec f i); [congruence|apply It]. }
    destruct (It f) as (I1 & I2). rewrite !site_set, !N.eqb_refl. cbn [set_item pc_items pc_next]. rewrite I1, I2. split; [reflexivity|].
    split. { intros j. apply ring_set; assumption. }
    split; [exact C|]. split; [exact LG|]. intros id NI. apply OB. intros ->. apply NI. apply in_map, in_elt.
  - assert (hd empty_item (repeat empty_item (4 - List.length (of_site f E)) ++ map full (of_site f E)) = empty_item) as ->.
    { destruct (4 - List.length (of_site f E))%nat as [|n] eqn:Z; [lia|reflexivity]. }
    cbn [ci_std empty_item]. exists b, E, []. split; [reflexivity|]. split; [exact M|]. split.
    { unfold shift_e. destruct (Nat.eqb_spec (List.length (of_site f E)) 4); [contradiction|reflexivity]. }
    do 2 (split; [auto|]). do 3 (split; [reflexivity|]). split; [rewrite app_nil_r; reflexivity|reflexivity].
Qed.

Lemma holds_step : forall sv b b' f l g id, holds sv b f l g id -> (exists t, be_log b' = be_log b ++ t) -> nget id (be_objects b') = nget id (be_objects b) -> holds sv b' f l g id.
Proof.
  intros sv b b' f l g id (lex & gmr & x & gr & h & K1 & K2 & K3 & K4 & K5 & K6 & K7) (t & LG) O. exists lex, gmr, x, gr, h. rewrite LG, O.
  split; [apply in_app_iff; left; exact K1|]. auto 10.
Qed.
Lemma shift_len : forall q, (List.length q <= 4)%nat -> (List.length (shift_e q) <= 3)%nat.
Proof. intros q H. unfold shift_e. destruct (Nat.eqb_spec (List.length q) 4); destruct q; cbn in *; lia. Qed.
Lemma added : forall sv b E f lex gmr x g, fresh_contexts sv -> mem sv b E [] -> (forall i, ring_ok (site b i) (of_site i E)) ->
  get_lexicon (sv_env sv) lex = Ok x -> get_grammar (sv_env sv) (sv_atof sv) gmr = Ok g ->
  exists b' E' e fr, add_to_cache sv b f lex gmr = Ok b' /\ mem sv b' E' [] /\ (forall i, ring_ok (site b' i) (of_site i E')) /\
    of_site f E' = shift_e (of_site f E) ++ [e] /\ en_key e = (sv_digest sv lex, sv_digest sv gmr) /\ (forall i, i <> f -> of_site i E' = of_site i E) /\
    be_log b' = be_log b ++ Built f (be_count b) lex gmr :: map Freed fr.
Proof.
  intros sv b E f lex gmr x g FC M R L G. destruct (created sv b E f lex gmr x g M L G) as (b1 & C1 & M1 & H1 & S1 & N1 & L1).
  unfold add_to_cache. rewrite C1. cbn [obind].
  assert (R1 : forall i, ring_ok (site b1 i) (of_site i E)) by (intros i; rewrite S1; apply R).
  destruct (next_deleted sv b1 E f [be_count b] M1 R1) as (b2 & E2 & fr & D & M2 & O2 & O2' & It & Nx & St & C2 & L2 & OB). rewrite D. cbn [obind]. cbv zeta.
  rewrite (fresh_hash sv b2 E2 _ FC M2). set (ctx := sv_alloc sv (be_count b2) (all_contexts b2)).
  assert (H2 : holds sv b2 f (sv_digest sv lex) (sv_digest sv gmr) (be_count b)).
  { apply (holds_step sv b1); [exact H1|eauto|]. apply OB. pose proof (m_ids _ _ _ _ M1) as ND. cbn [app] in ND. inversion ND; assumption. }
  assert (NH : nget ctx (be_hash b2) = None) by (apply (fresh_hash sv b2 E2 _ FC M2)).
  destruct (R1 f) as (L4 & N4 & Q4 & RG).
  exists (set_site (mkBackend (be_sites b2) (nset ctx (be_count b) (be_hash b2)) (be_objects b2) (be_count b2) (be_log b2)) f
     (mkPortal (set_nth (pc_next (site b2 f)) (mkItem (Some (sv_digest sv lex)) (Some (sv_digest sv gmr)) (Some (be_count b)) (Some ctx)) (pc_items (site b2 f)))
        (Nat.modulo (pc_next (site b2 f) + 1) 4) (ctx :: pc_children (site b2 f)))),
    (E2 ++ [mkEntry f (sv_digest sv lex) (sv_digest sv gmr) (be_count b) ctx]), (mkEntry f (sv_digest sv lex) (sv_digest sv gmr) (be_count b) ctx), fr.
  split; [reflexivity|]. split; [apply inserted; assumption|].
  assert (OF : of_site f (E2 ++ [mkEntry f (sv_digest sv lex) (sv_digest sv gmr) (be_count b) ctx]) = shift_e (of_site f E) ++ [mkEntry f (sv_digest sv lex) (sv_digest sv gmr) (be_count b) ctx]).
  { rewrite of_site_app, O2. unfold of_site at 2. cbn [filter en_site]. rewrite N.eqb_refl. reflexivity. }
  assert (OO : forall i, i <> f -> of_site i (E2 ++ [mkEntry f (sv_digest sv lex) (sv_digest sv gmr) (be_count b) ctx]) = of_site i E).
  { intros i N. rewrite of_site_app, (O2' i N). unfold of_site at 2. cbn [filter en_site]. destruct (N.eqb_spec f i); [congruence|apply app_nil_r]. }
  split; [|split; [exact OF|split; [reflexivity|split; [exact OO|]]]].
  - intros i. rewrite site_set. destruct (N.eqb_spec f i) as [<-|NE].
    + rewrite OF. unfold ring_ok. cbn [pc_items pc_next]. rewrite Nx, St. 
      destruct (ring_set _ _ (mkItem (Some (sv_digest sv lex)) (Some (sv_digest sv gmr)) (Some (be_count b)) (Some ctx)) L4 N4) as (K1 & K2 & K3 & _ & _).
      split; [exact K2|]. split; [exact K3|]. pose proof (shift_len _ Q4) as SL. rewrite app_length. cbn [List.length]. split; [lia|]. rewrite K1, RG, map_app.
      cbn [map full en_lex en_gmr en_id en_ctx]. rewrite app_assoc. f_equal. unfold shift_e in *. destruct (Nat.eqb_spec (List.length (of_site f E)) 4) as [F4|F4].
      * rewrite F4. destruct (of_site f E) as [|e q]; [discriminate|]. cbn [tl] in *. assert (LQ : List.length q = 3%nat) by (cbn [List.length] in F4; lia). rewrite LQ. reflexivity.
      * replace (4 - List.length (of_site f E))%nat with (S (4 - (List.length (of_site f E) + 1))) by lia. reflexivity.
    + rewrite OO by congruence. change (ring_ok (site b2 i) (of_site i E)). specialize (R1 i). unfold ring_ok in *. destruct (It i ltac:(congruence)) as (-> & ->). exact R1.
  - unfold set_site. cbn [be_log]. rewrite L2, L1, <- app_assoc. reflexivity.
Qed.

(** ** Sessions *)
Record ok (sv : server) (ops : list op) (b : backend) (E : list entry) : Prop := mkOk {
  ok_mem : mem sv b E [];
  ok_ring : forall f, ring_ok (site b f) (of_site f E);
  ok_keys : forall f, NoDup (map en_key (of_site f E));
  ok_queue : forall f, map en_key (of_site f E) = fst (queue sv f ops);
  ok_built : forall f, keys_built sv f (be_log b) = snd (queue sv f ops);
  ok_from : forall f id lex gmr, In (Built f id lex gmr) (be_log b) -> exists a, In (Call f a) ops /\ a_lexicon a = lex /\ a_grammar a = gmr;
  ok_answers : answered_calls (be_log b) = calls_of ops }.
Lemma start_ok : forall sv, ok sv [] new_backend [].
Proof.
  intros sv. constructor; try (intros; constructor; fail); try (intros; reflexivity).
  - constructor; try (constructor; fail); try reflexivity; try (intros; contradiction).
    + intros id. split; [intros ((f & l & g & []) & _)|intros []].
    + intros id (f & l & g & []).
  - intros f. split; [reflexivity|]. split; [cbn; lia|]. split; [cbn; lia|reflexivity].
  - intros f id lex gmr [].
Qed.
Lemma queue_snoc : forall sv f ops o, queue sv f (ops ++ [o]) = queue_step sv f (queue sv f ops) o.
Proof. intros. unfold queue. rewrite fold_left_app. reflexivity. Qed.
Lemma keys_built_app : forall sv f l1 l2, keys_built sv f (l1 ++ l2) = keys_built sv f l1 ++ keys_built sv f l2.
Proof. intros. unfold keys_built. rewrite map_app, concat_app. reflexivity. Qed.
Lemma keys_built_freed : forall sv f fr, keys_built sv f (map Freed fr) = [].
Proof. induction fr as [|i fr IH]; [reflexivity|]. exact IH. Qed.

Lemma answered_app : forall l1 l2, answered_calls (l1 ++ l2) = answered_calls l1 ++ answered_calls l2.
Proof. intros. unfold answered_calls. rewrite map_app. apply concat_app. Qed.
Lemma calls_app : forall l1 l2, calls_of (l1 ++ l2) = calls_of l1 ++ calls_of l2.
Proof. intros. unfold calls_of. rewrite map_app. apply concat_app. Qed.
Lemma answered_freed : forall fr, answered_calls (map Freed fr) = [].
Proof. induction fr as [|i fr IH]; [reflexivity|exact IH]. Qed.
Lemma end_ok : forall sv ops b E f, ok sv ops b E -> exists b' E', end_site b f = Ok b' /\ ok sv (ops ++ [End f]) b' E'.
Proof.
  intros sv ops b E f [M R K Q B FR AN]. destruct (ended sv b E f M) as (b' & E' & D & M' & O1 & O2 & It & SF & fr & L). exists b', E'. split; [exact D|].
  constructor; [exact M'| | | | | |]; [intros i; (destruct (N.eqb_spec f i) as [<-|N]) ..| |].
  - rewrite SF, O1. split; [reflexivity|]. split; [cbn; lia|]. split; [cbn; lia|reflexivity].
  - rewrite O2 by congruence. specialize (R i). unfold ring_ok in *. destruct (It i ltac:(congruence)) as (-> & ->). exact R.
  - rewrite O1. constructor.
  - rewrite O2 by congruence. apply K.
  - rewrite O1, queue_snoc. cbn [queue_step]. rewrite N.eqb_refl. reflexivity.
  - rewrite O2 by congruence. rewrite queue_snoc. cbn [queue_step]. destruct (N.eqb_spec f i); [congruence|]. apply Q.
  - rewrite L, keys_built_app, keys_built_freed, app_nil_r, queue_snoc. cbn [queue_step]. rewrite N.eqb_refl. apply B.
  - rewrite L, keys_built_app, keys_built_freed, app_nil_r, queue_snoc. cbn [queue_step]. destruct (N.eqb_spec f i); [congruence|]. apply B.
  - intros i id lex gmr I. rewrite L in I. apply in_app_iff in I. destruct I as [I|I]; [|apply in_map_iff in I; destruct I as (? & X & _); discriminate].
    destruct (FR i id lex gmr I) as (a & A1 & A2). exists a. split; [apply in_app_iff; left; exact A1|exact A2].
  - rewrite L, answered_app, answered_freed, AN, calls_app. reflexivity.
Qed.
Lemma key_pair : forall e a sv, en_key e = key_of sv a -> en_lex e = sv_digest sv (a_lexicon a) /\ en_gmr e = sv_digest sv (a_grammar a).
Proof. intros e a sv H. injection H as -> ->. auto. Qed.
(** The state between the cache and the answer. *)
Record ok_but (sv : server) (ops : list op) (o : op) (b : backend) (E : list entry) : Prop := mkOkBut {
  ob_mem : mem sv b E [];
  ob_ring : forall f, ring_ok (site b f) (of_site f E);
  ob_keys : forall f, NoDup (map en_key (of_site f E));
  ob_queue : forall f, map en_key (of_site f E) = fst (queue sv f (ops ++ [o]));
  ob_built : forall f, keys_built sv f (be_log b) = snd (queue sv f (ops ++ [o]));
  ob_from : forall f id lex gmr, In (Built f id lex gmr) (be_log b) -> exists a, In (Call f a) (ops ++ [o]) /\ a_lexicon a = lex /\ a_grammar a = gmr;
  ob_answers : answered_calls (be_log b) = calls_of ops }.
Lemma got : forall sv ops b E f a, fresh_contexts sv -> ok sv ops b E ->
  (exists b' E' e, get_std sv b f (a_lexicon a) (a_grammar a) = Ok (Some (en_id e), b') /\ ok_but sv ops (Call f a) b' E' /\
    In e E' /\ en_site e = f /\ en_key e = key_of sv a) \/
  get_std sv b f (a_lexicon a) (a_grammar a) = UB /\ ~ good_call sv a.
Proof.
  intros sv ops b E f a FC [M R K Q B FR AN]. unfold get_std. set (b0 := set_site b f (site b f)).
  assert (S0 : forall i, site b0 i = site b i) by (intros i; unfold b0; rewrite site_set; destruct (N.eqb_spec f i) as [<-|N]; reflexivity).
  assert (M0 : mem sv b0 E []) by (apply touched; [exact M|reflexivity]).
  assert (R0 : forall i, ring_ok (site b0 i) (of_site i E)) by (intros i; rewrite S0; apply R).
  assert (FR0 : forall i id lex gmr, In (Built i id lex gmr) (be_log b0) -> exists a', In (Call i a') (ops ++ [Call f a]) /\ a_lexicon a' = lex /\ a_grammar a' = gmr).
  { intros i id lex gmr I. destruct (FR i id lex gmr I) as (a' & A1 & A2). exists a'. split; [apply in_app_iff; left; exact A1|exact A2]. }
  pose proof (cached _ _ (sv_digest sv (a_lexicon a)) (sv_digest sv (a_grammar a)) (R0 f)) as CA. fold (key_of sv a) in CA.
  destruct (is_in_cache (site b0 f) (sv_digest sv (a_lexicon a)) (sv_digest sv (a_grammar a))) eqn:IC.
  - destruct CA as (e & I & KE & GE). cbn [obind]. rewrite GE. apply of_site_in in I. left. exists b0, E, e. split; [reflexivity|]. split; [|tauto].
    assert (IQ : In (key_of sv a) (fst (queue sv f ops))) by (rewrite <- Q, <- KE; apply in_map, of_site_in; exact I).
    assert (SN : forall i, queue sv i (ops ++ [Call f a]) = queue sv i ops).
    { intros i. rewrite queue_snoc. cbn [queue_step]. destruct (N.eqb_spec f i) as [<-|N]; [|reflexivity]. destruct (in_dec key_eq_dec _ _); [reflexivity|contradiction]. }
    constructor; try assumption; intros i; rewrite ?SN; auto.
  - destruct (get_lexicon (sv_env sv) (a_lexicon a)) as [x|m|] eqn:LX;
      [|right; split; [unfold add_to_cache, create_std; rewrite LX; reflexivity|intros ((? & X) & _); congruence]..].
    destruct (get_grammar (sv_env sv) (sv_atof sv) (a_grammar a)) as [g|m|] eqn:LG;
      [|right; split; [unfold add_to_cache, create_std; rewrite LX, LG; reflexivity|intros (_ & (? & X)); congruence]..].
    left. destruct (added sv b0 E f _ _ x g FC M0 R0 LX LG) as (b' & E' & e & fr & A & M' & R' & O1 & KE & O2 & L). rewrite A. cbn [obind].
    assert (I : In e (of_site f E')) by (rewrite O1; apply in_app_iff; right; left; reflexivity).
    assert (ND : NoDup (map en_key (of_site f E'))).
    { rewrite O1, map_app. cbn [map]. apply (Permutation_NoDup (Permutation_cons_append _ _)). constructor.
      - rewrite KE. fold (key_of sv a). intros H. apply CA. unfold shift_e in H. destruct (Nat.eqb _ _); [|exact H]. destruct (of_site f E); [exact H|right; exact H].
      - specialize (K f). unfold shift_e. destruct (Nat.eqb _ _); [|exact K]. destruct (of_site f E); [exact K|inversion K; assumption]. }
    pose proof (cached _ _ (sv_digest sv (a_lexicon a)) (sv_digest sv (a_grammar a)) (R' f)) as CA'. fold (key_of sv a) in CA'.
    assert (IN : In (key_of sv a) (map en_key (of_site f E'))) by (unfold key_of; rewrite <- KE; apply in_map; exact I).
    destruct (is_in_cache (site b' f) _ _); [|contradiction]. destruct CA' as (e' & I' & KE' & GE). rewrite GE. exists b', E', e'. split; [reflexivity|].
    split; [|apply of_site_in in I'; tauto].
    assert (NQ : ~ In (key_of sv a) (fst (queue sv f ops))) by (rewrite <- Q; exact CA).
    assert (SF : queue sv f (ops ++ [Call f a]) = (shift (fst (queue sv f ops)) ++ [key_of sv a], snd (queue sv f ops) ++ [key_of sv a])).
    { rewrite queue_snoc. cbn [queue_step]. rewrite N.eqb_refl. destruct (in_dec key_eq_dec _ _); [contradiction|reflexivity]. }
    assert (SN : forall i, i <> f -> queue sv i (ops ++ [Call f a]) = queue sv i ops).
    { intros i N. rewrite queue_snoc. cbn [queue_step]. destruct (N.eqb_spec f i) as [<-|N']; [congruence|reflexivity]. }
    constructor; try assumption; [intros i; (destruct (N.eq_dec i f) as [->|N]) ..|intros i|].
    + exact ND.
    + rewrite O2 by exact N. apply K.
    + rewrite SF, O1, map_app, <- Q. cbn [map fst]. rewrite KE. f_equal. unfold shift, shift_e. rewrite map_length. destruct (Nat.eqb _ _); [|reflexivity]. destruct (of_site f E); reflexivity.
    + rewrite O2, SN by exact N. apply Q.
    + rewrite SF, L, keys_built_app. cbn [snd]. change (be_log b0) with (be_log b). rewrite B. f_equal. change (keys_built sv f (Built f (be_count b0) (a_lexicon a) (a_grammar a) :: map Freed fr)) with
       ((if f =? f then [(sv_digest sv (a_lexicon a), sv_digest sv (a_grammar a))] else []) ++ keys_built sv f (map Freed fr)). rewrite N.eqb_refl, keys_built_freed. reflexivity.
    + rewrite SN, L, keys_built_app by exact N. change (be_log b0) with (be_log b). rewrite B. change (keys_built sv i (Built f (be_count b0) (a_lexicon a) (a_grammar a) :: map Freed fr)) with
       ((if f =? i then [(sv_digest sv (a_lexicon a), sv_digest sv (a_grammar a))] else []) ++ keys_built sv i (map Freed fr)). rewrite keys_built_freed.
       destruct (N.eqb_spec f i); [congruence|]. apply app_nil_r.
    + intros id lex gmr J. rewrite L in J. apply in_app_iff in J. destruct J as [J|[J|J]]; [exact (FR0 i id lex gmr J)| |apply in_map_iff in J; destruct J as (? & X & _); discriminate].
      injection J as <- _ <- <-. exists a. split; [apply in_app_iff; right; left; reflexivity|auto].
    + rewrite L. change (Built f (be_count b0) (a_lexicon a) (a_grammar a) :: map Freed fr) with ([Built f (be_count b0) (a_lexicon a) (a_grammar a)] ++ map Freed fr).
      rewrite !answered_app, answered_freed. cbn [answered_calls map concat app]. rewrite app_nil_r. exact AN.
Qed.
Definition fits (sv : server) (ops : list op) (f : N) (a : args) : Prop :=
  forall a', In (Call f a') (ops ++ [Call f a]) -> key_of sv a' = key_of sv a -> defined_call sv (a_lexicon a') (a_grammar a') a.
Lemma call_ok : forall sv ops b E f a, fresh_contexts sv -> stores_patterns sv -> ok sv ops b E ->
  (exists b' E', as_standardize sv b f a = Ok b' /\ ok sv (ops ++ [Call f a]) b' E') \/
  as_standardize sv b f a = UB /\ ~ (good_call sv a /\ fits sv ops f a).
Proof.
  intros sv ops b E f a FC SP O. unfold as_standardize. destruct (got sv ops b E f a FC O) as [(b1 & E1 & e & G & O1 & I & SE & KE)|(G & NG)];
    [|right; rewrite G; split; [reflexivity|tauto]]. rewrite G. cbn [obind].
  destruct O1 as [M R K Q B FR AN]. destruct (key_pair _ _ _ KE) as (KL & KG).
  destruct (m_built _ _ _ _ M e I) as (lex & gmr & x & gr & h & K1 & K2 & K3 & K4 & K5 & K6 & K7). rewrite K7. cbn [ob_lex ob_gmr].
  destruct (FR _ _ _ _ K1) as (a' & A1 & A2 & A3). rewrite SE in A1.
  destruct (warm_results (sv_env sv) gr x h (a_locale a) (a_filter a) (a_address a) K6) as (WR & _). rewrite WR.
  assert (RW : (exists row, address_row (standardize_addr (sv_env sv) gr x (a_locale a) (a_filter a) (a_address a)) = Ok row) \/
               standardize_addr (sv_env sv) gr x (a_locale a) (a_filter a) (a_address a) = UB).
  { destruct (standardize_addr _ gr x _ _ _) as [[s|]|m|]; [left; eexists; reflexivity..|right; reflexivity]. }
  destruct RW as [(row & RW)|RW].
  - left. rewrite RW. cbn [obind]. destruct (answered_mem sv b1 E1 e a row SP M I KL KG) as (s & S1 & S2).
    rewrite K7 in S1. injection S1 as <-. cbn [ob_lex ob_gmr] in S2. rewrite WR in S2. specialize (S2 RW). rewrite SE in S2.
    eexists. exists E1. split; [reflexivity|]. constructor; [exact S2|exact R|exact K|exact Q| | |].
    + intros i. unfold note. cbn [be_log]. rewrite keys_built_app, B. apply app_nil_r.
    + intros i id l g J. unfold note in J. cbn [be_log] in J. apply in_app_iff in J. destruct J as [J|[J|[]]]; [exact (FR i id l g J)|discriminate].
    + unfold note. cbn [be_log]. rewrite answered_app, AN, calls_app. reflexivity.
  - right. rewrite RW. split; [reflexivity|]. intros (_ & DC).
    assert (DF : defined_call sv lex gmr a).
    { rewrite <- A2, <- A3. apply DC; [exact A1|]. unfold key_of. rewrite A2, A3, K2, K3, KL, KG. reflexivity. }
    apply DF. unfold std_standardize. rewrite K5. cbn [obind]. rewrite K4. exact RW.
Qed.

Lemma session_app : forall sv ops1 ops2 b, session sv b (ops1 ++ ops2) = obind (session sv b ops1) (fun b1 => session sv b1 ops2).
Proof. induction ops1 as [|o ops IH]; intros ops2 b; [reflexivity|]. cbn [app session]. destruct (do_op sv b o); cbn [obind]; [apply IH|reflexivity|reflexivity]. Qed.
Lemma session_ok : forall sv ops, fresh_contexts sv -> stores_patterns sv ->
  (exists b E, session sv new_backend ops = Ok b /\ ok sv ops b E) \/ session sv new_backend ops = UB /\ ~ fine sv ops.
Proof.
  intros sv ops FC SP. induction ops as [|o ops IH] using rev_ind; [left; exists new_backend, []; split; [reflexivity|apply start_ok]|].
  assert (F : fine sv (ops ++ [o]) -> fine sv ops).
  { assert (C : forall a, called ops a -> called (ops ++ [o]) a) by (intros a (f & I); exists f; apply in_app_iff; left; exact I).
    intros (G & D). split; [intros a H; apply G, C, H|intros a a' H H'; apply D; apply C; assumption]. }
  rewrite session_app. destruct IH as [(b & E & S1 & O)|(S1 & NF)]; rewrite S1; cbn [obind]; [|right; split; [reflexivity|intros X; exact (NF (F X))]].
  cbn [session]. destruct o as [f a|f]; cbn [do_op].
  - destruct (call_ok sv ops b E f a FC SP O) as [(b' & E' & A & O')|(A & NG)]; rewrite A; cbn [obind].
    + left. exists b', E'. auto.
    + right. split; [reflexivity|]. intros (G & D). apply NG.
      assert (CA : called (ops ++ [Call f a]) a) by (exists f; apply in_app_iff; right; left; reflexivity).
      split; [exact (G a CA)|]. intros a' I K. apply D; [exact CA|exists f; exact I|exact K].
  - destruct (end_ok sv ops b E f O) as (b' & E' & A & O'). left. exists b', E'. rewrite A. auto.
Qed.

(** ** Consequences *)
Lemma run_ok : forall sv ops b, fresh_contexts sv -> stores_patterns sv -> session sv new_backend ops = Ok b -> exists E, ok sv ops b E.
Proof. intros sv ops b FC SP H. destruct (session_ok sv ops FC SP) as [(b' & E & S1 & O)|(S1 & _)]; [|congruence]. exists E. rewrite H in S1. injection S1 as ->. exact O. Qed.
Lemma never_throws : forall sv ops, fresh_contexts sv -> stores_patterns sv ->
  (forall m, session sv new_backend ops <> Throw m) /\ (fine sv ops -> session sv new_backend ops <> UB).
Proof. intros sv ops FC SP. destruct (session_ok sv ops FC SP) as [(b & E & -> & _)|(-> & NF)]; split; try discriminate. tauto. Qed.
Lemma snoc_split : forall A (l l1 l2 : list A) y z, l ++ [y] = l1 ++ z :: l2 -> l = l1 /\ y = z /\ l2 = [] \/ exists t, l2 = t ++ [y] /\ l = l1 ++ z :: t.
Proof.
  intros A l l1 l2 y z H. destruct l2 as [|c l2 _] using rev_ind; [apply app_inj_tail in H; left; destruct H; auto|].
  right. exists l2. rewrite app_comm_cons, app_assoc in H. apply app_inj_tail in H. destruct H as (H & ->). auto.
Qed.
Lemma sound_answer : forall sv l, sound sv l -> forall l1 f a id row l2, l = l1 ++ Answered f a id row :: l2 ->
  ~ was_freed l1 id /\ exists lex gmr, In (Built f id lex gmr) l1 /\ sv_digest sv lex = sv_digest sv (a_lexicon a) /\ sv_digest sv gmr = sv_digest sv (a_grammar a) /\
    address_row (std_standardize (sv_env sv) (sv_atof sv) (a_address a) gmr lex (a_locale a) (a_filter a)) = Ok row.
Proof.
  intros sv l H. induction H as [|l f' id' lex gmr H IH NB NF|l id' H IH U|l f' a' id' row' lex gmr H IH U B D1 D2 R]; intros l1 f a id row l2 EQ.
  - destruct l1; discriminate EQ.
  - apply snoc_split in EQ. destruct EQ as [(_ & X & _)|(t & _ & ->)]; [discriminate X|eauto].
  - apply snoc_split in EQ. destruct EQ as [(_ & X & _)|(t & _ & ->)]; [discriminate X|eauto].
  - apply snoc_split in EQ. destruct EQ as [(<- & X & _)|(t & _ & ->)]; [|eauto]. injection X as <- <- <- <-. split; [apply U|]. exists lex, gmr. auto.
Qed.
Lemma sound_free : forall sv l, sound sv l -> forall l1 id l2, l = l1 ++ Freed id :: l2 -> in_use l1 id.
Proof.
  intros sv l H. induction H as [|l f' id' lex gmr H IH NB NF|l id' H IH U|l f' a' id' row' lex gmr H IH U B D1 D2 R]; intros l1 id l2 EQ.
  - destruct l1; discriminate EQ.
  - apply snoc_split in EQ. destruct EQ as [(_ & X & _)|(t & _ & ->)]; [discriminate X|eauto].
  - apply snoc_split in EQ. destruct EQ as [(<- & X & _)|(t & _ & ->)]; [injection X as <-; exact U|eauto].
  - apply snoc_split in EQ. destruct EQ as [(_ & X & _)|(t & _ & ->)]; [discriminate X|eauto].
Qed.
Lemma sound_build : forall sv l, sound sv l -> forall l1 f id lex gmr l2, l = l1 ++ Built f id lex gmr :: l2 -> ~ was_built l1 id.
Proof.
  intros sv l H. induction H as [|l f' id' lex' gmr' H IH NB NF|l id' H IH U|l f' a' id' row' lex' gmr' H IH U B D1 D2 R]; intros l1 f id lex gmr l2 EQ.
  - destruct l1; discriminate EQ.
  - apply snoc_split in EQ. destruct EQ as [(<- & X & _)|(t & _ & ->)]; [injection X as _ <- _ _; exact NB|eauto].
  - apply snoc_split in EQ. destruct EQ as [(_ & X & _)|(t & _ & ->)]; [discriminate X|eauto].
  - apply snoc_split in EQ. destruct EQ as [(_ & X & _)|(t & _ & ->)]; [discriminate X|eauto].
Qed.
