From Coq Require Import String List NArith ZArith Bool Lia.
From Verif Require Import Base_model Class_model Float_model Uni_model Token_model Rule_model Search_model Grammar_model Lexicon_model
  Tokenizer_model Archive_model Wrapper_model Lexicon_spec Cache_model Cache_spec WrapperTop_proofs CacheMem_proofs Cache_proofs CacheTop_proofs Heap_model Heap_spec Heap_proofs.
Import ListNotations.
Local Open Scope N_scope.

(** * The digests *)
Lemma strdup_run : forall t n old, strdup t (mkHeap n old) = (Ok n, mkHeap (n + 1) ((n, B_str t) :: old)).
Proof. reflexivity. Qed.
Lemma ret_run : forall A (a : A) h, ret a h = (Ok a, h).
Proof. reflexivity. Qed.
Lemma lift_run : forall A (a : A) h, lift (Ok a) h = (Ok a, h).
Proof. reflexivity. Qed.
Tactic Notation "step" uconstr(E) := etransitivity; [eapply bind_ok; refine E|cbn [app]].
Lemma digests_run : forall A sv lex gmr (v : text -> text -> A) n old, 0 < n ->
  with_digests sv lex gmr (fun l g => ret (v l g)) (mkHeap n old) = (Ok (v (sv_digest sv lex) (sv_digest sv gmr)), mkHeap (n + 1 + 1) old).
Proof.
  intros A sv lex gmr v n old Z. unfold with_digests.
  set (pl := (n, B_str (sv_digest sv lex))). set (pg := (n + 1, B_str (sv_digest sv gmr))).
  rewrite (bind_ok _ _ _ _ _ _ _ (strdup_run _ n old)). fold pl.
  rewrite (bind_ok _ _ _ _ _ _ _ (strdup_run _ (n + 1) (pl :: old))). fold pg.
  assert (NZ0 : n <> 0) by lia. assert (NZ : n + 1 <> 0) by lia.
  assert (AN : absent n [pg]). { intros b [I|[]]. injection I as I _. lia. }
  step (load_str_at (n + 1 + 1) [pg] n _ old AN).
  step (load_str_at (n + 1 + 1) [] (n + 1) _ (pl :: old) (fun b (I : False) => I)).
  step (ret_run _ (v (sv_digest sv lex) (sv_digest sv gmr)) _).
  step (free_at (n + 1 + 1) [pg] n _ old AN NZ0).
  step (free_at (n + 1 + 1) [] (n + 1) _ old (fun b (I : False) => I) NZ). reflexivity.
Qed.
Lemma add_run : forall sv b f lex gmr n old, 0 < n ->
  match add_to_cache sv b f lex gmr with
  | Ok b' => add_to_cache_h sv b f lex gmr (mkHeap n old) = (Ok b', mkHeap (n + 1 + 1) old)
  | o => fst (add_to_cache_h sv b f lex gmr (mkHeap n old)) = o
  end.
Proof.
  intros sv b f lex gmr n old Z. unfold add_to_cache, add_to_cache_h.
  destruct (create_std sv b f lex gmr) as [[id b1]|m|]; cbn [obind]; [|reflexivity|reflexivity].
  rewrite (bind_ok _ _ _ _ _ _ _ (lift_run _ (id, b1) _)).
  set (pl := (n, B_str (sv_digest sv lex))). set (pg := (n + 1, B_str (sv_digest sv gmr))).
  rewrite (bind_ok _ _ _ _ _ _ _ (strdup_run _ n old)). fold pl.
  rewrite (bind_ok _ _ _ _ _ _ _ (strdup_run _ (n + 1) (pl :: old))). fold pg.
  destruct (delete_next b1 f) as [b2|m|]; cbn [obind]; [|reflexivity|reflexivity].
  rewrite (bind_ok _ _ _ _ _ _ _ (lift_run _ b2 _)). cbv zeta.
  destruct (nget (sv_alloc sv (be_count b2) (all_contexts b2)) (be_hash b2)) as [i|]; [reflexivity|].
  assert (NZ0 : n <> 0) by lia. assert (NZ : n + 1 <> 0) by lia.
  assert (AN : absent n [pg]). { intros c [I|[]]. injection I as I _. lia. }
  step (load_str_at (n + 1 + 1) [pg] n _ old AN).
  step (free_at (n + 1 + 1) [pg] n _ old AN NZ0). cbn [app].
  step (load_str_at (n + 1 + 1) [] (n + 1) _ old (fun b (I : False) => I)).
  step (free_at (n + 1 + 1) [] (n + 1) _ old (fun b (I : False) => I) NZ). reflexivity.
Qed.
Lemma get_run : forall sv b f lex gmr n old, 0 < n ->
  match get_std sv b f lex gmr with
  | Ok r => exists n', n <= n' /\ get_std_h sv b f lex gmr (mkHeap n old) = (Ok r, mkHeap n' old)
  | o => fst (get_std_h sv b f lex gmr (mkHeap n old)) = o
  end.
Proof.
  intros sv b f lex gmr n old Z. unfold get_std, get_std_h. cbv zeta. set (b0 := set_site b f (site b f)).
  rewrite (bind_ok _ _ _ _ _ _ _ (digests_run bool sv lex gmr (is_in_cache (site b0 f)) n old Z)).
  destruct (is_in_cache (site b0 f) (sv_digest sv lex) (sv_digest sv gmr)).
  - cbn [obind]. exists (n + 1 + 1 + 1 + 1). split; [lia|]. rewrite (bind_ok _ _ _ _ _ _ _ (ret_run _ b0 _)).
    rewrite (bind_ok _ _ _ _ _ _ _ (digests_run (option N) sv lex gmr (get_from_cache (site b0 f)) (n + 1 + 1) old ltac:(lia))). reflexivity.
  - pose proof (add_run sv b0 f lex gmr (n + 1 + 1) old ltac:(lia)) as A.
    destruct (add_to_cache sv b0 f lex gmr) as [b1|m|]; cbn [obind].
    + exists (n + 1 + 1 + 1 + 1 + 1 + 1). split; [lia|]. rewrite (bind_ok _ _ _ _ _ _ _ A).
      rewrite (bind_ok _ _ _ _ _ _ _ (digests_run (option N) sv lex gmr (get_from_cache (site b1 f)) (n + 1 + 1 + 1 + 1) old ltac:(lia))). reflexivity.
    + unfold bind at 1. destruct (add_to_cache_h sv b0 f lex gmr (mkHeap (n + 1 + 1) old)) as [o h]. cbn [fst] in A. rewrite A. reflexivity.
    + unfold bind at 1. destruct (add_to_cache_h sv b0 f lex gmr (mkHeap (n + 1 + 1) old)) as [o h]. cbn [fst] in A. rewrite A. reflexivity.
Qed.
Lemma append_length : forall w v i, List.length (append_at i w v) = List.length v.
Proof. induction v as [|t v IH]; intros [|i]; cbn [append_at List.length]; [reflexivity..|]. rewrite IH. reflexivity. Qed.
Lemma collect_length : forall x ks v v', collect x v ks = Ok v' -> List.length v' = List.length v.
Proof.
  induction ks as [|k ks IH]; intros v v' C; cbn [collect] in C; [injection C as <-; reflexivity|].
  destruct (standardize_word x k) as [k'|m|]; cbn [obind] in C; [|discriminate|discriminate]. rewrite (IH _ _ C). unfold put_token.
  destruct (slot (t_out k')); [apply append_length|reflexivity].
Qed.
Lemma sized : forall e g x locale filt address, well_sized (standardize_addr e g x locale filt address).
Proof.
  intros e g x locale filt address. unfold standardize_addr. destruct (make_phrases e x locale filt address) as [ps|m|]; cbn [obind]; [|exact I|exact I].
  destruct (search_best g ps) as [b|m|]; cbn [obind]; [|exact I|exact I]. destruct (f_le f_zero (b_score b)); [|exact I].
  destruct (collect x (repeat [] 16) (b_tokens b)) as [v|m|] eqn:C; cbn [obind]; [|exact I|exact I]. cbn [well_sized sa_fields].
  rewrite map_length, (collect_length _ _ _ _ C). reflexivity.
Qed.
(** What one call adds to the heap, given the outcome for its standardizer. *)
Definition added_by (n : N) (r : outcome (option stdaddr)) : list (N * block) := match r with Throw m => [(n, B_str m)] | _ => [] end.
Definition used_std (sv : server) (b : backend) (f : N) (a : args) (r : outcome (option stdaddr)) : Prop :=
  exists id b1 s, get_std sv b f (a_lexicon a) (a_grammar a) = Ok (Some id, b1) /\ nget id (be_objects b1) = Some s /\
    r = standardize_addr (sv_env sv) (ob_gmr s) (ob_lex s) (a_locale a) (a_filter a) (a_address a).
Lemma call_run : forall sv b f a n old, 0 < n ->
  match as_standardize sv b f a with
  | Ok b' => exists n0 n' r, n <= n0 /\ n0 <= n' /\ (added_by n0 r <> [] -> n0 < n') /\ used_std sv b f a r /\
               as_standardize_h sv b f a (mkHeap n old) = (Ok b', mkHeap n' (added_by n0 r ++ old))
  | o => fst (as_standardize_h sv b f a (mkHeap n old)) = o
  end.
Proof.
  intros sv b f a n old Z. unfold as_standardize, as_standardize_h. pose proof (get_run sv b f (a_lexicon a) (a_grammar a) n old Z) as G.
  destruct (get_std sv b f (a_lexicon a) (a_grammar a)) as [[o b1]|m|] eqn:GS; cbn [obind].
  2,3: unfold bind at 1; destruct (get_std_h sv b f (a_lexicon a) (a_grammar a) (mkHeap n old)) as [q h]; cbn [fst] in G; rewrite G; reflexivity.
  destruct G as (n0 & L & G). rewrite (bind_ok _ _ _ _ _ _ _ G). destruct o as [id|]; [|reflexivity].
  destruct (nget id (be_objects b1)) as [s|] eqn:NG; [|reflexivity].
  set (r := standardize_addr (sv_env sv) (ob_gmr s) (ob_lex s) (a_locale a) (a_filter a) (a_address a)).
  destruct (row_run r n0 old ltac:(lia) (sized _ _ _ _ _ _)) as (n' & L' & R).
  assert (US : used_std sv b f a r) by (exists id, b1, s; auto).
  destruct r as [[w|]|m|] eqn:ER; cbn [address_row obind].
  - exists n0, n', (Ok (Some w)). split; [exact L|]. split; [exact L'|]. split; [intros C; destruct (C eq_refl)|]. split; [exact US|]. rewrite (bind_ok _ _ _ _ _ _ _ R). reflexivity.
  - exists n0, n', (Ok None). split; [exact L|]. split; [exact L'|]. split; [intros C; destruct (C eq_refl)|]. split; [exact US|]. rewrite (bind_ok _ _ _ _ _ _ _ R). reflexivity.
  - exists n0, (n0 + 1), (Throw m). split; [exact L|]. split; [lia|]. split; [lia|]. split; [exact US|]. rewrite (bind_ok _ _ _ _ _ _ _ R). reflexivity.
  - unfold bind at 1. rewrite R. reflexivity.
Qed.

(** * Sessions *)
Lemma session_h_app : forall sv ops1 ops2 b h, session_h sv b (ops1 ++ ops2) h = bind (session_h sv b ops1) (fun b1 => session_h sv b1 ops2) h.
Proof.
  induction ops1 as [|o ops IH]; intros ops2 b h; [reflexivity|]. cbn [app session_h]. unfold bind.
  destruct (do_op_h sv b o h) as [[b1|m|] h1]; [|reflexivity|reflexivity]. rewrite IH. reflexivity.
Qed.
Lemma do_op_run : forall sv b o h, 0 < h_next h ->
  match do_op sv b o with
  | Ok b' => exists h', do_op_h sv b o h = (Ok b', h') /\ 0 < h_next h'
  | r => fst (do_op_h sv b o h) = r
  end.
Proof.
  intros sv b o [n old] Z. destruct o as [f a|f]; cbn [do_op do_op_h h_next] in *.
  - pose proof (call_run sv b f a n old Z) as C. destruct (as_standardize sv b f a) as [b'|m|]; [|exact C|exact C].
    destruct C as (n0 & n' & r & L & L' & _ & _ & C). eexists. split; [exact C|]. cbn [h_next]. lia.
  - unfold lift. destruct (end_site b f) as [b'|m|]; [|reflexivity|reflexivity]. exists (mkHeap n old). auto.
Qed.
Lemma session_same : forall sv ops b h, 0 < h_next h -> fst (session_h sv b ops h) = session sv b ops.
Proof.
  induction ops as [|o ops IH]; intros b h Z; [reflexivity|]. cbn [session session_h]. unfold bind. pose proof (do_op_run sv b o h Z) as D.
  destruct (do_op sv b o) as [b'|m|]; cbn [obind].
  - destruct D as (h' & D & Z'). rewrite D. apply IH, Z'.
  - destruct (do_op_h sv b o h) as [q h1]. cbn [fst] in D. rewrite D. reflexivity.
  - destruct (do_op_h sv b o h) as [q h1]. cbn [fst] in D. rewrite D. reflexivity.
Qed.
Lemma used_own : forall sv ops b E f a r, fresh_contexts sv -> ok sv ops b E -> no_collisions sv (ops ++ [Call f a]) -> used_std sv b f a r -> r = own_outcome sv a.
Proof.
  intros sv ops b E f a r FC O NC (id & b1 & s & G & NG & ->). destruct (got sv ops b E f a FC O) as [(b2 & E1 & e & G' & O1 & I & SE & KE)|(G' & NG')];
    rewrite G in G'; [|discriminate]. injection G' as -> ->. destruct O1 as [M R K Q B FR AN]. destruct (key_pair _ _ _ KE) as (KL & KG).
  destruct (m_built _ _ _ _ M e I) as (lex & gmr & x & gr & h & K1 & K2 & K3 & K4 & K5 & K6 & K7). rewrite K7 in NG. injection NG as <-. cbn [ob_lex ob_gmr].
  destruct (FR _ _ _ _ K1) as (a' & A1 & A2 & A3). rewrite SE in A1.
  assert (CA : called (ops ++ [Call f a]) a) by (exists f; apply in_app_iff; right; left; reflexivity).
  assert (CA' : called (ops ++ [Call f a]) a') by (exists f; exact A1). destruct (NC a' a CA' CA) as (N1 & N2). rewrite A2 in N1. rewrite A3 in N2.
  rewrite KL in K2. rewrite KG in K3. specialize (N1 K2). specialize (N2 K3). subst lex gmr.
  unfold own_outcome, std_standardize. rewrite <- N1, <- N2, K5. cbn [obind]. rewrite K4. cbn [obind]. apply warm_results. exact K6.
Qed.
Lemma left_nothing : forall h h', h_blocks h' = h_blocks h -> h_next h <= h_next h' -> heap_ok h -> left_over h h' [].
Proof.
  intros h h' E L (Z & B). split; [split; [lia|]|].
  - intros p b I. rewrite E in I. destruct (B p b I). lia.
  - exists []. rewrite E. split; [reflexivity|]. split; [reflexivity|]. split; [constructor|intros p b []].
Qed.
Lemma left_more : forall h h1 bs n' l, left_over h h1 bs -> h_next h <= h_next h1 -> h_next h1 <= n' ->
  NoDup (map fst l) -> (forall p b, In (p, b) l -> h_next h1 <= p /\ p < n') -> left_over h (mkHeap n' (l ++ h_blocks h1)) (map snd l ++ bs).
Proof.
  intros h h1 bs n' l ((Z & B) & l1 & E & M & ND & A) LH L N1 L1. split; [split; cbn [h_next h_blocks]; [lia|]|].
  - intros p b I. apply in_app_iff in I. destruct I as [I|I]; [destruct (L1 p b I); lia|destruct (B p b I); lia].
  - exists (l ++ l1). cbn [h_blocks]. rewrite E, app_assoc. split; [reflexivity|]. rewrite map_app, M. split; [reflexivity|]. rewrite map_app.
    split.
    + clear M. induction l as [|[p b] l IH]; [exact ND|]. cbn [map fst app]. inversion N1 as [|? ? NI N1']; subst. constructor.
      * intros I. apply in_app_iff in I. destruct I as [I|I]; [exact (NI I)|]. apply in_map_iff in I. destruct I as ((p' & b') & I1 & I2). cbn [fst] in I1. subst p'.
        destruct (L1 p b (or_introl eq_refl)) as (G0 & _). destruct (B p b') as (_ & G2); [rewrite E; apply in_app_iff; left; exact I2|]. lia.
      * apply IH; [exact N1'|]. intros p' b' I. apply (L1 p' b'). right. exact I.
    + intros p b I. apply in_app_iff in I. destruct I as [I|I]; [destruct (L1 p b I); lia|exact (A p b I)].
Qed.
Lemma no_collisions_less : forall sv ops o, no_collisions sv (ops ++ [o]) -> no_collisions sv ops.
Proof. intros sv ops o NC a b (f & A) (g & B). apply NC; [exists f|exists g]; apply in_app_iff; left; assumption. Qed.
Lemma session_left : forall sv ops b h, fresh_contexts sv -> stores_patterns sv -> no_collisions sv ops -> heap_ok h ->
  session sv new_backend ops = Ok b ->
  exists h', session_h sv new_backend ops h = (Ok b, h') /\ left_over h h' (rev (session_leaks sv (calls_of ops))) /\ h_next h <= h_next h'.
Proof.
  intros sv ops b h FC SP. revert b. induction ops as [|o ops IH] using rev_ind; intros b NC HO S1.
  - cbn [session] in S1. injection S1 as <-. exists h. split; [reflexivity|]. split; [apply left_nothing; [reflexivity|lia|exact HO]|lia].
  - rewrite session_app in S1. destruct (session sv new_backend ops) as [b1|m|] eqn:S0; cbn [obind] in S1; [|discriminate|discriminate].
    destruct (IH b1 (no_collisions_less _ _ _ NC) HO eq_refl) as (h1 & R1 & LO & LH). destruct (run_ok _ _ _ FC SP S0) as (E & O).
    rewrite session_h_app, (bind_ok _ _ _ _ _ _ _ R1). cbn [session session_h] in S1 |- *.
    destruct (do_op sv b1 o) as [b2|m|] eqn:D; cbn [obind] in S1; [|discriminate|discriminate]. injection S1 as ->.
    assert (Z1 : 0 < h_next h1) by (destruct HO; lia). unfold session_leaks. rewrite calls_app, map_app, concat_app, rev_app_distr. fold (session_leaks sv (calls_of ops)).
    destruct o as [f a|f]; cbn [do_op do_op_h] in *.
    + pose proof (call_run sv b1 f a (h_next h1) (h_blocks h1) Z1) as C. rewrite D in C. destruct C as (n0 & n' & r & L & L' & L2 & US & C).
      assert (HE : mkHeap (h_next h1) (h_blocks h1) = h1) by (destruct h1; reflexivity). rewrite HE in C. rewrite (bind_ok _ _ _ _ _ _ _ C).
      pose proof (used_own sv ops b1 E f a r FC O NC US) as ->.
      eexists. split; [reflexivity|]. split; [|cbn [h_next]; lia].
      cbn [calls_of map concat snd app]. rewrite app_nil_r.
      replace (rev (message (own_outcome sv a))) with (map snd (added_by n0 (own_outcome sv a))) by (destruct (own_outcome sv a) as [?|?|]; reflexivity).
      apply left_more; [exact LO|exact LH|lia| |].
      * destruct (own_outcome sv a); cbn [added_by map]; [constructor| |constructor]. constructor; [intros []|constructor].
      * intros p c I. destruct (own_outcome sv a); cbn [added_by] in *; [destruct I| |destruct I]. destruct I as [I|[]]. injection I as <- <-.
        split; [exact L|apply L2; discriminate].
    + rewrite D, (bind_ok _ _ _ _ _ _ _ (lift_run _ b _)). exists h1. split; [reflexivity|]. split; [exact LO|exact LH].
Qed.
