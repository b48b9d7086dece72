From Coq Require Import String List NArith ZArith Bool Lia.
From Verif Require Import Base_model Class_model Float_model Uni_model Token_model Rule_model Search_model Grammar_model Lexicon_model
  Tokenizer_model Archive_model Wrapper_model Lexicon_spec Cache_model Heap_model Heap_spec.
Import ListNotations.
Local Open Scope N_scope.

(** * Blocks on top of others *)
Definition absent (k : N) (l : list (N * block)) : Prop := forall b, ~ In (k, b) l.
Lemma nget_app : forall k l r, absent k l -> nget k (l ++ r) = nget k r.
Proof.
  induction l as [|[i b] l IH]; intros r A; [reflexivity|]. cbn [app nget]. destruct (N.eqb_spec i k) as [->|_]; [destruct (A b); left; reflexivity|].
  apply IH. intros c I. exact (A c (or_intror I)).
Qed.
Lemma ndel_app : forall k l r, absent k l -> ndel k (l ++ r) = l ++ ndel k r.
Proof.
  induction l as [|[i b] l IH]; intros r A; [reflexivity|]. cbn [app ndel]. destruct (N.eqb_spec i k) as [->|_]; [destruct (A b); left; reflexivity|].
  f_equal. apply IH. intros c I. exact (A c (or_intror I)).
Qed.
Lemma nset_app : forall k v l r, absent k l -> nset k v (l ++ r) = l ++ nset k v r.
Proof.
  induction l as [|[i b] l IH]; intros r A; [reflexivity|]. cbn [app nset]. destruct (N.eqb_spec i k) as [->|_]; [destruct (A b); left; reflexivity|].
  f_equal. apply IH. intros c I. exact (A c (or_intror I)).
Qed.
Lemma nget_top : forall k (b : block) r, nget k ((k, b) :: r) = Some b.
Proof. intros. cbn [nget]. rewrite N.eqb_refl. reflexivity. Qed.
Lemma ndel_top : forall k (b : block) r, ndel k ((k, b) :: r) = r.
Proof. intros. cbn [ndel]. rewrite N.eqb_refl. reflexivity. Qed.
Lemma nset_top : forall k (b c : block) r, nset k c ((k, b) :: r) = (k, c) :: r.
Proof. intros. cbn [nset]. rewrite N.eqb_refl. reflexivity. Qed.
Definition between (m n : N) (l : list (N * block)) : Prop := forall p b, In (p, b) l -> m <= p /\ p < n.
Lemma between_absent : forall m n l k, between m n l -> k < m \/ n <= k -> absent k l.
Proof. intros m n l k B H b I. destruct (B _ _ I). lia. Qed.
Lemma between_app : forall m n l r, between m n l -> between m n r -> between m n (l ++ r).
Proof. intros m n l r A B p b I. apply in_app_iff in I. destruct I as [I|I]; [exact (A _ _ I)|exact (B _ _ I)]. Qed.
Lemma between_wider : forall m n m' n' l, between m n l -> m' <= m -> n <= n' -> between m' n' l.
Proof. intros m n m' n' l A L R p b I. destruct (A _ _ I). lia. Qed.
Lemma between_nil : forall m n, between m n [].
Proof. intros m n p b []. Qed.
Lemma between_one : forall m n k b, m <= k -> k < n -> between m n [(k, b)].
Proof. intros m n k b L R p c [J|[]]. injection J as <- <-. auto. Qed.

Lemma bind_ok : forall A B (m : cmd A) (k : A -> cmd B) h a h1, m h = (Ok a, h1) -> bind m k h = k a h1.
Proof. intros. unfold bind. rewrite H. reflexivity. Qed.
Lemma free_at : forall n l k b r, absent k l -> k <> 0 -> free k (mkHeap n (l ++ (k, b) :: r)) = (Ok tt, mkHeap n (l ++ r)).
Proof.
  intros n l k b r A Z. unfold free. destruct (N.eqb_spec k 0) as [E|_]; [contradiction|]. cbn [h_blocks h_next].
  rewrite nget_app, nget_top, ndel_app, ndel_top by exact A. reflexivity.
Qed.
Lemma load_at : forall n l k b r, absent k l -> load k (mkHeap n (l ++ (k, b) :: r)) = (Ok b, mkHeap n (l ++ (k, b) :: r)).
Proof. intros n l k b r A. unfold load. cbn [h_blocks]. rewrite nget_app, nget_top by exact A. reflexivity. Qed.
Lemma load_str_at : forall n l k t r, absent k l -> load_str k (mkHeap n (l ++ (k, B_str t) :: r)) = (Ok t, mkHeap n (l ++ (k, B_str t) :: r)).
Proof. intros n l k t r A. unfold load_str. rewrite (bind_ok _ _ _ _ _ _ _ (load_at n l k (B_str t) r A)). reflexivity. Qed.
Lemma load_str_in : forall k t h, nget k (h_blocks h) = Some (B_str t) -> load_str k h = (Ok t, h).
Proof. intros k t h G. unfold load_str, bind, load. rewrite G. reflexivity. Qed.
Lemma store_at : forall n l k b c r, absent k l -> store k c (mkHeap n (l ++ (k, b) :: r)) = (Ok tt, mkHeap n (l ++ (k, c) :: r)).
Proof. intros n l k b c r A. unfold store. cbn [h_blocks h_next]. rewrite nget_app, nget_top, nset_app, nset_top by exact A. reflexivity. Qed.
Lemma set_nth_at : forall A (l1 l2 : list A) x v, set_nth (List.length l1) v (l1 ++ x :: l2) = l1 ++ v :: l2.
Proof.
  intros A l1 l2 x v. unfold set_nth. rewrite firstn_app, Nat.sub_diag, firstn_all. cbn [firstn]. rewrite app_nil_r. f_equal. f_equal.
  induction l1 as [|y l1 IH]; [reflexivity|exact IH].
Qed.
Lemma put_index_at : forall A (l1 l2 : list A) x v h, put_index (l1 ++ x :: l2) (List.length l1) v h = (Ok (l1 ++ v :: l2), h).
Proof.
  intros A l1 l2 x v h. unfold put_index. rewrite app_length. cbn [List.length].
  replace (Nat.ltb _ _) with true by (symmetry; apply Nat.ltb_lt; lia). unfold ret. rewrite set_nth_at. reflexivity.
Qed.
Lemma at_index_at : forall A (l1 l2 : list A) x h, at_index (l1 ++ x :: l2) (List.length l1) h = (Ok x, h).
Proof. intros A l1 l2 x h. unfold at_index. rewrite nth_error_app2, Nat.sub_diag by lia. reflexivity. Qed.
Lemma set_field_at : forall n l a l1 x l2 r v, absent a l ->
  set_field a (List.length l1) v (mkHeap n (l ++ (a, B_std (l1 ++ x :: l2)) :: r)) = (Ok tt, mkHeap n (l ++ (a, B_std (l1 ++ v :: l2)) :: r)).
Proof.
  intros. unfold set_field. rewrite (bind_ok _ _ _ _ _ _ _ (load_at n l a _ r H)). rewrite (bind_ok _ _ _ _ _ _ _ (put_index_at _ l1 l2 x v _)).
  apply store_at, H.
Qed.
Lemma get_field_at : forall n l a l1 x l2 r, absent a l ->
  get_field a (List.length l1) (mkHeap n (l ++ (a, B_std (l1 ++ x :: l2)) :: r)) = (Ok x, mkHeap n (l ++ (a, B_std (l1 ++ x :: l2)) :: r)).
Proof. intros. unfold get_field. rewrite (bind_ok _ _ _ _ _ _ _ (load_at n l a _ r H)). apply at_index_at. Qed.
Lemma set_tok_at : forall n l a l1 x l2 r v, absent a l ->
  set_tok a (List.length l1) v (mkHeap n (l ++ (a, B_toks (l1 ++ x :: l2)) :: r)) = (Ok tt, mkHeap n (l ++ (a, B_toks (l1 ++ v :: l2)) :: r)).
Proof.
  intros. unfold set_tok. rewrite (bind_ok _ _ _ _ _ _ _ (load_at n l a _ r H)). rewrite (bind_ok _ _ _ _ _ _ _ (put_index_at _ l1 l2 x v _)).
  apply store_at, H.
Qed.
Lemma get_tok_at : forall n l a l1 x l2 r, absent a l ->
  get_tok a (List.length l1) (mkHeap n (l ++ (a, B_toks (l1 ++ x :: l2)) :: r)) = (Ok x, mkHeap n (l ++ (a, B_toks (l1 ++ x :: l2)) :: r)).
Proof. intros. unfold get_tok. rewrite (bind_ok _ _ _ _ _ _ _ (load_at n l a _ r H)). apply at_index_at. Qed.
Lemma set_mtok_at : forall n l a l1 x l2 r v, absent a l ->
  set_mtok a (List.length l1) v (mkHeap n (l ++ (a, B_mtoks (l1 ++ x :: l2)) :: r)) = (Ok tt, mkHeap n (l ++ (a, B_mtoks (l1 ++ v :: l2)) :: r)).
Proof.
  intros. unfold set_mtok. rewrite (bind_ok _ _ _ _ _ _ _ (load_at n l a _ r H)). rewrite (bind_ok _ _ _ _ _ _ _ (put_index_at _ l1 l2 x v _)).
  apply store_at, H.
Qed.
Lemma get_mtok_at : forall n l a l1 x l2 r, absent a l ->
  get_mtok a (List.length l1) (mkHeap n (l ++ (a, B_mtoks (l1 ++ x :: l2)) :: r)) = (Ok x, mkHeap n (l ++ (a, B_mtoks (l1 ++ x :: l2)) :: r)).
Proof. intros. unfold get_mtok. rewrite (bind_ok _ _ _ _ _ _ _ (load_at n l a _ r H)). apply at_index_at. Qed.
Lemma snoc_at : forall A (l1 l2 : list A) x, l1 ++ x :: l2 = (l1 ++ [x]) ++ l2.
Proof. intros. rewrite <- app_assoc. reflexivity. Qed.
Lemma length_snoc : forall A (l : list A) x, List.length (l ++ [x]) = S (List.length l).
Proof. intros. rewrite app_length. cbn [List.length]. lia. Qed.

(** * STDADDR *)
Fixpoint used (fs : list (option text)) : N := match fs with [] => 0 | None :: r => used r | Some _ :: r => 1 + used r end.
Fixpoint ptrs (n : N) (fs : list (option text)) : list N :=
  match fs with [] => [] | None :: r => 0 :: ptrs n r | Some _ :: r => n :: ptrs (n + 1) r end.
Fixpoint strs (n : N) (fs : list (option text)) : list (N * block) :=
  match fs with [] => [] | None :: r => strs n r | Some t :: r => strs (n + 1) r ++ [(n, B_str t)] end.
Lemma strs_between : forall fs n, between n (n + used fs) (strs n fs).
Proof.
  induction fs as [|[t|] fs IH]; intros n; cbn [strs used]; [apply between_nil| |apply IH].
  apply between_app; [apply (between_wider _ _ _ _ _ (IH (n + 1))); lia|apply between_one; lia].
Qed.
Lemma fill_run : forall fs a n l1 l2 x old, a < n -> between (a + 1) n x ->
  fill_fields a (List.length l1) fs (mkHeap n (x ++ (a, B_std (l1 ++ repeat 0 (List.length fs) ++ l2)) :: old)) =
  (Ok tt, mkHeap (n + used fs) (strs n fs ++ x ++ (a, B_std (l1 ++ ptrs n fs ++ l2)) :: old)).
Proof.
  induction fs as [|[t|] fs IH]; intros a n l1 l2 x old L B; cbn [fill_fields strs ptrs used List.length repeat app].
  - rewrite N.add_0_r. reflexivity.
  - unfold strdup at 1, alloc at 1, bind at 1. cbn [h_next h_blocks].
    change ((n, B_str t) :: x ++ (a, B_std (l1 ++ 0 :: repeat 0 (List.length fs) ++ l2)) :: old)
      with (((n, B_str t) :: x) ++ (a, B_std (l1 ++ 0 :: repeat 0 (List.length fs) ++ l2)) :: old).
    assert (B' : between (a + 1) (n + 1) ((n, B_str t) :: x)).
    { apply (between_app _ _ [(n, B_str t)]); [apply between_one; lia|apply (between_wider _ _ _ _ _ B); lia]. }
    assert (AB : absent a ((n, B_str t) :: x)) by (apply (between_absent _ _ _ _ B'); lia).
    rewrite (bind_ok _ _ _ _ _ _ _ (set_field_at (n + 1) ((n, B_str t) :: x) a l1 0 _ old n AB)).
    rewrite (snoc_at _ l1 _ n), <- length_snoc with (x := n), IH by (lia || exact B'). f_equal. f_equal; [lia|].
    rewrite <- !app_assoc. cbn [app]. reflexivity.
  - rewrite (snoc_at _ l1 _ 0), <- length_snoc with (x := 0), IH by (lia || exact B). f_equal. f_equal.
    rewrite <- !app_assoc. cbn [app]. reflexivity.
Qed.
Lemma fill_app : forall fs gs a i h, fill_fields a i (fs ++ gs) h = bind (fill_fields a i fs) (fun _ => fill_fields a (List.length fs + i) gs) h.
Proof.
  induction fs as [|[t|] fs IH]; intros gs a i h; cbn [app fill_fields List.length]; [reflexivity| |].
  - unfold strdup, alloc, bind. cbn [h_next h_blocks]. destruct (set_field a i (h_next h) _) as [[u|m|] h1]; [|reflexivity|reflexivity].
    rewrite IH. unfold bind. rewrite Nat.add_succ_r. reflexivity.
  - rewrite IH. unfold bind. rewrite Nat.add_succ_r. reflexivity.
Qed.
Definition all_fields (s : stdaddr) : list (option text) := sa_fields s ++ [Some (sa_pattern s)].
Lemma new_run : forall s n old, List.length (sa_fields s) = 16%nat ->
  new_stdaddr s (mkHeap n old) =
  (Ok n, mkHeap (n + 1 + used (all_fields s)) (strs (n + 1) (all_fields s) ++ (n, B_std (ptrs (n + 1) (all_fields s))) :: old)).
Proof.
  intros s n old L.
  assert (F : fill_fields n 0 (all_fields s) (mkHeap (n + 1) ((n, B_std (repeat 0 17)) :: old)) =
    (Ok tt, mkHeap (n + 1 + used (all_fields s)) (strs (n + 1) (all_fields s) ++ (n, B_std (ptrs (n + 1) (all_fields s))) :: old))).
  { pose proof (fill_run (all_fields s) n (n + 1) [] [] [] old ltac:(lia) (between_nil _ _)) as F. cbn [List.length app] in F.
    unfold all_fields in F at 2. rewrite app_length, L in F. cbn [List.length Nat.add] in F. rewrite app_nil_r in F. rewrite app_nil_r in F. exact F. }
  unfold all_fields in F at 1. rewrite fill_app, L in F. cbn [Nat.add fill_fields] in F.
  unfold new_stdaddr. unfold alloc at 1, bind at 1. cbn [h_next h_blocks].
  unfold bind in F |- *. destruct (fill_fields n 0 (sa_fields s) _) as [[u|m|] h1]; [|discriminate|discriminate].
  destruct (strdup (sa_pattern s) h1) as [[p|m|] h2]; [|discriminate|discriminate].
  destruct (set_field n 16 p h2) as [[u2|m|] h3]; [|discriminate|discriminate]. unfold ret in F |- *. injection F as F; subst h3. reflexivity.
Qed.

(** Reading. *)
Lemma read_run : forall fs n m l1 l2 a x old, a < n -> between (n + used fs) m x -> 0 < n -> n + used fs <= m ->
  forall y, between (a + 1) n y ->
  collect_each (field_value a) (List.seq (List.length l1) (List.length fs))
    (mkHeap m (x ++ strs n fs ++ y ++ (a, B_std (l1 ++ ptrs n fs ++ l2)) :: old)) =
  (Ok fs, mkHeap m (x ++ strs n fs ++ y ++ (a, B_std (l1 ++ ptrs n fs ++ l2)) :: old)).
Proof.
  induction fs as [|[t|] fs IH]; intros n m l1 l2 a x old L B Z M y Y; cbn [List.length List.seq collect_each strs ptrs used app] in *; [reflexivity| |].
  - assert (AB : absent a (x ++ (strs (n + 1) fs ++ [(n, B_str t)]) ++ y)).
    { intros b I. apply in_app_iff in I. destruct I as [I|I]; [destruct (B _ _ I); lia|]. apply in_app_iff in I.
      destruct I as [I|I]; [|destruct (Y _ _ I); lia]. apply in_app_iff in I. destruct I as [I|[I|[]]]; [destruct (strs_between _ _ _ _ I); lia|].
      injection I as -> _. lia. }
    assert (F : field_value a (List.length l1) (mkHeap m (x ++ (strs (n + 1) fs ++ [(n, B_str t)]) ++ y ++ (a, B_std (l1 ++ n :: ptrs (n + 1) fs ++ l2)) :: old)) =
      (Ok (Some t), mkHeap m (x ++ (strs (n + 1) fs ++ [(n, B_str t)]) ++ y ++ (a, B_std (l1 ++ n :: ptrs (n + 1) fs ++ l2)) :: old))).
    { unfold field_value. rewrite !app_assoc. rewrite !app_assoc in AB. rewrite (bind_ok _ _ _ _ _ _ _ (get_field_at m _ a l1 n _ old AB)).
      destruct (N.eqb_spec n 0) as [E|_]; [lia|].
      rewrite (bind_ok _ _ _ _ _ t (mkHeap m (((x ++ (strs (n + 1) fs ++ [(n, B_str t)])) ++ y) ++ (a, B_std (l1 ++ n :: ptrs (n + 1) fs ++ l2)) :: old))).
      - rewrite !app_assoc. reflexivity.
      - rewrite <- !app_assoc. apply load_str_in. cbn [h_blocks]. rewrite nget_app by (intros b I; destruct (B _ _ I); lia).
        rewrite nget_app by (intros b I; destruct (strs_between _ _ _ _ I); lia). cbn [app]. apply nget_top. }
    rewrite (bind_ok _ _ _ _ _ _ _ F). clear F AB.
    specialize (IH (n + 1) m (l1 ++ [n]) l2 a x old ltac:(lia) ltac:(apply (between_wider _ _ _ _ _ B); lia) ltac:(lia) ltac:(lia) ((n, B_str t) :: y)
      ltac:(apply (between_app _ _ [(n, B_str t)]); [apply between_one; lia|apply (between_wider _ _ _ _ _ Y); lia])).
    rewrite length_snoc, <- !app_assoc in IH. cbn [app] in IH. rewrite <- !app_assoc. cbn [app]. rewrite (bind_ok _ _ _ _ _ _ _ IH). reflexivity.
  - assert (AB : absent a (x ++ strs n fs ++ y)).
    { intros b I. apply in_app_iff in I. destruct I as [I|I]; [destruct (B _ _ I); lia|]. apply in_app_iff in I.
      destruct I as [I|I]; [destruct (strs_between _ _ _ _ I); lia|destruct (Y _ _ I); lia]. }
    assert (F : field_value a (List.length l1) (mkHeap m (x ++ strs n fs ++ y ++ (a, B_std (l1 ++ 0 :: ptrs n fs ++ l2)) :: old)) =
      (Ok None, mkHeap m (x ++ strs n fs ++ y ++ (a, B_std (l1 ++ 0 :: ptrs n fs ++ l2)) :: old))).
    { unfold field_value. rewrite !app_assoc. rewrite !app_assoc in AB. rewrite (bind_ok _ _ _ _ _ _ _ (get_field_at m _ a l1 0 _ old AB)). reflexivity. }
    rewrite (bind_ok _ _ _ _ _ _ _ F). clear F AB.
    specialize (IH n m (l1 ++ [0]) l2 a x old L B Z M y Y).
    rewrite length_snoc, <- !app_assoc in IH. cbn [app] in IH. rewrite (bind_ok _ _ _ _ _ _ _ IH). reflexivity.
Qed.
(** Freeing. *)
Lemma free_fields_run : forall fs n m l1 l2 a old, a < n -> 0 < n ->
  each (fun i => bind (get_field a i) (fun p => if p =? 0 then ret tt else free p)) (List.seq (List.length l1) (List.length fs))
    (mkHeap m (strs n fs ++ (a, B_std (l1 ++ ptrs n fs ++ l2)) :: old)) = (Ok tt, mkHeap m ((a, B_std (l1 ++ ptrs n fs ++ l2)) :: old)).
Proof.
  induction fs as [|[t|] fs IH]; intros n m l1 l2 a old L Z; cbn [List.length List.seq each strs ptrs app]; [reflexivity| |].
  - assert (AN : absent n (strs (n + 1) fs)) by (intros b I; destruct (strs_between _ _ _ _ I); lia).
    assert (AA : absent a (strs (n + 1) fs ++ [(n, B_str t)])).
    { intros b I. apply in_app_iff in I. destruct I as [I|[I|[]]]; [destruct (strs_between _ _ _ _ I); lia|]. injection I as -> _. lia. }
    rewrite (bind_ok _ _ _ _ _ tt (mkHeap m (strs (n + 1) fs ++ (a, B_std (l1 ++ n :: ptrs (n + 1) fs ++ l2)) :: old))).
    2:{ rewrite (bind_ok _ _ _ _ _ _ _ (get_field_at m _ a l1 n _ old AA)). destruct (N.eqb_spec n 0) as [E|_]; [lia|].
        rewrite <- app_assoc. cbn [app]. apply free_at; [exact AN|lia]. }
    specialize (IH (n + 1) m (l1 ++ [n]) l2 a old ltac:(lia) ltac:(lia)). rewrite length_snoc, <- !app_assoc in IH. exact IH.
  - assert (AA : absent a (strs n fs)) by (intros b I; destruct (strs_between _ _ _ _ I); lia).
    rewrite (bind_ok _ _ _ _ _ tt (mkHeap m (strs n fs ++ (a, B_std (l1 ++ 0 :: ptrs n fs ++ l2)) :: old))).
    2:{ rewrite (bind_ok _ _ _ _ _ _ _ (get_field_at m _ a l1 0 _ old AA)). reflexivity. }
    specialize (IH n m (l1 ++ [0]) l2 a old L Z). rewrite length_snoc, <- !app_assoc in IH. exact IH.
Qed.
Definition well_sized (r : outcome (option stdaddr)) : Prop := match r with Ok (Some s) => List.length (sa_fields s) = 16%nat | _ => True end.
Lemma row_run : forall r n old, 0 < n -> well_sized r ->
  exists n', n <= n' /\ standardize_row r (mkHeap n old) =
    match r with
    | Ok (Some s) => (Ok (all_fields s), mkHeap n' old)
    | Ok None => (Ok (repeat None 17), mkHeap n' old)
    | Throw m => (Ok (repeat None 17), mkHeap (n + 1) ((n, B_str m) :: old))
    | UB => (UB, mkHeap n old)
    end.
Proof.
  intros [[s|]|m|] n old Z W; unfold standardize_row.
  - exists (n + 1 + used (all_fields s)). split; [lia|]. cbn [well_sized] in W.
    assert (SL : List.length (all_fields s) = 17%nat) by (unfold all_fields; rewrite app_length, W; reflexivity).
    rewrite (bind_ok _ _ _ _ _ (n, 0) (mkHeap (n + 1 + used (all_fields s)) (strs (n + 1) (all_fields s) ++ (n, B_std (ptrs (n + 1) (all_fields s))) :: old))).
    2:{ cbn [standardize_ptr]. rewrite (bind_ok _ _ _ _ _ _ _ (new_run s n old W)). reflexivity. }
    unfold read_values, stdaddr_free. destruct (N.eqb_spec n 0) as [E|_]; [lia|].
    pose proof (read_run (all_fields s) (n + 1) (n + 1 + used (all_fields s)) [] [] n [] old ltac:(lia) (between_nil _ _) ltac:(lia) ltac:(lia) [] (between_nil _ _)) as R.
    rewrite app_nil_r in R. cbn [List.length app] in R. rewrite SL in R. rewrite (bind_ok _ _ _ _ _ _ _ R). clear R.
    pose proof (free_fields_run (all_fields s) (n + 1) (n + 1 + used (all_fields s)) [] [] n old ltac:(lia) ltac:(lia)) as R.
    rewrite app_nil_r in R. cbn [List.length app] in R. rewrite SL in R.
    rewrite (bind_ok _ _ _ _ _ tt (mkHeap (n + 1 + used (all_fields s)) old)); [reflexivity|].
    rewrite (bind_ok _ _ _ _ _ _ _ R). apply (free_at _ [] n _ old); [intros b []|lia].
  - exists n. split; [lia|reflexivity].
  - exists n. split; [lia|reflexivity].
  - exists n. split; [lia|reflexivity].
Qed.
