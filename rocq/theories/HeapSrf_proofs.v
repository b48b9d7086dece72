From Coq Require Import String List NArith ZArith Bool Lia.
From Verif Require Import Base_model Class_model Float_model Uni_model Token_model Rule_model Search_model Grammar_model Lexicon_model
  Tokenizer_model Archive_model Wrapper_model Lexicon_spec Cache_model Heap_model Heap_spec Heap_proofs.
Import ListNotations.
Local Open Scope N_scope.

Lemma bind_step : forall A B (m : cmd A) (k : A -> cmd B) h a h1 r, m h = (Ok a, h1) -> k a h1 = r -> bind m k h = r.
Proof. intros A B m k h a h1 r E <-. apply bind_ok, E. Qed.
Tactic Notation "step" uconstr(E) := eapply bind_step; [refine E|cbn [app]].
(** * Calls *)
Lemma calls_some : forall A (next : srf -> cmd (option A * srf)) h a mx (rows : list A) c n,
  (forall i r, nth_error rows i = Some r -> next (mkSrf mx (c + i) a) h = (Ok (Some r, mkSrf mx (S (c + i)) a), h)) ->
  (n <= List.length rows)%nat -> calls next n (mkSrf mx c a) h = (Ok (firstn n rows, Some (mkSrf mx (c + n) a)), h).
Proof.
  intros A next h a mx. induction rows as [|r rows IH]; intros c n H L; cbn [List.length] in L.
  - replace n with 0%nat by lia. cbn [calls firstn]. rewrite Nat.add_0_r. reflexivity.
  - destruct n as [|n]; [cbn [calls firstn]; rewrite Nat.add_0_r; reflexivity|]. cbn [calls firstn].
    pose proof (H 0%nat r eq_refl) as H0. rewrite Nat.add_0_r in H0. step H0.
    assert (H1 : calls next n (mkSrf mx (S c) a) h = (Ok (firstn n rows, Some (mkSrf mx (S c + n) a)), h)).
    { apply IH; [|lia]. intros i q Q. specialize (H (S i) q Q). rewrite Nat.add_succ_r in H. exact H. }
    step H1. unfold ret. rewrite Nat.add_succ_r. reflexivity.
Qed.
Lemma calls_all : forall A (next : srf -> cmd (option A * srf)) h h' a mx (rows : list A) c n,
  (forall i r, nth_error rows i = Some r -> next (mkSrf mx (c + i) a) h = (Ok (Some r, mkSrf mx (S (c + i)) a), h)) ->
  next (mkSrf mx (c + List.length rows) a) h = (Ok (None, mkSrf mx (c + List.length rows) a), h') ->
  (List.length rows < n)%nat -> calls next n (mkSrf mx c a) h = (Ok (rows, None), h').
Proof.
  intros A next h h' a mx. induction rows as [|r rows IH]; intros c n H E L; cbn [List.length] in L, E; (destruct n as [|n]; [lia|]); cbn [calls].
  - rewrite Nat.add_0_r in E. step E. reflexivity.
  - pose proof (H 0%nat r eq_refl) as H0. rewrite Nat.add_0_r in H0. step H0.
    assert (H1 : calls next n (mkSrf mx (S c) a) h = (Ok (rows, None), h')).
    { apply IH; [| |lia].
      - intros i q Q. specialize (H (S i) q Q). rewrite Nat.add_succ_r in H. exact H.
      - rewrite Nat.add_succ_r in E. exact E. }
    step H1. reflexivity.
Qed.

(** * TOKENS *)
Fixpoint trows (n : N) (rs : list prow) : list trow :=
  match rs with [] => [] | r :: rs' => mkTRow (Z.of_N (pr_pat r)) (Z.of_N (pr_seq r)) n (n + 1) (n + 2) :: trows (n + 3) rs' end.
Fixpoint tstrs (n : N) (rs : list prow) : list (N * block) :=
  match rs with
  | [] => []
  | r :: rs' => tstrs (n + 3) rs' ++ [(n + 2, B_str (pr_att r)); (n + 1, B_str (pr_class r)); (n, B_str (pr_word r))]
  end.
Lemma len_cons : forall A (a : A) l, len (a :: l) = len l + 1.
Proof. intros. unfold len. cbn [List.length]. lia. Qed.
Lemma len_app : forall A (l r : list A), len (l ++ r) = len l + len r.
Proof. intros. unfold len. rewrite app_length. lia. Qed.
Lemma tstrs_between : forall rs n, between n (n + 3 * len rs) (tstrs n rs).
Proof.
  induction rs as [|r rs IH]; intros n; cbn [tstrs]; [apply between_nil|]. rewrite len_cons. apply between_app; [apply (between_wider _ _ _ _ _ (IH (n + 3))); lia|].
  intros p b [I|[I|[I|[]]]]; injection I as <- <-; lia.
Qed.
Lemma tstrs_app : forall r1 r2 n, tstrs n (r1 ++ r2) = tstrs (n + 3 * len r1) r2 ++ tstrs n r1.
Proof.
  induction r1 as [|r r1 IH]; intros r2 n; cbn [app tstrs].
  - change (len (@nil prow)) with 0. rewrite N.mul_0_r, N.add_0_r, app_nil_r. reflexivity.
  - rewrite IH, len_cons, <- app_assoc. f_equal. f_equal. lia.
Qed.
Lemma trows_app : forall r1 r2 n, trows n (r1 ++ r2) = trows n r1 ++ trows (n + 3 * len r1) r2.
Proof.
  induction r1 as [|r r1 IH]; intros r2 n; cbn [app trows].
  - change (len (@nil prow)) with 0. rewrite N.mul_0_r, N.add_0_r. reflexivity.
  - rewrite IH, len_cons. f_equal. f_equal. f_equal. lia.
Qed.
Lemma incr_run : forall j h, j < int_max -> incr (Z.of_N j) h = (Ok (Z.of_N (j + 1)), h).
Proof.
  intros j h L. unfold incr, int_max in *. destruct (Z.ltb_spec (Z.of_N j) 2147483647) as [_|G]; [|lia]. unfold ret. f_equal. f_equal. lia.
Qed.
Lemma phrase_rows_next : forall ks i j, snd (phrase_rows i j ks) = j + len ks.
Proof.
  induction ks as [|k ks IH]; intros i j; cbn [phrase_rows]; [unfold len; cbn; lia|]. specialize (IH i (j + 1)). destruct (phrase_rows i (j + 1) ks) as [l j'].
  cbn [snd] in *. rewrite IH, len_cons. lia.
Qed.
Lemma phrase_rows_len : forall ks i j, len (fst (phrase_rows i j ks)) = len ks.
Proof.
  induction ks as [|k ks IH]; intros i j; cbn [phrase_rows]; [reflexivity|]. specialize (IH i (j + 1)). destruct (phrase_rows i (j + 1) ks) as [l j'].
  cbn [fst] in *. rewrite !len_cons, IH. reflexivity.
Qed.
Definition no_row : trow := mkTRow 0 0 0 0 0.
Lemma fill_phrase_run : forall ks a i j n l1 l2 x old, a < n -> between (a + 1) n x -> List.length l1 = N.to_nat j -> j + len ks <= int_max ->
  fill_phrase a (Z.of_N i) (Z.of_N j) (Z.of_N j) ks (mkHeap n (x ++ (a, B_toks (l1 ++ repeat no_row (List.length ks) ++ l2)) :: old)) =
  (Ok (Z.of_N (j + len ks), Z.of_N (j + len ks)),
   mkHeap (n + 3 * len ks) (tstrs n (fst (phrase_rows i j ks)) ++ x ++ (a, B_toks (l1 ++ trows n (fst (phrase_rows i j ks)) ++ l2)) :: old)).
Proof.
  induction ks as [|k ks IH]; intros a i j n l1 l2 x old L B L1 LE; cbn [fill_phrase phrase_rows].
  - change (len (@nil token)) with 0. rewrite N.mul_0_r, !N.add_0_r. reflexivity.
  - rewrite len_cons in LE. cbn [List.length repeat app].
    set (A := (a, B_toks (l1 ++ no_row :: repeat no_row (List.length ks) ++ l2)) :: old).
    assert (S1 : strdup (t_text k) (mkHeap n (x ++ A)) = (Ok n, mkHeap (n + 1) ((n, B_str (t_text k)) :: x ++ A))) by reflexivity. step S1. clear S1.
    assert (S1 : strdup (iset_str (t_in k)) (mkHeap (n + 1) ((n, B_str (t_text k)) :: x ++ A)) =
      (Ok (n + 1), mkHeap (n + 2) ((n + 1, B_str (iset_str (t_in k))) :: (n, B_str (t_text k)) :: x ++ A))).
    { unfold strdup, alloc. cbn [h_next h_blocks]. f_equal. f_equal. lia. } step S1. clear S1.
    assert (S1 : strdup (aset_str (t_att k)) (mkHeap (n + 2) ((n + 1, B_str (iset_str (t_in k))) :: (n, B_str (t_text k)) :: x ++ A)) =
      (Ok (n + 2), mkHeap (n + 3) ((n + 2, B_str (aset_str (t_att k))) :: (n + 1, B_str (iset_str (t_in k))) :: (n, B_str (t_text k)) :: x ++ A))).
    { unfold strdup, alloc. cbn [h_next h_blocks]. f_equal. f_equal. lia. } step S1. clear S1. unfold A.
    set (y := (n + 2, B_str (aset_str (t_att k))) :: (n + 1, B_str (iset_str (t_in k))) :: (n, B_str (t_text k)) :: x).
    assert (Y : between (a + 1) (n + 3) y).
    { intros p b [I|[I|[I|I]]]; [injection I as <- <-; lia..|]. destruct (B p b I). lia. }
    replace (Z.to_nat (Z.of_N j)) with (List.length l1) by lia. step (set_tok_at (n + 3) y a l1 no_row _ old _ (between_absent _ _ _ _ Y (or_introl (N.lt_add_pos_r 1 a N.lt_0_1)))).
    step (incr_run j _ ltac:(lia)). step (incr_run j _ ltac:(lia)).
    specialize (IH a i (j + 1) (n + 3) (l1 ++ [mkTRow (Z.of_N i) (Z.of_N j) n (n + 1) (n + 2)]) l2 y old ltac:(lia) Y ltac:(rewrite length_snoc; lia) ltac:(lia)).
    rewrite <- !app_assoc in IH. cbn [app] in IH. unfold y in IH. cbn [app] in IH. unfold y. cbn [app]. rewrite IH.
    destruct (phrase_rows i (j + 1) ks) as [l j']. cbn [fst]. cbn [tstrs trows pr_pat pr_seq pr_word pr_class pr_att]. rewrite len_cons.
    rewrite <- !app_assoc. cbn [app]. f_equal; [f_equal; f_equal; lia|]. f_equal. lia.
Qed.
Lemma all_rows_len : forall ps i j, List.length (all_rows i j ps) = List.length (concat ps).
Proof.
  induction ps as [|p ps IH]; intros i j; cbn [all_rows concat]; [reflexivity|]. pose proof (phrase_rows_len p i j) as L. destruct (phrase_rows i j p) as [l j'].
  rewrite !app_length, IH. cbn [fst] in L. unfold len in L. lia.
Qed.
Lemma fill_toks_run : forall ps a i j n l1 x old, a < n -> between (a + 1) n x -> List.length l1 = N.to_nat j -> j + len (concat ps) <= int_max ->
  i + len ps <= int_max ->
  fill_toks a (Z.of_N i) (Z.of_N j) (Z.of_N j) ps (mkHeap n (x ++ (a, B_toks (l1 ++ repeat no_row (List.length (concat ps)))) :: old)) =
  (Ok tt, mkHeap (n + 3 * len (concat ps)) (tstrs n (all_rows i j ps) ++ x ++ (a, B_toks (l1 ++ trows n (all_rows i j ps))) :: old)).
Proof.
  induction ps as [|p ps IH]; intros a i j n l1 x old L B L1 LJ LI; cbn [fill_toks all_rows concat].
  - change (len (@nil token)) with 0. rewrite N.mul_0_r, N.add_0_r. reflexivity.
  - cbn [concat] in LJ. rewrite len_app in LJ. rewrite len_cons in LI. rewrite app_length, repeat_app.
    step (fill_phrase_run p a i j n l1 (repeat no_row (List.length (concat ps))) x old L B L1 ltac:(lia)).
    step (incr_run i _ ltac:(lia)).
    pose proof (phrase_rows_next p i j) as PN. pose proof (phrase_rows_len p i j) as PL. destruct (phrase_rows i j p) as [l j']. cbn [fst snd] in *. subst j'.
    assert (TL : forall rs n, List.length (trows n rs) = List.length rs) by (clear; induction rs as [|r rs IH]; intros n; cbn [trows List.length]; [reflexivity|]; rewrite IH; reflexivity).
    specialize (IH a (i + 1) (j + len p) (n + 3 * len p) (l1 ++ trows n l) (tstrs n l ++ x) old ltac:(lia)).
    rewrite <- !app_assoc in IH. rewrite IH.
    + f_equal. rewrite tstrs_app, trows_app, PL, len_app, <- !app_assoc. f_equal. lia.
    + apply between_app; [|apply (between_wider _ _ _ _ _ B); lia]. rewrite <- PL. apply (between_wider _ _ _ _ _ (tstrs_between l n)); lia.
    + rewrite app_length, TL. unfold len in *. lia.
    + lia.
    + lia.
Qed.
(** Row [i] can be read, wherever it is. *)
Lemma trow_at : forall rs n i r, nth_error rs i = Some r ->
  nth_error (trows n rs) i = Some (mkTRow (Z.of_N (pr_pat r)) (Z.of_N (pr_seq r)) (n + 3 * N.of_nat i) (n + 3 * N.of_nat i + 1) (n + 3 * N.of_nat i + 2)) /\
  forall rest, nget (n + 3 * N.of_nat i) (tstrs n rs ++ rest) = Some (B_str (pr_word r)) /\
    nget (n + 3 * N.of_nat i + 1) (tstrs n rs ++ rest) = Some (B_str (pr_class r)) /\
    nget (n + 3 * N.of_nat i + 2) (tstrs n rs ++ rest) = Some (B_str (pr_att r)).
Proof.
  induction rs as [|q rs IH]; intros n [|i] r H; cbn [nth_error] in H; try discriminate.
  - injection H as ->. cbn [trows nth_error tstrs]. change (N.of_nat 0) with 0. rewrite N.mul_0_r, N.add_0_r. split; [reflexivity|]. intros rest.
    assert (AB : forall k, k < 3 -> absent (n + k) (tstrs (n + 3) rs)).
    { intros k K b I. destruct (tstrs_between _ _ _ _ I). lia. }
    rewrite <- !app_assoc.
    assert (A0 : absent n (tstrs (n + 3) rs)) by (pose proof (AB 0 ltac:(lia)) as Q; rewrite N.add_0_r in Q; exact Q).
    split; [|split].
    + rewrite nget_app by exact A0. cbn [app nget].
      destruct (N.eqb_spec (n + 2) n); [lia|]. destruct (N.eqb_spec (n + 1) n); [lia|]. rewrite N.eqb_refl. reflexivity.
    + rewrite nget_app by (apply AB; lia). cbn [app nget]. destruct (N.eqb_spec (n + 2) (n + 1)); [lia|]. rewrite N.eqb_refl. reflexivity.
    + rewrite nget_app by (apply AB; lia). cbn [app nget]. rewrite N.eqb_refl. reflexivity.
  - destruct (IH (n + 3) i r H) as (A & B). cbn [trows nth_error tstrs]. replace (n + 3 * N.of_nat (S i)) with (n + 3 + 3 * N.of_nat i) by lia. split; [exact A|].
    intros rest. rewrite <- app_assoc. apply B.
Qed.
Lemma get_tok_in : forall a i l t h, nget a (h_blocks h) = Some (B_toks l) -> nth_error l i = Some t -> get_tok a i h = (Ok t, h).
Proof. intros a i l t h G E. unfold get_tok, bind, load. rewrite G. unfold at_index. rewrite E. reflexivity. Qed.
Definition toks_heap (a m : N) (rs : list prow) (old : list (N * block)) : heap := mkHeap m (tstrs (a + 1) rs ++ (a, B_toks (trows (a + 1) rs)) :: old).
Lemma absent_a : forall a rs, absent a (tstrs (a + 1) rs).
Proof. intros a rs b I. destruct (tstrs_between _ _ _ _ I). lia. Qed.
Lemma parse_next_run : forall a m rs old i r, nth_error rs i = Some r -> pr_pat r < int_max -> pr_seq r < int_max ->
  parse_next (mkSrf (List.length rs) i a) (toks_heap a m rs old) = (Ok (Some (shown r), mkSrf (List.length rs) (S i) a), toks_heap a m rs old).
Proof.
  intros a m rs old i r H P Q. unfold parse_next. cbn [sf_cntr sf_max sf_user].
  assert (LT : (i < List.length rs)%nat) by (apply nth_error_Some; rewrite H; discriminate).
  destruct (Nat.ltb_spec i (List.length rs)) as [_|G]; [|lia]. destruct (trow_at rs (a + 1) i r H) as (T & S1).
  destruct (S1 ((a, B_toks (trows (a + 1) rs)) :: old)) as (S2 & S3 & S4).
  assert (GT : nget a (h_blocks (toks_heap a m rs old)) = Some (B_toks (trows (a + 1) rs))).
  { unfold toks_heap. cbn [h_blocks]. rewrite nget_app by apply absent_a. apply nget_top. }
  step (get_tok_in a i _ _ _ GT T). cbn [tr_pat tr_seq tr_word tr_class tr_att].
  assert (IP : forall p h, p < int_max -> int_plus_one (Z.of_N p) h = (Ok (p + 1), h)).
  { intros p h L. unfold int_plus_one. step (incr_run p h L). unfold ret. rewrite N2Z.id. reflexivity. }
  step (IP (pr_pat r) _ P). step (IP (pr_seq r) _ Q). 
  step (load_str_in _ _ (toks_heap a m rs old) S2). step (load_str_in _ _ (toks_heap a m rs old) S3). step (load_str_in _ _ (toks_heap a m rs old) S4). reflexivity.
Qed.
Lemma free_toks_run : forall rs n a m l1 old, 0 < n -> a < n ->
  each (fun i => bind (get_tok a i) (fun t => bind (free_if (tr_word t)) (fun _ => bind (free_if (tr_class t)) (fun _ => free_if (tr_att t)))))
    (List.seq (List.length l1) (List.length rs)) (mkHeap m (tstrs n rs ++ (a, B_toks (l1 ++ trows n rs)) :: old)) =
  (Ok tt, mkHeap m ((a, B_toks (l1 ++ trows n rs)) :: old)).
Proof.
  induction rs as [|r rs IH]; intros n a m l1 old Z L; cbn [List.length List.seq each]; [reflexivity|]. cbn [tstrs trows].
  set (row := mkTRow (Z.of_N (pr_pat r)) (Z.of_N (pr_seq r)) n (n + 1) (n + 2)).
  set (A := (a, B_toks (l1 ++ row :: trows (n + 3) rs)) :: old).
  assert (AB : forall k, k < n + 3 -> absent k (tstrs (n + 3) rs)) by (intros k K b I; destruct (tstrs_between _ _ _ _ I); lia).
  assert (FI : forall k h, k <> 0 -> free_if k h = free k h) by (intros k h K; unfold free_if; destruct (N.eqb_spec k 0); [contradiction|reflexivity]).
  assert (E1 : bind (get_tok a (List.length l1)) (fun t => bind (free_if (tr_word t)) (fun _ => bind (free_if (tr_class t)) (fun _ => free_if (tr_att t))))
    (mkHeap m ((tstrs (n + 3) rs ++ [(n + 2, B_str (pr_att r)); (n + 1, B_str (pr_class r)); (n, B_str (pr_word r))]) ++ A)) = (Ok tt, mkHeap m (tstrs (n + 3) rs ++ A))).
  { assert (AA : absent a (tstrs (n + 3) rs ++ [(n + 2, B_str (pr_att r)); (n + 1, B_str (pr_class r)); (n, B_str (pr_word r))])).
    { intros b I. apply in_app_iff in I. destruct I as [I|[I|[I|[I|[]]]]]; [exact (AB a ltac:(lia) b I)|injection I as I _; lia..]. }
    step (get_tok_at m _ a l1 row _ old AA). cbn [row tr_word tr_class tr_att].
    assert (F1 : free_if n (mkHeap m ((tstrs (n + 3) rs ++ [(n + 2, B_str (pr_att r)); (n + 1, B_str (pr_class r)); (n, B_str (pr_word r))]) ++ A)) =
      (Ok tt, mkHeap m ((tstrs (n + 3) rs ++ [(n + 2, B_str (pr_att r)); (n + 1, B_str (pr_class r))]) ++ A))).
    { rewrite FI by lia. pose proof (free_at m (tstrs (n + 3) rs ++ [(n + 2, B_str (pr_att r)); (n + 1, B_str (pr_class r))]) n (B_str (pr_word r)) A) as F.
      rewrite <- app_assoc in F. cbn [app] in F. rewrite <- !app_assoc. cbn [app]. rewrite <- app_assoc in F. cbn [app] in F. apply F; [|lia].
      intros b I. apply in_app_iff in I. destruct I as [I|[I|[I|[]]]]; [exact (AB n ltac:(lia) b I)|injection I as I _; lia..]. }
    step F1. clear F1.
    assert (F1 : free_if (n + 1) (mkHeap m ((tstrs (n + 3) rs ++ [(n + 2, B_str (pr_att r)); (n + 1, B_str (pr_class r))]) ++ A)) =
      (Ok tt, mkHeap m ((tstrs (n + 3) rs ++ [(n + 2, B_str (pr_att r))]) ++ A))).
    { rewrite FI by lia. pose proof (free_at m (tstrs (n + 3) rs ++ [(n + 2, B_str (pr_att r))]) (n + 1) (B_str (pr_class r)) A) as F.
      rewrite <- app_assoc in F. cbn [app] in F. rewrite <- !app_assoc. cbn [app]. rewrite <- app_assoc in F. cbn [app] in F. apply F; [|lia].
      intros b I. apply in_app_iff in I. destruct I as [I|[I|[]]]; [exact (AB (n + 1) ltac:(lia) b I)|injection I as I _; lia]. }
    step F1. clear F1. rewrite FI by lia. rewrite <- app_assoc. cbn [app]. apply free_at; [apply AB; lia|lia]. }
  step E1. specialize (IH (n + 3) a m (l1 ++ [row]) old ltac:(lia) ltac:(lia)). rewrite length_snoc, <- !app_assoc in IH. exact IH.
Qed.
Lemma tokens_free_run : forall a m rs old, 0 < a -> rs <> [] -> tokens_free a (List.length rs) (toks_heap a m rs old) = (Ok tt, mkHeap m old).
Proof.
  intros a m rs old Z NE. unfold tokens_free. destruct rs as [|r rs]; [contradiction|]. destruct (N.eqb_spec a 0) as [E|_]; [lia|].
  change (Nat.ltb (List.length (r :: rs)) 1 || false) with false. cbv iota.
  step (free_toks_run (r :: rs) (a + 1) a m [] old ltac:(lia) ltac:(lia)). apply (free_at m [] a _ old); [intros b []|lia].
Qed.
Lemma count_concat : forall ps n, fold_left (fun n p => (n + List.length p)%nat) ps n = (n + List.length (concat (A := token) ps))%nat.
Proof. induction ps as [|p ps IH]; intros n; cbn [fold_left concat List.length]; [lia|]. rewrite IH, app_length. lia. Qed.
Lemma count_is : forall ps, count ps = List.length (concat ps).
Proof. intros ps. unfold count. rewrite count_concat. reflexivity. Qed.
Lemma rows_small : forall ps i j r, In r (all_rows i j ps) -> pr_pat r < i + len ps /\ pr_seq r < j + len (concat ps).
Proof.
  induction ps as [|p ps IH]; intros i j r H; cbn [all_rows] in H; [destruct H|]. cbn [concat]. rewrite len_cons, len_app.
  assert (P : forall ks j r, In r (fst (phrase_rows i j ks)) -> pr_pat r = i /\ pr_seq r < j + len ks).
  { clear. induction ks as [|k ks IH]; intros j r H; cbn [phrase_rows] in H; [destruct H|]. rewrite len_cons. specialize (IH (j + 1) r).
    destruct (phrase_rows i (j + 1) ks) as [l j']. cbn [fst] in *. destruct H as [<-|H]; [cbn [pr_pat pr_seq]; split; [reflexivity|lia]|].
    destruct (IH H). split; [assumption|lia]. }
  pose proof (phrase_rows_next p i j) as PN. specialize (P p j r). destruct (phrase_rows i j p) as [l j']. cbn [fst snd] in *. apply in_app_iff in H. destruct H as [H|H].
  - destruct (P H). lia.
  - destruct (IH (i + 1) j' r H). subst j'. lia.
Qed.
(** The array of a parse. *)
Lemma parse_first_run : forall z ps n old, 0 < n -> (z = false \/ concat ps <> []) -> len (concat ps) <= int_max -> len ps <= int_max ->
  parse_first z (Ok ps) (mkHeap n old) = (Ok (mkSrf (List.length (concat ps)) 0 n), toks_heap n (n + 1 + 3 * len (concat ps)) (all_rows 0 0 ps) old).
Proof.
  intros z ps n old Z NE LC LP. unfold parse_first, parse_ptr. rewrite count_is.
  assert (ZF : z && Nat.eqb (List.length (concat ps)) 0 = false).
  { destruct NE as [->|NE]; [reflexivity|]. destruct (concat ps); [contradiction|]. destruct z; reflexivity. } rewrite ZF.
  eapply eq_trans; [apply bind_ok with (a := (n, List.length (concat ps), 0)) (h1 := toks_heap n (n + 1 + 3 * len (concat ps)) (all_rows 0 0 ps) old)|reflexivity].
  assert (S1 : alloc (B_toks (repeat (mkTRow 0 0 0 0 0) (List.length (concat ps)))) (mkHeap n old) =
    (Ok n, mkHeap (n + 1) ((n, B_toks (repeat (mkTRow 0 0 0 0 0) (List.length (concat ps)))) :: old))) by reflexivity.
  step S1. step (fill_toks_run ps n 0 0 (n + 1) [] [] old ltac:(lia) (between_nil _ _) eq_refl LC LP). reflexivity.
Qed.
Lemma parse_all : forall z ps n old k, 0 < n -> concat ps <> [] -> len (concat ps) <= int_max -> len ps <= int_max -> (List.length (concat ps) < k)%nat ->
  as_parse_h z (Ok ps) k (mkHeap n old) = (Ok (map shown (all_rows 0 0 ps), None), mkHeap (n + 1 + 3 * len (concat ps)) old).
Proof.
  intros z ps n old k Z NE LC LP K. unfold as_parse_h. step (parse_first_run z ps n old Z (or_intror NE) LC LP). pose proof (all_rows_len ps 0 0) as AL.
  rewrite <- AL. apply calls_all.
  - intros i r H. rewrite nth_error_map in H. destruct (nth_error (all_rows 0 0 ps) i) as [q|] eqn:E; [|discriminate]. injection H as <-. cbn [Nat.add].
    destruct (rows_small _ _ _ _ (nth_error_In _ _ E)). apply parse_next_run; [exact E|lia|lia].
  - rewrite map_length. cbn [Nat.add]. unfold parse_next. cbn [sf_cntr sf_max sf_user]. rewrite Nat.ltb_irrefl.
    step (tokens_free_run n (n + 1 + 3 * len (concat ps)) (all_rows 0 0 ps) old Z ltac:(intros E; rewrite E in AL; destruct (concat ps); [contradiction|discriminate])). reflexivity.
  - rewrite map_length, AL. exact K.
Qed.
Lemma parse_some : forall z ps n old k, 0 < n -> concat ps <> [] -> len (concat ps) <= int_max -> len ps <= int_max -> (k <= List.length (concat ps))%nat ->
  as_parse_h z (Ok ps) k (mkHeap n old) = (Ok (firstn k (map shown (all_rows 0 0 ps)), Some (mkSrf (List.length (concat ps)) k n)),
    toks_heap n (n + 1 + 3 * len (concat ps)) (all_rows 0 0 ps) old).
Proof.
  intros z ps n old k Z NE LC LP K. unfold as_parse_h. step (parse_first_run z ps n old Z (or_intror NE) LC LP). pose proof (all_rows_len ps 0 0) as AL.
  rewrite <- AL. apply (calls_some _ _ _ _ _ (map shown (all_rows 0 0 ps)) 0 k).
  - intros i r H. rewrite nth_error_map in H. destruct (nth_error (all_rows 0 0 ps) i) as [q|] eqn:E; [|discriminate]. injection H as <-. cbn [Nat.add].
    destruct (rows_small _ _ _ _ (nth_error_In _ _ E)). apply parse_next_run; [exact E|lia|lia].
  - rewrite map_length, AL. exact K.
Qed.
Lemma no_rows : forall ps, concat (A := token) ps = [] -> all_rows 0 0 ps = [].
Proof. intros ps E. apply length_zero_iff_nil. rewrite all_rows_len, E. reflexivity. Qed.
(** No tokens: the array of no bytes, or the message, stays. *)
Lemma parse_none : forall z ps n old k, 0 < n -> concat ps = [] -> len ps <= int_max -> (0 < k)%nat ->
  as_parse_h z (Ok ps) k (mkHeap n old) = (Ok ([], None), mkHeap (n + 1) ((n, if z then B_str oom else B_toks []) :: old)).
Proof.
  intros z ps n old k Z E LP K. unfold as_parse_h. destruct k as [|k]; [lia|]. destruct z.
  - assert (F : parse_first true (Ok ps) (mkHeap n old) = (Ok (mkSrf 0 0 0), mkHeap (n + 1) ((n, B_str oom) :: old))).
    { unfold parse_first, parse_ptr. rewrite count_is, E. reflexivity. }
    step F. reflexivity.
  - assert (LC : len (concat ps) <= int_max) by (rewrite E; unfold len, int_max; cbn; lia).
    step (parse_first_run false ps n old Z (or_introl eq_refl) LC LP). rewrite E, (no_rows ps E). cbn [List.length]. cbn [calls].
    unfold toks_heap. cbn [tstrs trows app]. change (len (@nil token)) with 0. rewrite N.mul_0_r, N.add_0_r. unfold parse_next at 1.
    cbn [sf_cntr sf_max Nat.ltb Nat.leb]. unfold tokens_free. cbn [Nat.ltb Nat.leb orb]. reflexivity.
Qed.
Lemma parse_throw : forall z m n old k, (0 < k)%nat -> as_parse_h z (Throw m) k (mkHeap n old) = (Ok ([], None), mkHeap (n + 1) ((n, B_str m) :: old)).
Proof. intros z m n old [|k] K; [lia|]. reflexivity. Qed.

(** Too many tokens. *)
Lemma only_ub : forall A B (m : cmd A) (k : A -> cmd B) h b h', bind m k h = (Ok b, h') -> exists a h1, m h = (Ok a, h1) /\ k a h1 = (Ok b, h').
Proof. intros A B m k h b h' H. unfold bind in H. destruct (m h) as [[a|t|] h1]; [|discriminate|discriminate]. exists a, h1. auto. Qed.
Lemma incr_ok : forall j h j' h', incr j h = (Ok j', h') -> j' = (j + 1)%Z /\ h' = h /\ (j' <= 2147483647)%Z.
Proof. intros j h j' h' H. unfold incr in H. destruct (Z.ltb_spec j 2147483647); [|discriminate]. injection H as <- <-. split; [reflexivity|]. split; [reflexivity|lia]. Qed.
Lemma fill_phrase_ok : forall ks a i j k h j' k' h', fill_phrase a i j k ks h = (Ok (j', k'), h') ->
  j' = (j + Z.of_nat (List.length ks))%Z /\ k' = (k + Z.of_nat (List.length ks))%Z /\ (ks <> [] -> (j' <= 2147483647)%Z).
Proof.
  induction ks as [|t ks IH]; intros a i j k h j' k' h' H; cbn [fill_phrase] in H.
  - injection H as <- <- <-. cbn [List.length]. split; [lia|]. split; [lia|contradiction].
  - do 4 (apply only_ub in H; destruct H as (? & ? & _ & H)). apply only_ub in H. destruct H as (j1 & h1 & J & H). apply only_ub in H. destruct H as (k1 & h2 & K & H).
    apply incr_ok in J. destruct J as (-> & -> & J). apply incr_ok in K. destruct K as (-> & -> & K). destruct (IH _ _ _ _ _ _ _ _ H) as (A & B & C). cbn [List.length].
    split; [lia|]. split; [lia|]. intros _. destruct ks; [cbn [List.length] in A; lia|apply C; discriminate].
Qed.
Lemma fill_toks_ok : forall ps a i j k h u h', fill_toks a i j k ps h = (Ok u, h') ->
  ((i + Z.of_nat (List.length ps) <= 2147483647)%Z \/ ps = []) /\ ((j + Z.of_nat (List.length (concat ps)) <= 2147483647)%Z \/ concat ps = []).
Proof.
  induction ps as [|p ps IH]; intros a i j k h u h' H; cbn [fill_toks] in H; [auto|]. apply only_ub in H. destruct H as ((j1 & k1) & h1 & F & H).
  apply only_ub in H. destruct H as (i1 & h2 & K & H). apply incr_ok in K. destruct K as (-> & -> & K). destruct (fill_phrase_ok _ _ _ _ _ _ _ _ _ F) as (A & B & C).
  destruct (IH _ _ _ _ _ _ _ H) as (D1 & D2). cbn [List.length concat]. rewrite app_length. split.
  - left. destruct D1 as [D1| ->]; [lia|]. cbn [List.length]. lia.
  - destruct D2 as [D2|D2]; [left; lia|]. rewrite D2, app_nil_r. cbn [List.length]. destruct p as [|t p]; [right; reflexivity|]. left. specialize (C ltac:(discriminate)). lia.
Qed.

Lemma each_ub : forall A B (m : cmd A) (k : A -> cmd B) h, fst (m h) = UB -> fst (bind m k h) = UB.
Proof. intros A B m k h H. unfold bind. destruct (m h) as [[a|t|] h1]; cbn [fst] in H; [discriminate|discriminate|reflexivity]. Qed.
(** The commands used do not throw. *)
Definition quiet {A} (m : cmd A) : Prop := forall h t, fst (m h) <> Throw t.
Lemma quiet_bind : forall A B (m : cmd A) (k : A -> cmd B), quiet m -> (forall a, quiet (k a)) -> quiet (bind m k).
Proof.
  intros A B m k M K h t. unfold bind. specialize (M h). destruct (m h) as [[a|u|] h1]; [apply K|intros _; exact (M u eq_refl)|discriminate].
Qed.
Lemma quiet_ret : forall A (a : A), quiet (ret a).
Proof. intros A a h t. discriminate. Qed.
Lemma quiet_alloc : forall b, quiet (alloc b).
Proof. intros b h t. discriminate. Qed.
Lemma quiet_load : forall p, quiet (load p).
Proof. intros p h t. unfold load. destruct (nget p (h_blocks h)); discriminate. Qed.
Lemma quiet_store : forall p b, quiet (store p b).
Proof. intros p b h t. unfold store. destruct (nget p (h_blocks h)); discriminate. Qed.
Lemma quiet_ub : forall A, quiet (@lift A UB).
Proof. intros A h t. discriminate. Qed.
Lemma quiet_put : forall A (l : list A) i v, quiet (put_index l i v).
Proof. intros A l i v h t. unfold put_index. destruct (Nat.ltb i (List.length l)); discriminate. Qed.
Lemma quiet_set_tok : forall p i v, quiet (set_tok p i v).
Proof.
  intros p i v. unfold set_tok. apply quiet_bind; [apply quiet_load|]. intros [t|l|l|l]; try apply quiet_ub. apply quiet_bind; [apply quiet_put|intros; apply quiet_store].
Qed.
Lemma quiet_set_mtok : forall p i v, quiet (set_mtok p i v).
Proof.
  intros p i v. unfold set_mtok. apply quiet_bind; [apply quiet_load|]. intros [t|l|l|l]; try apply quiet_ub. apply quiet_bind; [apply quiet_put|intros; apply quiet_store].
Qed.
Lemma quiet_incr : forall i, quiet (incr i).
Proof. intros i h t. unfold incr. destruct (i <? 2147483647)%Z; discriminate. Qed.
Lemma quiet_fill_phrase : forall ks a i j k, quiet (fill_phrase a i j k ks).
Proof.
  induction ks as [|t ks IH]; intros a i j k; cbn [fill_phrase]; [apply quiet_ret|]. repeat (apply quiet_bind; [first [apply quiet_alloc|apply quiet_set_tok|apply quiet_incr]|intros ?]).
  apply IH.
Qed.
Lemma quiet_fill_toks : forall ps a i j k, quiet (fill_toks a i j k ps).
Proof.
  induction ps as [|p ps IH]; intros a i j k; cbn [fill_toks]; [apply quiet_ret|]. apply quiet_bind; [apply quiet_fill_phrase|]. intros (j1 & k1).
  apply quiet_bind; [apply quiet_incr|]. intros i1. apply IH.
Qed.
Lemma quiet_ok : forall A (m : cmd A) h, quiet m -> (forall a h', m h <> (Ok a, h')) -> fst (m h) = UB.
Proof.
  intros A m h M N0. specialize (M h). destruct (m h) as [[a|t|] h1]; cbn [fst] in *; [destruct (N0 a h1 eq_refl)|destruct (M t eq_refl)|reflexivity].
Qed.
Lemma parse_overflow : forall z ps n old k, int_max < len (concat ps) \/ int_max < len ps -> concat ps <> [] -> fst (as_parse_h z (Ok ps) k (mkHeap n old)) = UB.
Proof.
  intros z ps n old k O NE. unfold as_parse_h. apply each_ub. unfold parse_first. apply each_ub. unfold parse_ptr. rewrite count_is.
  assert (ZF : z && Nat.eqb (List.length (concat ps)) 0 = false). { destruct (concat ps); [contradiction|]. destruct z; reflexivity. } rewrite ZF.
  unfold alloc at 1, bind at 1. apply each_ub. apply quiet_ok; [apply quiet_fill_toks|]. intros u h' F. destruct (fill_toks_ok _ _ _ _ _ _ _ _ F) as (A & B).
  unfold len, int_max in O. destruct O as [O|O]; [destruct B as [B|B]; [lia|contradiction]|]. destruct A as [A| ->]; [lia|]. cbn [List.length] in O. lia.
Qed.

(** * MTOKEN *)
Fixpoint mrows (n : N) (rs : list mresult) : list mrow :=
  match rs with [] => [] | r :: rs' => mkMRow n (m_score r) (m_nrules r) :: mrows (n + 1) rs' end.
Fixpoint mstrs (n : N) (rs : list mresult) : list (N * block) :=
  match rs with [] => [] | r :: rs' => mstrs (n + 1) rs' ++ [(n, B_str (m_matched r))] end.
Lemma mstrs_between : forall rs n, between n (n + len rs) (mstrs n rs).
Proof.
  induction rs as [|r rs IH]; intros n; cbn [mstrs]; [apply between_nil|]. rewrite len_cons. apply between_app; [apply (between_wider _ _ _ _ _ (IH (n + 1))); lia|].
  apply between_one; lia.
Qed.
Definition no_mrow : mrow := mkMRow 0 f_zero f_zero.
Lemma fill_mtoks_run : forall rs a j n l1 x old, a < n -> between (a + 1) n x -> List.length l1 = N.to_nat j -> j + len rs <= int_max ->
  fill_mtoks a (Z.of_N j) rs (mkHeap n (x ++ (a, B_mtoks (l1 ++ repeat no_mrow (List.length rs))) :: old)) =
  (Ok tt, mkHeap (n + len rs) (mstrs n rs ++ x ++ (a, B_mtoks (l1 ++ mrows n rs)) :: old)).
Proof.
  induction rs as [|r rs IH]; intros a j n l1 x old L B L1 LE; cbn [fill_mtoks mstrs mrows].
  - change (len (@nil mresult)) with 0. rewrite N.add_0_r. reflexivity.
  - rewrite len_cons in LE. cbn [List.length repeat].
    set (A := (a, B_mtoks (l1 ++ no_mrow :: repeat no_mrow (List.length rs))) :: old).
    assert (S1 : strdup (m_matched r) (mkHeap n (x ++ A)) = (Ok n, mkHeap (n + 1) ((n, B_str (m_matched r)) :: x ++ A))) by reflexivity. step S1. clear S1. unfold A.
    set (y := (n, B_str (m_matched r)) :: x).
    assert (Y : between (a + 1) (n + 1) y).
    { intros p b [I|I]; [injection I as <- <-; lia|]. destruct (B p b I). lia. }
    replace (Z.to_nat (Z.of_N j)) with (List.length l1) by lia.
    step (set_mtok_at (n + 1) y a l1 no_mrow _ old _ (between_absent _ _ _ _ Y (or_introl (N.lt_add_pos_r 1 a N.lt_0_1)))).
    step (incr_run j _ ltac:(lia)).
    specialize (IH a (j + 1) (n + 1) (l1 ++ [mkMRow n (m_score r) (m_nrules r)]) y old ltac:(lia) Y ltac:(rewrite length_snoc; lia) ltac:(lia)).
    rewrite <- !app_assoc in IH. cbn [app] in IH. unfold y in IH. cbn [app] in IH. unfold y. cbn [app]. rewrite IH. rewrite len_cons.
    rewrite <- !app_assoc. cbn [app]. f_equal. f_equal. lia.
Qed.
Lemma mrow_at : forall rs n i r, nth_error rs i = Some r ->
  nth_error (mrows n rs) i = Some (mkMRow (n + N.of_nat i) (m_score r) (m_nrules r)) /\
  forall rest, nget (n + N.of_nat i) (mstrs n rs ++ rest) = Some (B_str (m_matched r)).
Proof.
  induction rs as [|q rs IH]; intros n [|i] r H; cbn [nth_error] in H; try discriminate.
  - injection H as ->. cbn [mrows nth_error mstrs]. change (N.of_nat 0) with 0. rewrite N.add_0_r. split; [reflexivity|]. intros rest.
    rewrite <- app_assoc, nget_app; [apply nget_top|]. intros b I. destruct (mstrs_between _ _ _ _ I). lia.
  - destruct (IH (n + 1) i r H) as (A & B). cbn [mrows nth_error mstrs]. replace (n + N.of_nat (S i)) with (n + 1 + N.of_nat i) by lia. split; [exact A|].
    intros rest. rewrite <- app_assoc. apply B.
Qed.
Lemma get_mtok_in : forall a i l t h, nget a (h_blocks h) = Some (B_mtoks l) -> nth_error l i = Some t -> get_mtok a i h = (Ok t, h).
Proof. intros a i l t h G E. unfold get_mtok, bind, load. rewrite G. unfold at_index. rewrite E. reflexivity. Qed.
Definition mtoks_heap (a m : N) (rs : list mresult) (old : list (N * block)) : heap := mkHeap m (mstrs (a + 1) rs ++ (a, B_mtoks (mrows (a + 1) rs)) :: old).
Lemma match_next_run : forall a m rs old i r, nth_error rs i = Some r ->
  match_next (mkSrf (List.length rs) i a) (mtoks_heap a m rs old) = (Ok (Some r, mkSrf (List.length rs) (S i) a), mtoks_heap a m rs old).
Proof.
  intros a m rs old i r H. unfold match_next. cbn [sf_cntr sf_max sf_user].
  assert (LT : (i < List.length rs)%nat) by (apply nth_error_Some; rewrite H; discriminate).
  destruct (Nat.ltb_spec i (List.length rs)) as [_|G]; [|lia]. destruct (mrow_at rs (a + 1) i r H) as (T & S1).
  specialize (S1 ((a, B_mtoks (mrows (a + 1) rs)) :: old)).
  assert (GT : nget a (h_blocks (mtoks_heap a m rs old)) = Some (B_mtoks (mrows (a + 1) rs))).
  { unfold mtoks_heap. cbn [h_blocks]. rewrite nget_app; [apply nget_top|]. intros b I. destruct (mstrs_between _ _ _ _ I). lia. }
  step (get_mtok_in a i _ _ _ GT T). cbn [mr_text mr_score mr_nrules]. step (load_str_in _ _ (mtoks_heap a m rs old) S1). destruct r. reflexivity.
Qed.
Lemma free_mtoks_run : forall rs n a m l1 old, 0 < n -> a < n ->
  each (fun i => bind (get_mtok a i) (fun t => free (mr_text t))) (List.seq (List.length l1) (List.length rs))
    (mkHeap m (mstrs n rs ++ (a, B_mtoks (l1 ++ mrows n rs)) :: old)) = (Ok tt, mkHeap m ((a, B_mtoks (l1 ++ mrows n rs)) :: old)).
Proof.
  induction rs as [|r rs IH]; intros n a m l1 old Z L; cbn [List.length List.seq each]; [reflexivity|]. cbn [mstrs mrows].
  set (row := mkMRow n (m_score r) (m_nrules r)). set (A := (a, B_mtoks (l1 ++ row :: mrows (n + 1) rs)) :: old).
  assert (AB : forall k, k < n + 1 -> absent k (mstrs (n + 1) rs)) by (intros k K b I; destruct (mstrs_between _ _ _ _ I); lia).
  assert (E1 : bind (get_mtok a (List.length l1)) (fun t => free (mr_text t)) (mkHeap m ((mstrs (n + 1) rs ++ [(n, B_str (m_matched r))]) ++ A)) =
    (Ok tt, mkHeap m (mstrs (n + 1) rs ++ A))).
  { assert (AA : absent a (mstrs (n + 1) rs ++ [(n, B_str (m_matched r))])).
    { intros b I. apply in_app_iff in I. destruct I as [I|[I|[]]]; [exact (AB a ltac:(lia) b I)|injection I as I _; lia]. }
    step (get_mtok_at m _ a l1 row _ old AA). cbn [row mr_text]. rewrite <- app_assoc. cbn [app]. apply free_at; [apply AB; lia|lia]. }
  step E1. specialize (IH (n + 1) a m (l1 ++ [row]) old ltac:(lia) ltac:(lia)). rewrite length_snoc, <- !app_assoc in IH. exact IH.
Qed.
Lemma match_first_run : forall z rs n old, 0 < n -> (z = false \/ rs <> []) -> len rs <= int_max ->
  match_first z (Ok rs) (mkHeap n old) = (Ok (mkSrf (List.length rs) 0 n), mtoks_heap n (n + 1 + len rs) rs old).
Proof.
  intros z rs n old Z NE LC. unfold match_first, match_ptr.
  assert (ZF : z && Nat.eqb (List.length rs) 0 = false).
  { destruct NE as [->|NE]; [reflexivity|]. destruct rs; [contradiction|]. destruct z; reflexivity. } rewrite ZF.
  eapply eq_trans; [apply bind_ok with (a := (n, List.length rs, 0)) (h1 := mtoks_heap n (n + 1 + len rs) rs old)|reflexivity].
  assert (S1 : alloc (B_mtoks (repeat (mkMRow 0 f_zero f_zero) (List.length rs))) (mkHeap n old) =
    (Ok n, mkHeap (n + 1) ((n, B_mtoks (repeat (mkMRow 0 f_zero f_zero) (List.length rs))) :: old))) by reflexivity.
  step S1. step (fill_mtoks_run rs n 0 (n + 1) [] [] old ltac:(lia) (between_nil _ _) eq_refl LC). reflexivity.
Qed.
Lemma match_all : forall z rs n old k, 0 < n -> (z = false \/ rs <> []) -> len rs <= int_max -> (List.length rs < k)%nat ->
  as_match_h z (Ok rs) k (mkHeap n old) = (Ok (rs, None), mkHeap (n + 1 + len rs) old).
Proof.
  intros z rs n old k Z NE LC K. unfold as_match_h. step (match_first_run z rs n old Z NE LC). apply calls_all; [| |exact K].
  - intros i r H. cbn [Nat.add]. apply match_next_run, H.
  - cbn [Nat.add]. unfold match_next. cbn [sf_cntr sf_max sf_user]. rewrite Nat.ltb_irrefl.
    step (free_mtoks_run rs (n + 1) n (n + 1 + len rs) [] old ltac:(lia) ltac:(lia)).
    step (free_at (n + 1 + len rs) [] n _ old (fun b (F : False) => F) ltac:(lia)). reflexivity.
Qed.
Lemma match_some : forall z rs n old k, 0 < n -> (z = false \/ rs <> []) -> len rs <= int_max -> (k <= List.length rs)%nat ->
  as_match_h z (Ok rs) k (mkHeap n old) = (Ok (firstn k rs, Some (mkSrf (List.length rs) k n)), mtoks_heap n (n + 1 + len rs) rs old).
Proof.
  intros z rs n old k Z NE LC K. unfold as_match_h. step (match_first_run z rs n old Z NE LC). apply (calls_some _ _ _ _ _ rs 0 k); [|exact K].
  intros i r H. cbn [Nat.add]. apply match_next_run, H.
Qed.
Lemma match_throw : forall z m n old k, (0 < k)%nat -> as_match_h z (Throw m) k (mkHeap n old) = (Ok ([], None), mkHeap (n + 1) ((n, B_str m) :: old)).
Proof. intros z m n old [|k] K; [lia|]. reflexivity. Qed.
Lemma quiet_fill_mtoks : forall rs a i, quiet (fill_mtoks a i rs).
Proof.
  induction rs as [|r rs IH]; intros a i; cbn [fill_mtoks]; [apply quiet_ret|]. repeat (apply quiet_bind; [first [apply quiet_alloc|apply quiet_set_mtok|apply quiet_incr]|intros ?]).
  apply IH.
Qed.
Lemma fill_mtoks_ok : forall rs a i h u h', fill_mtoks a i rs h = (Ok u, h') -> (i + Z.of_nat (List.length rs) <= 2147483647)%Z \/ rs = [].
Proof.
  induction rs as [|r rs IH]; intros a i h u h' H; cbn [fill_mtoks] in H; [auto|]. do 2 (apply only_ub in H; destruct H as (? & ? & _ & H)).
  apply only_ub in H. destruct H as (i1 & h1 & K & H). apply incr_ok in K. destruct K as (-> & -> & K). left. cbn [List.length].
  destruct (IH _ _ _ _ _ H) as [A| ->]; [lia|]. cbn [List.length]. lia.
Qed.
Lemma match_overflow : forall z rs n old k, int_max < len rs -> fst (as_match_h z (Ok rs) k (mkHeap n old)) = UB.
Proof.
  intros z rs n old k O. unfold as_match_h. apply each_ub. unfold match_first. apply each_ub. unfold match_ptr.
  assert (NE : rs <> []) by (intros ->; unfold len, int_max in O; cbn in O; lia).
  assert (ZF : z && Nat.eqb (List.length rs) 0 = false). { destruct rs; [contradiction|]. destruct z; reflexivity. } rewrite ZF.
  unfold alloc at 1, bind at 1. apply each_ub. apply quiet_ok; [apply quiet_fill_mtoks|]. intros u h' F. destruct (fill_mtoks_ok _ _ _ _ _ _ F) as [A|A]; [|contradiction].
  unfold len, int_max in O. lia.
Qed.
