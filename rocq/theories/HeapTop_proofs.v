From Coq Require Import String List NArith ZArith Bool Lia.
From Verif Require Import Base_model Class_model Float_model Uni_model Token_model Rule_model Search_model Grammar_model Lexicon_model
  Tokenizer_model Archive_model Wrapper_model Lexicon_spec LexText_spec Wrapper_spec Sample_model Cache_model Cache_spec WrapperTop_proofs WrapperEx_proofs CacheTop_proofs Heap_model Heap_spec Heap_proofs
  HeapStd_proofs HeapSrf_proofs.
Import ListNotations.
Local Open Scope N_scope.

Lemma heap_eta : forall h, mkHeap (h_next h) (h_blocks h) = h.
Proof. intros [n l]. reflexivity. Qed.
Lemma left_top : forall h n' l, heap_ok h -> h_next h <= n' -> NoDup (map fst l) -> between (h_next h) n' l -> left_over h (mkHeap n' (l ++ h_blocks h)) (map snd l).
Proof.
  intros h n' l HO L ND B. pose proof (left_more h h [] n' l (left_nothing h h eq_refl (N.le_refl _) HO) (N.le_refl _) L ND B) as Q. rewrite app_nil_r in Q. exact Q.
Qed.
Lemma left_one : forall h b, heap_ok h -> left_over h (mkHeap (h_next h + 1) ((h_next h, b) :: h_blocks h)) [b].
Proof.
  intros h b HO. apply (left_top h _ [(h_next h, b)] HO); [lia| |apply between_one; lia]. constructor; [intros []|constructor].
Qed.
Lemma left_none : forall h n', heap_ok h -> h_next h <= n' -> left_over h (mkHeap n' (h_blocks h)) [].
Proof. intros h n' HO L. apply left_nothing; [reflexivity|exact L|exact HO]. Qed.

(** * as_parse *)
Lemma std_parse_phrases : forall e address lx locale filt,
  std_parse_address e address lx locale filt = obind (std_phrases e address lx locale filt) (fun ps => Ok (all_rows 0 0 ps)).
Proof.
  intros. unfold std_parse_address, std_phrases, parse_addr. destruct (get_lexicon e lx) as [x|m|]; reflexivity.
Qed.
Definition rows_h (r : outcome (list (list token))) : list prow := match r with Ok ps => map shown (all_rows 0 0 ps) | _ => [] end.
Lemma concat_dec : forall ps : list (list token), concat ps = [] \/ concat ps <> [].
Proof. intros ps. destruct (concat ps); [left; reflexivity|right; discriminate]. Qed.
Lemma parse_run : forall z r k h, heap_ok h -> in_range r ->
  exists e h', as_parse_h z r k h = (Ok (firstn k (rows_h r), e), h') /\ (e = None <-> (List.length (rows_h r) < k)%nat).
Proof.
  intros z r k h (Z & _) IR. rewrite <- (heap_eta h). destruct r as [ps|m|]; [|destruct k as [|k]|destruct IR].
  - destruct IR as (LC & LP). cbn [rows_h]. assert (ML : List.length (map shown (all_rows 0 0 ps)) = List.length (concat ps)) by (rewrite map_length; apply all_rows_len).
    destruct (concat_dec ps) as [E|NE].
    + rewrite (no_rows ps E). cbn [map List.length]. rewrite firstn_nil. destruct k as [|k].
      * destruct (Bool.bool_dec z true) as [->|ZF].
        -- exists (Some (mkSrf 0 0 0)). eexists. split; [unfold as_parse_h, parse_first, parse_ptr; rewrite count_is, E; reflexivity|split; [discriminate|lia]].
        -- apply Bool.not_true_is_false in ZF. exists (Some (mkSrf (List.length (concat ps)) 0 (h_next h))). eexists.
           split; [unfold as_parse_h; step (parse_first_run z ps _ (h_blocks h) Z (or_introl ZF) LC LP); reflexivity|split; [discriminate|lia]].
      * exists None. eexists. split; [apply parse_none; [exact Z|exact E|exact LP|lia]|split; [lia|reflexivity]].
    + rewrite ML. destruct (Nat.le_gt_cases k (List.length (concat ps))) as [K|K].
      * eexists. eexists. split; [apply parse_some; assumption|split; [discriminate|lia]].
      * rewrite firstn_all2 by lia. exists None. eexists. split; [apply parse_all; assumption|split; [lia|reflexivity]].
  - exists (Some (mkSrf 0 0 0)). eexists. split; [reflexivity|]. cbn [rows_h List.length]. split; [discriminate|lia].
  - exists None. eexists. split; [reflexivity|]. cbn [rows_h List.length]. split; [lia|reflexivity].
Qed.
Lemma rows_table : forall e address lx locale filt rows, parse_table (std_parse_address e address lx locale filt) = Ok rows -> rows_h (std_phrases e address lx locale filt) = rows.
Proof.
  intros e address lx locale filt rows H. rewrite std_parse_phrases in H. destruct (std_phrases e address lx locale filt) as [ps|m|]; cbn [obind parse_table rows_h] in *;
    [injection H as <-; reflexivity|injection H as <-; reflexivity|discriminate].
Qed.
Lemma parse_safe : forall z e address lx locale filt k h rows, heap_ok h -> in_range (std_phrases e address lx locale filt) ->
  parse_table (std_parse_address e address lx locale filt) = Ok rows ->
  exists s h', as_parse z e address lx locale filt k h = (Ok (firstn k rows, s), h') /\ (s = None <-> (List.length rows < k)%nat).
Proof. intros z e address lx locale filt k h rows HO IR T. rewrite <- (rows_table _ _ _ _ _ _ T). apply parse_run; assumption. Qed.
Lemma parse_too_many : forall z e address lx locale filt ps k h, std_phrases e address lx locale filt = Ok ps -> concat ps <> [] ->
  int_max < len (concat ps) \/ int_max < len ps -> fst (as_parse z e address lx locale filt k h) = UB.
Proof. intros z e address lx locale filt ps k h E NE O. unfold as_parse. rewrite E, <- (heap_eta h). apply parse_overflow; assumption. Qed.
Lemma parse_left : forall z e address lx locale filt k h rows h', heap_ok h -> in_range (std_phrases e address lx locale filt) ->
  as_parse z e address lx locale filt k h = (Ok (rows, None), h') -> left_over h h' (parse_leak z (std_phrases e address lx locale filt)).
Proof.
  intros z e address lx locale filt k h rows h' HO IR H. unfold as_parse in H. destruct (parse_run z _ k h HO IR) as (s & h2 & R & S1). rewrite R in H. injection H as _ -> ->.
  destruct S1 as (S1 & _). specialize (S1 eq_refl). rewrite <- (heap_eta h) in R. destruct HO as (Z & HB). assert (HO : heap_ok h) by (split; assumption).
  destruct (std_phrases e address lx locale filt) as [ps|m|]; cbn [parse_leak rows_h] in *; [|destruct k as [|k]|destruct IR].
  - destruct IR as (LC & LP). rewrite map_length, all_rows_len in S1. destruct (concat ps) as [|t c] eqn:E.
    + rewrite (parse_none z ps _ _ k Z E LP ltac:(lia)) in R. apply (f_equal snd) in R. cbn [snd] in R. subst h'. apply left_one, HO.
    + rewrite <- E in *. rewrite (parse_all z ps _ _ k Z ltac:(rewrite E; discriminate) LC LP S1) in R. apply (f_equal snd) in R. cbn [snd] in R. subst h'. apply left_none; [exact HO|lia].
  - cbn [List.length] in S1. lia.
  - rewrite (parse_throw z m _ _ (S k) ltac:(lia)) in R. apply (f_equal snd) in R. cbn [snd] in R. subst h'. apply left_one, HO.
Qed.
Lemma nodup_on_top : forall (l r : list (N * block)) m n, between m n l -> NoDup (map fst l) -> NoDup (map fst r) -> (forall p b, In (p, b) r -> p < m \/ n <= p) -> NoDup (map fst (l ++ r)).
Proof.
  induction l as [|[p b] l IH]; intros r m n B N1 N2 D; [exact N2|]. cbn [app map fst] in *. inversion N1 as [|? ? NI N1']; subst. constructor.
  - rewrite map_app. intros I. apply in_app_iff in I. destruct I as [I|I]; [exact (NI I)|]. apply in_map_iff in I. destruct I as ((p' & b') & I1 & I2). cbn [fst] in I1. subst p'.
    destruct (B p b (or_introl eq_refl)). destruct (D _ _ I2); lia.
  - apply (IH r m n); [intros p' b' I; exact (B p' b' (or_intror I))|exact N1'|exact N2|exact D].
Qed.
Lemma tstrs_nodup : forall rs n, NoDup (map fst (tstrs n rs)).
Proof.
  induction rs as [|r rs IH]; intros n; cbn [tstrs]; [constructor|]. apply (nodup_on_top _ _ _ _ (tstrs_between rs (n + 3)) (IH _)).
  - cbn [map fst]. repeat constructor; cbn [In]; lia.
  - intros p b [I|[I|[I|[]]]]; injection I as <- <-; lia.
Qed.
Lemma mstrs_nodup : forall rs n, NoDup (map fst (mstrs n rs)).
Proof.
  induction rs as [|r rs IH]; intros n; cbn [mstrs]; [constructor|]. apply (nodup_on_top _ _ _ _ (mstrs_between rs (n + 1)) (IH _)).
  - cbn [map fst]. repeat constructor. intros [].
  - intros p b [I|[]]; injection I as <- <-; lia.
Qed.
Lemma tstrs_length : forall rs n, List.length (tstrs n rs) = (3 * List.length rs)%nat.
Proof. induction rs as [|r rs IH]; intros n; cbn [tstrs List.length]; [reflexivity|]. rewrite app_length, IH. cbn [List.length]. lia. Qed.
Lemma mstrs_length : forall rs n, List.length (mstrs n rs) = List.length rs.
Proof. induction rs as [|r rs IH]; intros n; cbn [mstrs List.length]; [reflexivity|]. rewrite app_length, IH. cbn [List.length]. lia. Qed.
Lemma parse_abandoned : forall z e address lx locale filt k h rows s h', heap_ok h -> in_range (std_phrases e address lx locale filt) ->
  parse_table (std_parse_address e address lx locale filt) = Ok rows -> rows <> [] ->
  as_parse z e address lx locale filt k h = (Ok (firstn k rows, Some s), h') ->
  exists bs, left_over h h' bs /\ List.length bs = (3 * List.length rows + 1)%nat.
Proof.
  intros z e address lx locale filt k h rows s h' HO IR T NE H. unfold as_parse in H. pose proof (rows_table _ _ _ _ _ _ T) as RT.
  destruct (parse_run z _ k h HO IR) as (s' & h2 & R & S1). rewrite R in H. injection H as _ -> ->. destruct S1 as (_ & S1).
  assert (K : (k <= List.length rows)%nat). { rewrite RT in S1. destruct (Nat.le_gt_cases k (List.length rows)) as [K|K]; [exact K|discriminate (S1 K)]. }
  rewrite <- (heap_eta h) in R. destruct HO as (Z & HB). assert (HO : heap_ok h) by (split; assumption).
  destruct (std_phrases e address lx locale filt) as [ps|m|]; cbn [rows_h] in *; [|congruence|congruence]. destruct IR as (LC & LP).
  assert (RL : List.length rows = List.length (concat ps)) by (rewrite <- RT, map_length; apply all_rows_len).
  assert (CE : concat ps <> []) by (intros E; rewrite E in RL; destruct rows; [contradiction|discriminate]).
  rewrite (parse_some z ps _ _ k Z CE LC LP ltac:(lia)) in R. apply (f_equal snd) in R. cbn [snd] in R. subst h'.
  set (n := h_next h) in *. set (rs := all_rows 0 0 ps). set (l := tstrs (n + 1) rs ++ [(n, B_toks (trows (n + 1) rs))]).
  assert (LR : len rs = len (concat ps)) by (unfold len, rs; rewrite all_rows_len; reflexivity).
  exists (map snd l). split.
  - assert (HE : toks_heap n (n + 1 + 3 * len (concat ps)) rs (h_blocks h) = mkHeap (n + 1 + 3 * len (concat ps)) (l ++ h_blocks h)).
    { unfold toks_heap, l. rewrite <- app_assoc. reflexivity. }
    rewrite HE. apply left_top; [exact HO|fold n; lia| |].
    + apply (nodup_on_top _ _ _ _ (tstrs_between rs (n + 1)) (tstrs_nodup rs _)); [constructor; [intros []|constructor]|]. intros p b [I|[]]. injection I as <- _. lia.
    + apply between_app; [|apply between_one; fold n; lia]. rewrite <- LR. apply (between_wider _ _ _ _ _ (tstrs_between rs (n + 1))); fold n; lia.
  - rewrite map_length. unfold l. rewrite app_length, tstrs_length. cbn [List.length]. unfold rs. rewrite all_rows_len. lia.
Qed.

(** * as_match *)
Lemma match_run : forall z r k h rows, heap_ok h -> match_in_range r -> match_table r = Ok rows ->
  exists e h', as_match_h z r k h = (Ok (firstn k rows, e), h') /\ (e = None <-> (List.length rows < k)%nat) /\
    (e = None -> left_over h h' (message r)) /\
    (e <> None -> rows <> [] -> exists bs, left_over h h' bs /\ List.length bs = (List.length rows + 1)%nat).
Proof.
  intros z r k h rows (Z & HB) IR T. assert (HO : heap_ok h) by (split; assumption). destruct h as [n old]. cbn [h_next h_blocks] in Z, HB.
  destruct r as [rs|m|]; cbn [match_table] in T; [injection T as ->|injection T as <-; destruct k as [|k]|discriminate].
  - destruct IR as (NE & LC). destruct (Nat.le_gt_cases k (List.length rows)) as [K|K].
    + eexists. eexists. split; [apply match_some; [exact Z|right; exact NE|exact LC|exact K]|]. split; [split; [discriminate|lia]|]. split; [discriminate|]. intros _ _.
      set (l := mstrs (n + 1) rows ++ [(n, B_mtoks (mrows (n + 1) rows))]). exists (map snd l). split.
      * assert (HE : mtoks_heap n (n + 1 + len rows) rows old = mkHeap (n + 1 + len rows) (l ++ old)).
        { unfold mtoks_heap, l. rewrite <- app_assoc. reflexivity. }
        rewrite HE. apply (left_top (mkHeap n old)); [exact HO|cbn [h_next]; lia| |].
        -- apply (nodup_on_top _ _ _ _ (mstrs_between rows (n + 1)) (mstrs_nodup rows _)); [constructor; [intros []|constructor]|]. intros p b [I|[]]. injection I as <- _. lia.
        -- apply between_app; [|apply between_one; cbn [h_next]; lia]. apply (between_wider _ _ _ _ _ (mstrs_between rows (n + 1))); cbn [h_next]; lia.
      * rewrite map_length. unfold l. rewrite app_length, mstrs_length. reflexivity.
    + rewrite firstn_all2 by lia. eexists. eexists. split; [apply match_all; [exact Z|right; exact NE|exact LC|exact K]|]. split; [split; [lia|reflexivity]|].
      split; [|contradiction]. intros _. cbn [message]. apply (left_none (mkHeap n old)); [exact HO|cbn [h_next]; lia].
  - exists (Some (mkSrf 0 0 0)). eexists. split; [reflexivity|]. split; [split; [discriminate|cbn [List.length]; lia]|]. split; [discriminate|contradiction].
  - exists None. eexists. split; [rewrite firstn_nil; apply match_throw; lia|]. split; [split; [cbn [List.length]; lia|reflexivity]|]. split; [|contradiction].
    intros _. apply (left_one (mkHeap n old)), HO.
Qed.

(** * as_compile_lexicon *)
Lemma archive_text : forall v x, save_archive v x <> [].
Proof. intros v x. unfold save_archive. discriminate. Qed.
Lemma compile_run : forall e src h, heap_ok h ->
  exists h', left_over h h' (message (serialize_lexicon e src)) /\
    as_compile_lexicon e src h =
    (match serialize_lexicon e src with Ok a => Ok a | Throw m => Throw (s2t "std_standardize threw an error: " ++ m) | UB => UB end, h').
Proof.
  intros e src h HO. pose proof HO as (Z & _). unfold as_compile_lexicon, as_compile_h. destruct (serialize_lexicon e src) as [a|m|] eqn:E.
  - destruct a as [|c a]; [exfalso|].
    + unfold serialize_lexicon in E. destruct (load_lexicon e query_lex src) as [x|m|]; cbn [obind] in E; [|discriminate|discriminate]. injection E as E. exact (archive_text _ _ E).
    + exists (mkHeap (h_next h + 1) (h_blocks h)). split; [apply left_none; [exact HO|lia]|].
      assert (P : serialize_ptr (Ok (c :: a)) h = (Ok (h_next h, 0), mkHeap (h_next h + 1) ((h_next h, B_str (c :: a)) :: h_blocks h))) by reflexivity.
      step P. cbn [negb N.eqb]. destruct (N.eqb_spec (h_next h) 0) as [C|_]; [lia|].
      step (load_str_at (h_next h + 1) [] (h_next h) (c :: a) (h_blocks h) (fun b (F : False) => F)).
      step (free_at (h_next h + 1) [] (h_next h) _ (h_blocks h) (fun b (F : False) => F) ltac:(lia)). reflexivity.
  - exists (mkHeap (h_next h + 1) ((h_next h, B_str m) :: h_blocks h)). split; [apply left_one, HO|].
    assert (P : serialize_ptr (Throw m) h = (Ok (0, h_next h), mkHeap (h_next h + 1) ((h_next h, B_str m) :: h_blocks h))) by reflexivity.
    step P. destruct (N.eqb_spec (h_next h) 0) as [C|_]; [lia|]. cbn [negb].
    step (load_str_at (h_next h + 1) [] (h_next h) m (h_blocks h) (fun b (F : False) => F)). reflexivity.
  - exists h. split; [apply left_nothing; [reflexivity|lia|exact HO]|]. reflexivity.
Qed.

(** * Examples *)
Definition h0 : heap := mkHeap 1 [].
Definition h_word (w : text) : text := file [s2t "LEXICON:" ++ wt ++ s2t "demo" ++ wt ++ s2t "ENG" ++ wt ++ s2t "en" ++ wt;
 s2t "LEXENTRY:" ++ wt ++ w ++ wt ++ s2t "STREET" ++ wt ++ s2t "TYPE" ++ wt ++ wt]%list [].
(** The word {2} makes the pattern of the lexicon malformed: a repeat with nothing before it. *)
Definition h_call : args := mkArgs w_addr w_grammar (h_word (s2t "{2}")) en w_filter.
Definition h_ops : list op := [Call 1 (c_call 0 w_addr); Call 1 h_call; Call 2 h_call; End 1].
Definition h_end : backend := match session c_server new_backend h_ops with Ok b => b | _ => new_backend end.
Lemma h_runs : session c_server new_backend h_ops = Ok h_end.
Proof. vm_compute. reflexivity. Qed.
Lemma h_no_collisions : no_collisions c_server h_ops.
Proof.
  assert (Q : forall a, called h_ops a -> a = c_call 0 w_addr \/ a = h_call).
  { intros a (f & [I|[I|[I|[I|[]]]]]); [injection I as _ <-; left; reflexivity|injection I as _ <-; right; reflexivity..|discriminate]. }
  intros a b A B. destruct (Q a A) as [->| ->], (Q b B) as [->| ->]; split; intros E; try reflexivity; vm_compute in E; discriminate.
Qed.
Lemma h0_ok : heap_ok h0.
Proof. split; [reflexivity|intros p b []]. Qed.
Lemma heap_session : forall sv ops b h, heap_ok h -> fst (session_h sv b ops h) = session sv b ops.
Proof. intros sv ops b h (Z & _). apply session_same, Z. Qed.
Lemma match_safe : forall z e atof sort address gr lx locale filt k h rows, heap_ok h -> match_in_range (std_match_address e atof sort address gr lx locale filt) ->
  match_table (std_match_address e atof sort address gr lx locale filt) = Ok rows ->
  exists s h', as_match z e atof sort address gr lx locale filt k h = (Ok (firstn k rows, s), h') /\ (s = None <-> (List.length rows < k)%nat).
Proof.
  intros z e atof sort address gr lx locale filt k h rows HO IR T. destruct (match_run z _ k h rows HO IR T) as (s & h' & R & S1 & _). exists s, h'. auto.
Qed.
Lemma match_left : forall z e atof sort address gr lx locale filt k h rows s h', heap_ok h -> match_in_range (std_match_address e atof sort address gr lx locale filt) ->
  match_table (std_match_address e atof sort address gr lx locale filt) = Ok rows ->
  as_match z e atof sort address gr lx locale filt k h = (Ok (firstn k rows, s), h') ->
  (s = None -> left_over h h' (message (std_match_address e atof sort address gr lx locale filt))) /\
  (s <> None -> rows <> [] -> exists bs, left_over h h' bs /\ List.length bs = (List.length rows + 1)%nat).
Proof.
  intros z e atof sort address gr lx locale filt k h rows s h' HO IR T H. destruct (match_run z _ k h rows HO IR T) as (s' & h2 & R & _ & A & B).
  unfold as_match in H. rewrite R in H. injection H as <- <-. auto.
Qed.
Lemma match_too_many : forall z e atof sort address gr lx locale filt rows k h, std_match_address e atof sort address gr lx locale filt = Ok rows ->
  int_max < len rows -> fst (as_match z e atof sort address gr lx locale filt k h) = UB.
Proof. intros z e atof sort address gr lx locale filt rows k h E O. unfold as_match. rewrite E, <- (heap_eta h). apply match_overflow, O. Qed.
Lemma compile_safe : forall e src h, heap_ok h -> fst (as_compile_lexicon e src h) =
  match serialize_lexicon e src with Ok a => Ok a | Throw m => Throw (s2t "std_standardize threw an error: " ++ m) | UB => UB end.
Proof. intros e src h HO. destruct (compile_run e src h HO) as (h' & _ & R). rewrite R. reflexivity. Qed.
Lemma compile_left : forall e src h, heap_ok h -> left_over h (snd (as_compile_lexicon e src h)) (message (serialize_lexicon e src)).
Proof. intros e src h HO. destruct (compile_run e src h HO) as (h' & L & R). rewrite R. exact L. Qed.
Lemma heap_example : heap_ok h0 /\ session c_server new_backend h_ops = Ok h_end /\
  map c_view (be_log h_end) = [(0, 1, 0); (2, 1, 0); (0, 1, 1); (2, 1, 1); (0, 2, 2); (2, 2, 2); (1, 0, 1); (1, 0, 0)] /\
  (exists rows, parse_table (std_parse_address ascii_env w_addr w_lexicon en w_filter) = Ok rows /\ List.length rows = 11%nat /\
     in_range (std_phrases ascii_env w_addr w_lexicon en w_filter)) /\
  (exists rows, match_table (std_match_address ascii_env sample_atof by_score w_addr w_grammar w_lexicon en w_filter) = Ok rows /\ List.length rows = 1%nat /\
     match_in_range (std_match_address ascii_env sample_atof by_score w_addr w_grammar w_lexicon en w_filter)).
Proof.
  split; [exact h0_ok|]. split; [exact h_runs|]. split; [vm_compute; reflexivity|]. split.
  - eexists. split; [vm_compute; reflexivity|]. split; [reflexivity|]. vm_compute. split; discriminate.
  - eexists. split; [vm_compute; reflexivity|]. split; [reflexivity|]. vm_compute. split; discriminate.
Qed.
Lemma leak_witness : exists sv ops b h h', fresh_contexts sv /\ stores_patterns sv /\ heap_ok h /\
  session_h sv new_backend ops h = (Ok b, h') /\ h_blocks h = [] /\ h_blocks h' = [(26, B_str (s2t "regex_error")); (19, B_str (s2t "regex_error"))].
Proof.
  exists c_server, h_ops, h_end, h0, (snd (session_h c_server new_backend h_ops h0)). split; [exact c_fresh|]. split; [exact c_stores|]. split; [exact h0_ok|].
  split; [|split; [reflexivity|vm_compute; reflexivity]].
  rewrite <- h_runs, <- (heap_session c_server h_ops new_backend h0 h0_ok). destruct (session_h c_server new_backend h_ops h0); reflexivity.
Qed.
Lemma empty_witness : exists e address lx locale filt rows h', as_parse false e address lx locale filt 100 h0 = (Ok (rows, None), h') /\ h_blocks h' = [(1, B_toks [])].
Proof. exists ascii_env, [], w_lexicon, en, w_filter. do 2 eexists. split; vm_compute; reflexivity. Qed.
Lemma limit_witness : exists e address lx locale filt row s h', as_parse false e address lx locale filt 1 h0 = (Ok ([row], Some s), h') /\ List.length (h_blocks h') = 34%nat.
Proof. exists ascii_env, w_addr, w_lexicon, en, w_filter. do 3 eexists. split; vm_compute; reflexivity. Qed.
Lemma left_example : fresh_contexts c_server /\ stores_patterns c_server /\ no_collisions c_server h_ops /\ heap_ok h0 /\ session c_server new_backend h_ops = Ok h_end /\
  session_leaks c_server (calls_of h_ops) = [B_str (s2t "regex_error"); B_str (s2t "regex_error")] /\
  message (serialize_lexicon ascii_env (s2t "junk")) = [B_str (s2t "Lexicon-Invalid-File-Format")] /\ message (serialize_lexicon ascii_env w_lexicon) = [] /\
  parse_leak false (std_phrases ascii_env w_addr w_lexicon en w_filter) = [].
Proof.
  split; [exact c_fresh|]. split; [exact c_stores|]. split; [exact h_no_collisions|]. split; [exact h0_ok|]. split; [exact h_runs|]. repeat split; vm_compute; reflexivity.
Qed.
