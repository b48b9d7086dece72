(** Lemmas about words with more classes. *)
From Coq Require Import String List NArith ZArith Bool Lia Arith Sorting.Sorted Sorting.Permutation Floats.SpecFloat.
From Verif Require Import Base_model Class_model Float_model Uni_model Token_model Rule_model Search_model Grammar_model Lexicon_model Trie_model Tokenizer_model Archive_model Wrapper_model
  Sample_model Search_spec Loaded_spec Lexicon_spec Tokenizer_spec Split_spec Wrapper_spec Trie_spec Grammar_spec End_spec LexText_spec Richer_spec Class_proofs Trie_proofs LexMap_proofs Classify_proofs TokScan_proofs Split_proofs
  Search_proofs SearchTop_proofs Float_proofs SearchBest_proofs Loaded_proofs Wrapper_proofs WrapperTop_proofs ScoreTop_proofs WrapperEx_proofs AnswerEx_proofs Growth_proofs End_proofs EndEx_proofs LocalEx_proofs Archive_proofs.
Import ListNotations.
Local Open Scope N_scope.

Lemma f2_len : forall A B (R : A -> B -> Prop) l l', Forall2 R l l' -> List.length l = List.length l'.
Proof. intros A B R l l' F. induction F; cbn [List.length]; congruence. Qed.
(** ** The pattern depends only on the set of words *)
Inductive alike : trie -> trie -> Prop :=
| alike_node : forall n n' e kids kids', Forall2 (fun a b => fst a = fst b /\ alike (snd a) (snd b)) kids kids' -> alike (Node n e kids) (Node n' e kids').
Fixpoint alike_regexp (t t' : trie) (A : alike t t') {struct A} : get_regexp t = get_regexp t'.
Proof.
  destruct A as [n n' e kids kids' F]. cbn [get_regexp].
  assert (L : List.length kids = List.length kids') by (eapply f2_len; exact F). rewrite L. destruct (e && Nat.eqb (List.length kids') 0); [reflexivity|].
  match goal with |- (let (_, _) := ?f kids [] [] in _) = _ => assert (E : forall alt cc, f kids alt cc = f kids' alt cc) end; [|rewrite E; reflexivity].
  clear L. revert kids kids' F. fix IH 3. intros kids kids' F. destruct F as [|[c k] [c' k'] l l' (E & A) F]; intros alt cc; [reflexivity|].
  cbn [fst snd] in E, A. subst c'. rewrite (alike_regexp _ _ A). destruct (get_regexp k'); apply IH; exact F.
Qed.
Lemma same_keys_kids : forall (R : trie -> trie -> Prop) l l', StronglySorted (fun a b : N * trie => fst a < fst b) l -> StronglySorted (fun a b : N * trie => fst a < fst b) l' ->
  (forall c, match kid_find c l, kid_find c l' with Some k, Some k' => R k k' | None, None => True | _, _ => False end) ->
  Forall2 (fun a b => fst a = fst b /\ R (snd a) (snd b)) l l'.
Proof.
  intros R. assert (N0 : forall (l : list (N * trie)) c, (forall p, In p l -> c < fst p) -> kid_find c l = None).
  { induction l as [|[d k] l IH]; intros c H; [reflexivity|]. cbn [kid_find]. assert (c < d) by (apply (H (d, k)); left; reflexivity). destruct (N.eqb_spec d c) as [->|_]; [lia|]. apply IH. intros p I. apply H. right. exact I. }
  induction l as [|[c k] l IH]; intros l' S1 S2 H.
  - destruct l' as [|[c k] l']; [constructor|]. specialize (H c). cbn [kid_find] in H. rewrite N.eqb_refl in H. destruct H.
  - destruct l' as [|[c' k'] l']; [specialize (H c); cbn [kid_find] in H; rewrite N.eqb_refl in H; destruct H|].
    apply StronglySorted_inv in S1, S2. destruct S1 as (S1 & F1), S2 as (S2 & F2). rewrite Forall_forall in F1, F2. cbn [fst] in F1, F2.
    assert (c = c') as <-.
    { destruct (N.lt_total c c') as [L|[E|L]]; [|exact E|].
      - specialize (H c). cbn [kid_find] in H. rewrite N.eqb_refl in H. destruct (N.eqb_spec c' c) as [->|_]; [lia|]. rewrite (N0 l' c) in H; [destruct H|]. intros p I. specialize (F2 p I). lia.
      - specialize (H c'). cbn [kid_find] in H. rewrite N.eqb_refl in H. destruct (N.eqb_spec c c') as [->|_]; [lia|]. rewrite (N0 l c') in H; [destruct H|]. intros p I. specialize (F1 p I). lia. }
    constructor.
    + split; [reflexivity|]. specialize (H c). cbn [kid_find] in H. rewrite N.eqb_refl in H. exact H.
    + apply IH; [exact S1|exact S2|]. intros d. specialize (H d). cbn [kid_find] in H. destruct (N.eqb_spec c d) as [E|_]; [subst d; rewrite (N0 l c F1), (N0 l' c F2); exact I|exact H].
Qed.
Fixpoint height (t : trie) : nat := match t with Node _ _ kids => S (fold_right (fun ck m => Nat.max (height (snd ck)) m) 0%nat kids) end.
Lemma height_kid : forall n e kids c k, In (c, k) kids -> (height k < height (Node n e kids))%nat.
Proof.
  intros n e kids c k I. cbn [height]. apply le_n_S. induction kids as [|[d k'] kids IH]; [destruct I|]. cbn [fold_right snd]. destruct I as [E|I]; [injection E as _ ->; lia|]. specialize (IH I). lia.
Qed.
Lemma same_words_alike : forall n t t', (height t < n)%nat -> wf t -> wf t' -> (forall w, is_word w t = is_word w t') -> (forall w, is_prefix w t = is_prefix w t') -> alike t t'.
Proof.
  induction n as [|n IH]; intros t t' H W W' HW HP; [lia|]. destruct t as [m e kids], t' as [m' e' kids'].
  assert (e = e') as <- by (specialize (HW []); exact HW). constructor. inversion W as [? ? ? S1 F1]. inversion W' as [? ? ? S2 F2]. subst. rewrite Forall_forall in F1, F2. apply same_keys_kids; [exact S1|exact S2|]. intros c.
  assert (P := HP [c]). cbn [is_prefix t_kids] in P. destruct (kid_find c kids) as [k|] eqn:E1; destruct (kid_find c kids') as [k'|] eqn:E2; try (discriminate P); [|exact I].
  apply IH.
  - assert (Q := height_kid m e kids c k (kid_find_in _ _ _ E1)). lia.
  - exact (F1 _ (kid_find_in _ _ _ E1)).
  - exact (F2 _ (kid_find_in _ _ _ E2)).
  - intros w. specialize (HW (c :: w)). cbn [is_word t_kids] in HW. rewrite E1, E2 in HW. exact HW.
  - intros w. specialize (HP (c :: w)). cbn [is_prefix t_kids] in HP. rewrite E1, E2 in HP. exact HP.
Qed.
Lemma pattern_of_set : forall ws ws', (forall w, w <> [] -> (In w ws <-> In w ws')) -> get_regexp (trie_of ws) = get_regexp (trie_of ws').
Proof.
  intros ws ws' H. apply alike_regexp. destruct (trie_of_gen ws (new_trie false) (wf_new false)) as (W & _). destruct (trie_of_gen ws' (new_trie false) (wf_new false)) as (W' & _).
  fold (trie_of ws) in W. fold (trie_of ws') in W'. destruct (trie_words ws) as (A & B & _). destruct (trie_words ws') as (A' & B' & _).
  apply (same_words_alike (S (height (trie_of ws)))); [lia|exact W|exact W'| |].
  - intros w. apply Bool.eq_iff_eq_true. rewrite A, A'. split; intros (N1 & I); split; try exact N1; apply (H w N1); exact I.
  - intros p. apply Bool.eq_iff_eq_true. rewrite B, B'. split; (intros [E|(w & I & P)]; [left; exact E|]); destruct p as [|c p]; try (left; reflexivity); right; exists w; split; try exact P; (apply (H w); [destruct P as [r ->]; discriminate|exact I]).
Qed.

(** ** The patterns of richer lexicons *)
Lemma key_listed : forall x w, lex_wf (x_lex x) -> (In w (map fst (x_lex x)) <-> listed x w).
Proof.
  intros x w W. unfold listed. assert (G := find_some_get x w W). split.
  - intros I Z. rewrite Z in G. apply in_map_iff in I. destruct I as ([k v] & <- & I). cbn [fst] in G. destruct W as (S1 & _). clear - G I. induction (x_lex x) as [|[k' v'] l IH]; [destruct I|]. cbn [map_get] in G. destruct (teqb k k') eqn:E; [discriminate|].
    destruct I as [E2|I]; [injection E2 as <- _; rewrite teqb_refl in E; discriminate|]. exact (IH G I).
  - intros Z. destruct (lex_find x w) as [|le l] eqn:E; [congruence|]. apply map_get_in in G. apply in_map_iff. exists (w, le :: l). split; [reflexivity|exact G].
Qed.
Lemma richer_patterns : forall f x x', built x -> built x' -> richer f x x' ->
  fst (lex_regex x) = fst (lex_regex x') /\ fst (lex_pre x) = fst (lex_pre x') /\ fst (lex_suf x) = fst (lex_suf x').
Proof.
  intros f x x' B B' (_ & HL & HF & HB & _). destruct (built_ok x B) as (W & C). destruct (built_ok x' B') as (W' & C').
  destruct (patterns_of x C) as (-> & -> & ->). destruct (patterns_of x' C') as (-> & -> & ->). unfold make_regex, make_pre, make_suf. split; [|split].
  - f_equal. apply pattern_of_set. intros w _. rewrite (key_listed x w W), (key_listed x' w W'). apply HL.
  - f_equal. f_equal. apply pattern_of_set. intros w N1. assert (Q := HF w). rewrite (front_in x w W), (front_in x' w W') in Q. tauto.
  - apply pattern_of_set. intros w N1. assert (Q := HB w). rewrite (back_in x w W), (back_in x' w W') in Q. tauto.
Qed.

(** ** The tokens *)
Section tokens.
Variables (f : inset) (x x' : lexicon).
Hypothesis R : richer f x x'.
Definition like_token (k k' : token) : Prop := t_text k' = t_text k /\ t_std k' = t_std k /\ t_out k' = t_out k /\ t_att k' = t_att k /\ t_inlex k' = t_inlex k /\
  (forall c, In c (t_in k) -> In c (t_in k')) /\ (forall c, In c (t_in k') -> In c f -> In c (t_in k)) /\ (t_inlex k = false -> t_in k' = t_in k).
Lemma rich_classify : forall u k typ, like_token (classify u x k typ) (classify u x' k typ).
Proof.
  intros u k typ. unfold classify. destruct R as (_ & _ & _ & _ & R1 & R2).
  set (a := fold_left (fun s le => add_all s (le_type le)) (lex_find x (t_text k)) (t_in k)). set (b := fold_left (fun s le => add_all s (le_type le)) (lex_find x' (t_text k)) (t_in k)).
  assert (IA : forall c, In c a <-> In c (t_in k) \/ class_of x (t_text k) c) by (intros c; unfold a; apply fold_types_in).
  assert (IB : forall c, In c b <-> In c (t_in k) \/ class_of x' (t_text k) c) by (intros c; unfold b; apply fold_types_in).
  assert (S1 : forall c, In c a -> In c b) by (intros c; rewrite IA, IB; intros [H|H]; auto).
  assert (S2 : forall c, In c b -> In c a \/ ~ In c f /\ a <> []).
  { intros c. rewrite IB, IA. intros [H|H]; [auto|]. destruct (R2 _ _ H) as [H2|(H2 & d & H3)]; [auto|]. right. split; [exact H2|]. intros Z. assert (In d a) as Q by (apply IA; auto). rewrite Z in Q. destruct Q. }
  cbn [t_in set_in]. clearbody a b. clear IA IB. destruct a as [|c0 a0].
  - assert (b = []) as -> by (destruct b as [|c b]; [reflexivity|]; destruct (S2 c (or_introl eq_refl)) as [[]|(_ & Q)]; congruence).
    unfold like_token. destruct (rmatch u false "^\d+[,\.]\d+$" (t_text k)); repeat (split; [reflexivity|]); auto.
  - destruct b as [|c1 b1]; [destruct (S1 c0 (or_introl eq_refl))|]. unfold like_token. cbn [t_text t_std t_out t_att t_inlex t_in set_inlex set_in].
    repeat (split; [reflexivity|]). split; [exact S1|]. split; [|discriminate]. intros c I F. destruct (S2 c I) as [H|(H & _)]; [exact H|contradiction].
Qed.
Lemma rich_map : forall u ws, Forall2 like_token (map (part_token u x) ws) (map (part_token u x') ws).
Proof. intros u ws. induction ws as [|w ws IH]; cbn [map]; constructor; [apply rich_classify|exact IH]. Qed.
Lemma like_phrase : forall k k', like_token k k' -> is_phrase k' = is_phrase k.
Proof. intros k k' (E & _). unfold is_phrase. rewrite E. reflexivity. Qed.
Lemma rich_alt_one : forall u i ks ks' n, Forall2 like_token ks ks' -> Forall2 like_token (alt_one u x i n ks) (alt_one u x' i n ks').
Proof.
  intros u i ks ks' n F. revert n. induction F as [|k k' ks ks' L F IH]; intros n; cbn [alt_one]; [constructor|]. rewrite (like_phrase _ _ L). destruct (is_phrase k); [|constructor; [exact L|apply IH]].
  apply Forall2_app; [|apply IH]. destruct (_ =? 0); [constructor; [exact L|constructor]|]. destruct L as (-> & _). apply rich_map.
Qed.
Lemma rich_phrases : forall ks ks', Forall2 like_token ks ks' -> phrases ks' = phrases ks.
Proof.
  unfold phrases. intros ks ks' F. induction F as [|k k' ks ks' L F IH]; [reflexivity|]. cbn [filter]. rewrite (like_phrase _ _ L). destruct (is_phrase k); cbn [List.length]; rewrite IH; reflexivity.
Qed.
Definition outcome_rel {A} (P : A -> A -> Prop) (o o' : outcome A) : Prop := match o, o' with Ok a, Ok b => P a b | Throw m, Throw m' => m = m' | UB, UB => True | _, _ => False end.
Lemma rich_alts : forall u ks ks', Forall2 like_token ks ks' -> outcome_rel (Forall2 (Forall2 like_token)) (get_alt_tokens u x ks) (get_alt_tokens u x' ks').
Proof.
  intros u ks ks' F. unfold get_alt_tokens. rewrite (rich_phrases _ _ F). destruct (phrases ks) as [|n]; [constructor|]. destruct (Nat.ltb 31 (S n)); [exact I|]. cbn [outcome_rel].
  generalize (count_up (N.to_nat (2 ^ N.of_nat (S n) - 1)) 1). intros l. induction l as [|i l IH]; cbn [map]; constructor; [apply rich_alt_one; exact F|exact IH].
Qed.
Lemma rich_filter : forall ks ks', Forall2 like_token ks ks' -> Forall2 like_token (apply_filter f ks) (apply_filter f ks').
Proof.
  intros ks ks' F. unfold apply_filter. induction F as [|k k' ks ks' L F IH]; [constructor|]. cbn [filter]. assert (E : is_in_class_set k' f = is_in_class_set k f).
  { apply Bool.eq_iff_eq_true. unfold is_in_class_set. rewrite !existsb_exists. destruct L as (_ & _ & _ & _ & _ & S1 & S2 & _). split; intros (c & I & M); exists c; (split; [exact I|]); apply iset_mem_in; apply iset_mem_in in M; auto. }
  rewrite E. destruct (negb (is_in_class_set k f)); [constructor; assumption|exact IH].
Qed.
Hypothesis P3 : fst (lex_regex x) = fst (lex_regex x') /\ fst (lex_pre x) = fst (lex_pre x') /\ fst (lex_suf x) = fst (lex_suf x').
Lemma rich_split : forall u k k', like_token k k' -> t_inlex k = false -> split_parts u x k = split_parts u x' k'.
Proof. intros u k k' (E & _ & _ & _ & _ & _ & _ & Q) Z. unfold split_parts, is_in_class. rewrite E, (Q Z). destruct P3 as (_ & -> & ->). reflexivity. Qed.
Lemma rich_word : forall u w, outcome_rel (Forall2 like_token) (word_tokens u x w) (word_tokens u x' w).
Proof.
  intros u w. unfold word_tokens. destruct w as [|c w]; [constructor|]. assert (L := rich_classify u (token_of_text (c :: w)) I_WORD). set (k := classify u x _ _) in *. set (k' := classify u x' _ _) in *. clearbody k k'.
  assert (E : t_inlex k' = t_inlex k) by apply L. rewrite E. destruct (t_inlex k) eqn:Z; [constructor; [exact L|constructor]|]. unfold split_token. rewrite <- (rich_split u k k' L Z).
  destruct (split_parts u x k) as [ws|m|]; cbn [obind outcome_rel]; [|reflexivity|exact I]. destruct ws as [|w0 ws]; cbn [map]; [constructor; [exact L|constructor]|]. exact (rich_map u (w0 :: ws)).
Qed.
Lemma rich_pieces : forall u ps, outcome_rel (Forall2 like_token) (piece_tokens u x ps) (piece_tokens u x' ps).
Proof.
  intros u. induction ps as [|p ps IH]; [constructor|]. cbn [piece_tokens]. assert (H := rich_word u (pc_tok p)). destruct (word_tokens u x (pc_tok p)) as [ks|m|], (word_tokens u x' (pc_tok p)) as [ks'|m'|]; cbn [outcome_rel obind] in *; try contradiction; [|exact H|exact H].
  destruct (piece_tokens u x ps) as [r|m|], (piece_tokens u x' ps) as [r'|m'|]; cbn [outcome_rel obind] in *; try contradiction; [|exact IH|exact IH].
  apply Forall2_app; [exact H|]. apply Forall2_app; [|exact IH]. unfold sep_tokens. destruct (pc_sep p); [constructor|constructor; [apply rich_classify|constructor]].
Qed.
Lemma rich_make : forall e locale filt address, f = as_type filt -> outcome_rel (Forall2 (Forall2 like_token)) (make_phrases e x locale filt address) (make_phrases e x' locale filt address).
Proof.
  intros e locale filt address EF. unfold make_phrases, get_tokens, all_tokens. cbn [z_lex z_filter set_filter]. rewrite <- EF.
  assert (get_pieces e x (prepared e locale address) = get_pieces e x' (prepared e locale address)) as ->.
  { unfold get_pieces, search_text. destruct P3 as (-> & _). destruct R as (-> & _). reflexivity. }
  destruct (get_pieces e x' _) as [ps|m|]; cbn [obind]; [|reflexivity|exact I]. assert (H := rich_pieces (e_uni e) ps).
  destruct (piece_tokens (e_uni e) x ps) as [ks|m|], (piece_tokens (e_uni e) x' ps) as [ks'|m'|]; cbn [outcome_rel obind] in *; try contradiction; [|exact H|exact I].
  apply rich_filter in H. assert (H2 := rich_alts (e_uni e) _ _ H). destruct (get_alt_tokens _ x _) as [a|m|], (get_alt_tokens _ x' _) as [a'|m'|]; cbn [outcome_rel obind] in *; try contradiction; [|exact H2|exact I].
  constructor; assumption.
Qed.
Lemma like_wider : forall ph ph', Forall2 like_token ph ph' -> wider ph ph'.
Proof. intros ph ph' F. unfold wider. induction F as [|k k' ks ks' L F IH]; constructor; [split; apply L|exact IH]. Qed.
End tokens.
Lemma richer_phrases : forall e x x' locale filt address phs, built x -> built x' -> richer (as_type filt) x x' -> make_phrases e x locale filt address = Ok phs ->
  exists phs', make_phrases e x' locale filt address = Ok phs' /\ Forall2 wider phs phs'.
Proof.
  intros e x x' locale filt address phs B B' R M. assert (H := rich_make _ x x' R (richer_patterns _ x x' B B' R) e locale filt address eq_refl). rewrite M in H.
  destruct (make_phrases e x' locale filt address) as [phs'|m|]; cbn [outcome_rel] in H; try contradiction. exists phs'. split; [reflexivity|].
  clear - H. induction H as [|ph ph' phs phs' L H IH]; constructor; [eapply like_wider; exact L|exact IH].
Qed.

(** ** The matches *)
Lemma wider_chooses : forall ph ph' cs, wider ph ph' -> chooses ph cs -> chooses ph' cs.
Proof.
  intros ph ph' cs W. revert cs. unfold chooses. induction W as [|k k' ph ph' (_ & S1) W IH]; intros cs C; inversion C as [|? c ? cs' I C']; subst; constructor; [apply S1; exact I|apply IH; exact C'].
Qed.
Lemma wider_length : forall ph ph', wider ph ph' -> List.length ph' = List.length ph.
Proof. intros ph ph' W. symmetry. eapply f2_len. exact W. Qed.
Lemma wider_search : forall g node ph ph' ps p, is_loaded g -> wider ph ph' -> combinations ph' <= 2 ^ 32 ->
  search_node g node ph = Ok ps -> In p ps -> exists ps' p', search_node g node ph' = Ok ps' /\ In p' ps' /\ p_rules p' = p_rules p.
Proof.
  intros g node ph ph' ps p L W CB E I. destruct (search_sound g node ph ps p (loaded_linked g L) E I) as (k & (D & Ch) & K).
  apply (search_complete g node ph' k _ (loaded_linked g L) CB (conj D (wider_chooses _ _ _ W Ch))). rewrite (wider_length _ _ W). exact K.
Qed.
Lemma wider_sizes : forall g phs phs', Forall2 wider phs phs' -> Forall (sizes_ok g) phs -> Forall (sizes_ok g) phs'.
Proof.
  intros g phs phs' F. induction F as [|ph ph' phs phs' W F IH]; intros S1; constructor; inversion S1 as [|? ? A B]; subst; [|apply IH; exact B].
  destruct A as (w & A1 & A2). exists w. split; [exact A1|]. rewrite (wider_length _ _ W). exact A2.
Qed.
Lemma wider_score : forall g phs phs', is_loaded g -> no_nan_scores g -> Forall2 wider phs phs' -> Forall (sizes_ok g) phs -> Forall (fun ph => combinations ph <= 2 ^ 32) phs' ->
  exists b b', search_best g phs = Ok b /\ search_best g phs' = Ok b' /\ SFltb (b_score b') (b_score b) = false.
Proof.
  intros g phs phs' L N1 W SZ CB. assert (SZ' := wider_sizes g _ _ W SZ). destruct (best_all g phs (loaded_search_ok g L N1) SZ) as (_ & b & _ & B & _). destruct (best_all g phs' (loaded_search_ok g L N1) SZ') as (_ & b' & _ & B' & _).
  exists b, b'. split; [exact B|]. split; [exact B'|]. rewrite Forall_forall in CB.
  destruct (best_reached g phs b L N1 SZ B) as [(-> & _)|(NN & (ph & ps & p & I & S1 & J & ->) & _)].
  - destruct (best_reached g phs' b' L N1 SZ' B') as [(-> & _)|(NN' & _)]; [reflexivity|apply f_lt_asym; exact (m1_lt_nonneg _ NN')].
  - destruct (Forall2_left _ _ _ _ _ _ W I) as (ph' & I' & W1). destruct (wider_search g ADDRESS ph ph' ps p L W1 (CB _ I') S1 J) as (ps' & p' & S2 & J' & <-).
    destruct (best_reached g phs' b' L N1 SZ' B') as [(-> & Q)|(NN' & _ & M)]; [|exact (M ph' ps' p' I' S2 J')]. assert (Q2 := Q ph' I'). unfold search in Q2. rewrite S2 in Q2. injection Q2 as ->. destruct J'.
Qed.
Lemma richer_standardized : forall e g x x' locale filt address phs' r, is_loaded g -> built x -> built x' -> richer (as_type filt) x x' ->
  make_phrases e x' locale filt address = Ok phs' -> Forall (fun ph => combinations ph <= 2 ^ 32) phs' ->
  standardize_addr e g x locale filt address = Ok (Some r) -> exists r', standardize_addr e g x' locale filt address = Ok (Some r').
Proof.
  intros e g x x' locale filt address phs' r L B B' R P' CB H. destruct (row_sound e g x locale filt address r L H) as (phs & ph & k & rs & ws & P & I & D & Ch & K & _).
  destruct (richer_phrases e x x' locale filt address phs B B' R P) as (phs2 & P2 & W). rewrite P' in P2. injection P2 as <-. destruct (Forall2_left _ _ _ _ _ _ W I) as (ph' & I' & W1). rewrite Forall_forall in CB.
  assert (K' : (k <= List.length ph' + 2)%nat) by (rewrite (wider_length _ _ W1); exact K).
  destruct (search_complete g ADDRESS ph' k rs (loaded_linked g L) (CB _ I') (conj D (wider_chooses _ _ _ W1 Ch)) K') as (ps & p & S1 & J & _).
  destruct (answered_any e g x' locale filt address phs' L P') as ([r'|] & A & Q); [exists r'; exact A|]. exfalso. rewrite ((proj1 Q eq_refl) ph' ps I' S1) in J. destruct J.
Qed.
Lemma richer_rows : forall e sort g x x' locale filt address phs' out row, is_loaded g -> built x -> built x' -> richer (as_type filt) x x' ->
  make_phrases e x' locale filt address = Ok phs' -> Forall (fun ph => combinations ph <= 2 ^ 32) phs' -> (forall phs rows, search_all g phs = Ok rows -> sorted_rows rows (sort rows)) ->
  match_addr e sort g x locale filt address = Ok out -> In row out ->
  out = [mkMR (s2t "Failed to match to grammar!"%string) f64_m1 f64_m1] \/ exists out', match_addr e sort g x' locale filt address = Ok out' /\ In row out'.
Proof.
  intros e sort g x x' locale filt address phs' out row L B B' R P' CB SO M I.
  assert (exists phs, make_phrases e x locale filt address = Ok phs) as (phs & P).
  { unfold match_addr in M. destruct (make_phrases e x locale filt address) as [phs|m|]; [exists phs; reflexivity|discriminate|discriminate]. }
  destruct (richer_phrases e x x' locale filt address phs B B' R P) as (phs2 & P2 & W). rewrite P' in P2. injection P2 as <-.
  destruct (match_rows e sort g x locale filt address phs L P (SO phs)) as (found & rows & out1 & F & M1 & (Pm & _) & _ & F1 & F2). rewrite M in M1. injection M1 as <-.
  destruct (concat found) as [|p0 l0] eqn:Ec; [left; exact (F1 eq_refl)|]. right. assert (F3 := F2 ltac:(discriminate)). rewrite <- Ec in F3. clear F1 F2.
  apply (Permutation_in _ (Permutation_sym Pm)) in I. destruct (Forall2_right _ _ _ _ _ _ F3 I) as (p & Ip & Rp).
  apply in_concat in Ip. destruct Ip as (ps & Ips & Ip). destruct (Forall2_right _ _ _ _ _ _ F Ips) as (ph & Iph & S1). rewrite Forall_forall in CB.
  destruct (Forall2_left _ _ _ _ _ _ W Iph) as (ph' & Iph' & W1).
  destruct (wider_search g ADDRESS ph ph' ps p L W1 (CB _ Iph') S1 Ip) as (ps' & p' & S2 & Ip' & Er).
  destruct (match_rows e sort g x' locale filt address phs' L P' (SO phs')) as (found' & rows' & out' & F' & M' & (Pm' & _) & _ & _ & F2').
  exists out'. split; [exact M'|]. destruct (Forall2_left _ _ _ _ _ _ F' Iph') as (ps2 & I2 & S3). unfold search in S3. rewrite S2 in S3. injection S3 as <-.
  assert (Ic : In p' (concat found')) by (apply in_concat; exists ps'; auto).
  assert (F4 := F2' ltac:(intros Z; rewrite Z in Ic; destruct Ic)). destruct (Forall2_left _ _ _ _ _ _ F4 Ic) as (row' & Ir & Rr). apply (Permutation_in _ Pm').
  replace row with row'; [exact Ir|]. rewrite Er in Rr. destruct row as [a b c], row' as [a' b' c'], Rp as (R1 & R2 & R3), Rr as (R4 & R5 & R6). cbn [m_matched m_score m_nrules] in *. congruence.
Qed.

(** ** One more entry *)
Lemma richer_insert : forall f x le, built x -> (exists d, class_of x (le_word le) d) -> (forall c, In c (le_type le) -> In c f -> class_of x (le_word le) c) ->
  (forall a, In a [ATT_PRE; ATT_SUF] -> In a (le_att le) -> exists le', In le' (lex_find x (le_word le)) /\ In a (le_att le')) -> richer f x (lex_insert x le).
Proof.
  intros f x le B (d & HD) HC HA. assert (W := proj1 (built_ok x B)).
  assert (I1 : forall w y, In y (lex_find x w) -> In y (lex_find (lex_insert x le) w)).
  { intros w y I. rewrite (find_insert x le w W). destruct (teqb w (le_word le)); [|exact I]. destruct (in_dec le_dec le (lex_find x w)); [exact I|]. apply in_or_app. left. exact I. }
  assert (I2 : forall w y, In y (lex_find (lex_insert x le) w) -> In y (lex_find x w) \/ w = le_word le /\ y = le).
  { intros w y I. rewrite (find_insert x le w W) in I. destruct (teqb w (le_word le)) eqn:E; [|left; exact I]. apply teqb_eq in E. destruct (in_dec le_dec le (lex_find x w)); [left; exact I|]. apply in_app_or in I. destruct I as [I|[<-|[]]]; auto. }
  assert (NE : forall w, listed (lex_insert x le) w -> listed x w).
  { intros w H Z. unfold listed in H. destruct (lex_find (lex_insert x le) w) as [|y l] eqn:E; [congruence|]. destruct (I2 w y) as [I|(-> & ->)]; [rewrite E; left; reflexivity|rewrite Z in I; destruct I|].
    destruct HD as (y & I & _). rewrite Z in I. destruct I. }
  assert (AT : forall a w, In a [ATT_PRE; ATT_SUF] -> (exists y, In y (lex_find (lex_insert x le) w) /\ In a (le_att y)) -> exists y, In y (lex_find x w) /\ In a (le_att y)).
  { intros a w Ia (y & I & J). destruct (I2 w y I) as [K|(-> & ->)]; [exists y; auto|]. exact (HA a Ia J). }
  split; [unfold lex_insert; destruct (existsb _ _); reflexivity|]. split; [|split; [|split; [|split]]].
  - intros w. split; [|apply NE]. unfold listed. intros H Z. destruct (lex_find x w) as [|y l] eqn:E; [congruence|]. assert (In y (lex_find (lex_insert x le) w)) as Q by (apply I1; rewrite E; left; reflexivity). rewrite Z in Q. destruct Q.
  - intros w. unfold front_word. split; intros (N1 & H); (split; [exact N1|]); [destruct H as (y & I & J); exists y; auto|apply (AT _ _ (or_introl eq_refl) H)].
  - intros w. unfold back_word. split; intros (N1 & H); (split; [exact N1|]); [destruct H as (y & I & J); exists y; auto|apply (AT _ _ (or_intror (or_introl eq_refl)) H)].
  - intros w c (y & I & J). exists y. auto.
  - intros w c (y & I & J). destruct (I2 w y I) as [K|(-> & ->)]; [left; exists y; auto|]. destruct (iset_mem c f) eqn:Q; [apply iset_mem_in in Q; left; exact (HC c J Q)|]. right. split; [intros Z; apply iset_mem_in in Z; congruence|exists d; exact HD].
Qed.
Lemma richer_call : forall e atof address gr lx lx' arg arg' locale filt x x' phs' r, uni_ok (e_uni e) -> given_as e lx arg -> given_as e lx' arg' -> lexicon_of e lx x -> lexicon_of e lx' x' ->
  richer (as_type filt) x x' -> make_phrases e x' locale filt address = Ok phs' -> Forall (fun ph => combinations ph <= 2 ^ 32) phs' ->
  std_standardize e atof address gr arg locale filt = Ok (Some r) -> exists r', std_standardize e atof address gr arg' locale filt = Ok (Some r').
Proof.
  intros e atof address gr lx lx' arg arg' locale filt x x' phs' r UO G G' L L' R P CB. unfold std_standardize.
  destruct (lexicon_given e lx arg G) as [(z & y & Lz & E & R1)|(m & Rj & _)]; [|destruct (lexicon_exclusive _ _ _ _ L Rj)]. rewrite (lexicon_one _ _ _ _ Lz L) in R1.
  destruct (lexicon_given e lx' arg' G') as [(z' & y' & Lz' & E' & R2)|(m & Rj & _)]; [|destruct (lexicon_exclusive _ _ _ _ L' Rj)]. rewrite (lexicon_one _ _ _ _ Lz' L') in R2.
  rewrite E, E'. cbn [obind]. destruct (get_grammar e atof gr) as [g| |] eqn:Eg; cbn [obind]; [|discriminate|discriminate]. destruct (grammar_loads e atof gr g UO Eg) as (_ & Lg).
  rewrite (proj1 (R1 g locale filt address)), (proj1 (R2 g locale filt address)). exact (richer_standardized e g x x' locale filt address phs' r Lg (lexicon_built _ _ _ L) (lexicon_built _ _ _ L') R P CB).
Qed.

Lemma ok_inj : forall A (a b : A), Ok a = Ok b -> a = b.
Proof. intros A a b H. injection H. auto. Qed.

(** ** An example *)
Local Open Scope string_scope.
Definition saint_line : text := (s2t "LEXENTRY:" ++ wt ++ s2t "ST" ++ wt ++ s2t "SAINT" ++ wt ++ s2t "WORD" ++ wt ++ wt)%list.
Definition rich_lexicon : text := file (w_lines ++ [saint_line])%list [].
Definition rich_x : lexicon := match load_lexicon ascii_env query_lex rich_lexicon with Ok x => x | _ => new_lexicon [] end.
Lemma rich_loaded : load_lexicon ascii_env query_lex rich_lexicon = Ok rich_x.
Proof. vm_compute. reflexivity. Qed.
Lemma rich_given : given_as ascii_env rich_lexicon rich_lexicon.
Proof.
  left. split; [reflexivity|]. assert (E : exists t, rich_lexicon = 76%N :: t) by (eexists; vm_compute; reflexivity). destruct E as (t & ->). apply first_char; [reflexivity|reflexivity|discriminate].
Qed.
Definition saint_entry : lexentry := lexentry_of_line saint_line.
Lemma rich_is_insert : x_locale rich_x = x_locale w_x /\ x_lex rich_x = x_lex (lex_insert w_x saint_entry).
Proof. split; vm_compute; reflexivity. Qed.
Lemma saint_fits : (exists d, class_of w_x (le_word saint_entry) d) /\ (forall c, In c (le_type saint_entry) -> In c (as_type w_filter) -> class_of w_x (le_word saint_entry) c) /\
  (forall a, In a [ATT_PRE; ATT_SUF] -> In a (le_att saint_entry) -> exists le', In le' (lex_find w_x (le_word saint_entry)) /\ In a (le_att le')).
Proof.
  split; [|split].
  - exists I_TYPE. eexists. split; [left; vm_compute; reflexivity|vm_compute; left; reflexivity].
  - intros c I J. exfalso. vm_compute in I, J. destruct I as [<-|[]]. repeat (destruct J as [J|J]; [discriminate J|]). destruct J.
  - intros a _ J. exfalso. vm_compute in J. repeat (destruct J as [J|J]; [discriminate J|]). destruct J.
Qed.
Lemma same_rich : forall f x y y', x_locale y = x_locale y' -> x_lex y = x_lex y' -> richer f x y -> richer f x y'.
Proof.
  intros f x y y' EL EX R. assert (F : forall w, lex_find y w = lex_find y' w) by (intros w; unfold lex_find; rewrite EX; reflexivity). unfold richer, listed, front_word, back_word, class_of in *. rewrite <- EL.
  destruct R as (R1 & R2 & R3 & R4 & R5 & R6). split; [exact R1|]. split; [|split; [|split; [|split]]]; intros w; rewrite <- (F w); [apply R2|apply R3|apply R4|apply R5|apply R6].
Qed.
Lemma rich_richer : richer (as_type w_filter) w_x rich_x.
Proof.
  destruct rich_is_insert as (E1 & E2). destruct saint_fits as (A & B & C). apply (same_rich _ w_x (lex_insert w_x saint_entry)); [rewrite E1; vm_compute; reflexivity|symmetry; exact E2|].
  exact (richer_insert _ w_x saint_entry w_x_built A B C).
Qed.
Definition st_st : text := s2t "12 st st".
Definition rich_phs : list (list token) := match make_phrases ascii_env rich_x en w_filter w_addr with Ok phs => phs | _ => [] end.
Lemma rich_setting : given_as ascii_env w_lexicon w_lexicon /\ given_as ascii_env rich_lexicon rich_lexicon /\ lexicon_of ascii_env w_lexicon w_x /\ lexicon_of ascii_env rich_lexicon rich_x /\
  built w_x /\ built rich_x /\ richer (as_type w_filter) w_x rich_x /\ make_phrases ascii_env rich_x en w_filter w_addr = Ok rich_phs /\ rich_phs <> w_phs /\ Forall2 wider w_phs rich_phs /\
  Forall (sizes_ok w_g) w_phs /\ Forall (fun ph => (combinations ph <= 2 ^ 32)%N) rich_phs /\ (exists r, std_standardize ascii_env sample_atof w_addr w_grammar w_lexicon en w_filter = Ok (Some r)).
Proof.
  assert (P : make_phrases ascii_env rich_x en w_filter w_addr = Ok rich_phs) by (vm_compute; reflexivity). assert (B : built rich_x) by (eapply built_load; exact rich_loaded).
  split; [exact w_given|]. split; [exact rich_given|]. split; [apply lexicon_loads; exact w_x_loaded|]. split; [apply lexicon_loads; exact rich_loaded|]. split; [exact w_x_built|]. split; [exact B|]. split; [exact rich_richer|]. split; [exact P|].
  split; [intros H; apply (f_equal (fun l => map (map t_in) l)) in H; vm_compute in H; discriminate H|]. split.
  - assert (Q : make_phrases ascii_env w_x en w_filter w_addr = Ok w_phs) by (vm_compute; reflexivity). destruct (richer_phrases ascii_env w_x rich_x en w_filter w_addr w_phs w_x_built B rich_richer Q) as (phs' & P' & W). rewrite P in P'. rewrite (ok_inj _ _ _ P'). exact W.
  - split; [exact (proj1 w_phs_sizes)|]. split; [|eexists; exact w_call]. apply Forall_forall. intros ph I. unfold rich_phs in I. vm_compute in I. repeat (destruct I as [<-|I]; [vm_compute; discriminate|]). destruct I.
Qed.
Lemma rich_more : std_standardize ascii_env sample_atof st_st w_grammar w_lexicon en w_filter = Ok None /\
  exists r, std_standardize ascii_env sample_atof st_st w_grammar rich_lexicon en w_filter = Ok (Some r) /\ nth_error (sa_fields r) 5 = Some (some "SAINT") /\ nth_error (sa_fields r) 6 = Some (some "STREET").
Proof. split; [vm_compute; reflexivity|]. eexists. split; [vm_compute; reflexivity|]. split; reflexivity. Qed.
(** A class that is filtered out removes the word. *)
Definition filtered_lexicon : text := file (w_lines ++ [s2t "LEXENTRY:" ++ wt ++ s2t "ST" ++ wt ++ s2t "STREET" ++ wt ++ s2t "PUNCT" ++ wt ++ wt])%list [].
Lemma filtered_class : std_standardize ascii_env sample_atof w_addr w_grammar filtered_lexicon en w_filter = Ok None /\
  exists r, std_standardize ascii_env sample_atof w_addr w_grammar w_lexicon en w_filter = Ok (Some r).
Proof. split; [vm_compute; reflexivity|]. eexists. exact w_call. Qed.
(** A better match takes the place of the old one. *)
Definition two_words : text := (s2t "[ADDRESS]
NUMBER WORD TYPE -> HOUSE STREET SUFTYP -> 0.4
NUMBER WORD WORD -> HOUSE STREET CITY -> 0.9
").
Lemma other_answer : exists r r', std_standardize ascii_env sample_atof (s2t "12 main st") two_words w_lexicon en w_filter = Ok (Some r) /\
  std_standardize ascii_env sample_atof (s2t "12 main st") two_words rich_lexicon en w_filter = Ok (Some r') /\ nth_error (sa_fields r) 6 = Some (some "STREET") /\ nth_error (sa_fields r') 6 = Some None /\ nth_error (sa_fields r') 10 = Some (some "SAINT").
Proof. eexists. eexists. split; [vm_compute; reflexivity|]. split; [vm_compute; reflexivity|]. repeat split; reflexivity. Qed.
Lemma words_twice : let ws := [s2t "ST"; s2t "STREET"; s2t "AVE"] in let ws' := [s2t "AVE"; s2t "STREET"; []; s2t "ST"; s2t "STREET"] in
  (forall w, w <> [] -> (In w ws <-> In w ws')) /\ trie_of ws <> trie_of ws' /\ get_regexp (trie_of ws) = s2t "(?:AVE|ST(?:REET)?)".
Proof. split; [intros w N1; cbn [In]; intuition congruence|]. split; [vm_compute; discriminate|vm_compute; reflexivity]. Qed.
