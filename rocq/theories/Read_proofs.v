(** The scan of an address is what Read_spec says. *)
From Coq Require Import String List NArith Bool Lia Arith Sorting.Sorted.
From Verif Require Import Base_model Class_model Uni_model Token_model Regex_model Trie_model Trie_spec Lexicon_model Tokenizer_model
  Lexicon_spec Tokenizer_spec Search_proofs Trie_proofs TrieRegex_proofs TrieWords_proofs TokParse_proofs TokMatch_proofs
  LexMap_proofs TokScan_proofs TokRead_proofs TokPieces_proofs Read_spec.
Import ListNotations.
Local Open Scope N_scope.

(** ** Lists *)
Lemma hd_flat_split : forall A B (f : A -> list B) l y, hd_error (flat_map f l) = Some y ->
  exists l1 a l2, l = l1 ++ a :: l2 /\ (forall z, In z l1 -> f z = []) /\ hd_error (f a) = Some y.
Proof.
  intros A B f. induction l as [|a l IH]; intros y H; [discriminate|]. cbn [flat_map] in H. destruct (f a) as [|z q] eqn:E.
  - destruct (IH y H) as (l1 & a' & l2 & -> & F & Hh). exists (a :: l1), a', l2. split; [reflexivity|]. split; [|exact Hh]. intros z [<-|Hz]; auto.
  - exists [], a, l. split; [reflexivity|]. split; [intros ? []|]. rewrite E. exact H.
Qed.
Lemma app_cases : forall A (p q l1 : list A) a l2, p ++ q = l1 ++ a :: l2 ->
  (exists m, p = l1 ++ a :: m /\ l2 = m ++ q) \/ (exists m, l1 = p ++ m /\ q = m ++ a :: l2).
Proof.
  intros A. induction p as [|b p IH]; intros q l1 a l2 E; simpl in E; [right; exists l1; auto|].
  destruct l1 as [|c l1]; injection E as -> E; [left; exists p; auto|]. destruct (IH _ _ _ _ E) as [(m & -> & ->)|(m & -> & ->)]; [left|right]; exists m; auto.
Qed.
Lemma app_same_length : forall (a b c d : text), a ++ b = c ++ d -> List.length a = List.length c -> a = c /\ b = d.
Proof.
  induction a as [|z a IH]; intros b [|y c] d E L; try discriminate; [auto|]. injection E as -> E. injection L as L. destruct (IH _ _ _ E L) as (-> & ->). auto.
Qed.
Lemma max_run : forall (P : N -> Prop) a b c d, a ++ b = c ++ d -> Forall P a -> Forall P c -> match b with y :: _ => ~ P y | [] => True end ->
  match d with y :: _ => ~ P y | [] => True end -> a = c /\ b = d.
Proof.
  induction a as [|z a IH]; intros b [|y c] d E F G Hb Hd; simpl in E.
  - auto.
  - subst b. apply Forall_inv in G. tauto.
  - subst d. apply Forall_inv in F. tauto.
  - injection E as -> E. inversion F; inversion G; subst. destruct (IH _ _ _ E) as (-> & ->); auto.
Qed.
Lemma spans_sorted : forall p t, StronglySorted (fun a b : text => (List.length b < List.length a)%nat) (spans p t).
Proof.
  intros p. induction t as [|c t IH]; simpl; [repeat constructor|]. destruct (p c); [|repeat constructor].
  assert (G : forall l : list text, StronglySorted (fun a b : text => (List.length b < List.length a)%nat) l ->
    StronglySorted (fun a b : text => (List.length b < List.length a)%nat) (map (cons c) l ++ [[]])).
  { clear. induction l as [|a l IH]; intros H; simpl; [repeat constructor|]. inversion H as [|? ? S F]; subst. constructor; [apply IH; exact S|].
    apply Forall_app. split; [|constructor; [simpl; lia|constructor]]. apply Forall_map. eapply Forall_impl; [|exact F]. intros b; simpl; lia. }
  apply G, IH.
Qed.
Lemma sorted_before : forall (l1 : list text) a l2 b, StronglySorted (fun a b : text => (List.length b < List.length a)%nat) (l1 ++ a :: l2) ->
  In b (l1 ++ a :: l2) -> (List.length a < List.length b)%nat -> In b l1.
Proof.
  induction l1 as [|c l1 IH]; intros a l2 b S H L; simpl in *.
  - exfalso. inversion S as [|? ? S1 F]; subst. destruct H as [->|H]; [lia|]. rewrite Forall_forall in F. specialize (F b H). simpl in F. lia.
  - inversion S as [|? ? S1 F]; subst. destruct H as [->|H]; [left; reflexivity|right]. eapply IH; eassumption.
Qed.

Section R.
Variable u : uni.
Variable x : lexicon.
Hypothesis AT : apart_tables u.
Notation mtT := (mt u true).
(** ** The description leaves no choice *)
Lemma stop_alnum : forall r, stops u r -> match r with c :: _ => ~ alnum u c | [] => True end.
Proof. intros [|c r]; [auto|]. intros H A. apply AT in A. destruct H as [H|H]; tauto. Qed.
Lemma stop_digit : forall r, stops u r -> match r with c :: _ => ~ u_digit u c = true | [] => True end.
Proof. intros r H. apply stop_alnum in H. destruct r; [auto|]. intros D. apply H. right. exact D. Qed.
Lemma number_one : forall t w r w' r', number_at u t w r -> number_at u t w' r' -> w = w' /\ r = r'.
Proof.
  intros t w r w' r' (E & (a & s & b & -> & (_ & Da) & (_ & Db) & Hs) & St) (E' & (a' & s' & b' & -> & (_ & Da') & (_ & Db') & Hs') & St'). rewrite E in E'.
  rewrite <- !app_assoc in E'. cbn [app] in E'. apply (proj2 AT) in Hs. apply (proj2 AT) in Hs'.
  destruct (max_run _ _ _ _ _ E' Da Da') as (-> & E2); [congruence|congruence|]. injection E2 as -> E2.
  destruct (max_run _ _ _ _ _ E2 Db Db') as (-> & ->); [apply stop_digit; exact St|apply stop_digit; exact St'|]. auto.
Qed.
Lemma run_one : forall t w r w' r', run_at u t w r -> run_at u t w' r' -> w = w' /\ r = r'.
Proof.
  intros t w r w' r' (E & _ & F & St) (E' & _ & F' & St'). rewrite E in E'. apply (max_run _ _ _ _ _ E' F F'); apply stop_alnum; assumption.
Qed.
Lemma token_one : forall t w r w' r', token_at u x t w r -> token_at u x t w' r' -> w = w' /\ r = r'.
Proof.
  intros t w r w' r' H H'. destruct H as [w r _ H M|_ H|w r _ N1 N2 H|w r _ N1 N2 N3 H], H' as [w' r' _ H' M'|_ H'|w' r' _ N1' N2' H'|w' r' _ N1' N2' N3' H'];
    try (exfalso; match goal with N : forall w r, ~ word_at _ _ _ w r, Q : word_at _ _ _ _ _ |- _ => exact (N _ _ Q)
      | N : forall w r, ~ number_at _ _ w r, Q : number_at _ _ _ _ |- _ => exact (N _ _ Q) | N : ~ nothing_at _ _ _, Q : nothing_at _ _ _ |- _ => exact (N Q) end); auto.
  - assert (L := M _ _ H'). assert (L' := M' _ _ H). destruct H as (E & _), H' as (E' & _). rewrite E in E'. apply app_same_length; [exact E'|lia].
  - exfalso. destruct H as (_ & (v & L & N & _) & _), H' as (K & _). apply N, K, L.
  - exfalso. destruct H' as (_ & (v & L & N & _) & _), H as (K & _). apply N, K, L.
  - exact (number_one _ _ _ _ _ H H').
  - exact (run_one _ _ _ _ _ H H').
Qed.
Lemma read_one : forall t b w r b' w' r', read_at u x t b w r -> read_at u x t b' w' r' -> b = b' /\ w = w' /\ r = r'.
Proof.
  intros t b w r b' w' r' (E & B & T & M) (E' & B' & T' & M').
  assert (L : List.length b = List.length b').
  { destruct (Nat.lt_trichotomy (List.length b) (List.length b')) as [L|[L|L]]; [destruct (M b' _ E' B' L _ _ T')|exact L|destruct (M' b _ E B L _ _ T)]. }
  assert (E2 := E). rewrite E' in E2. destruct (app_same_length _ _ _ _ E2 (eq_sym L)) as (-> & E3). split; [reflexivity|]. rewrite E3 in T'. exact (token_one _ _ _ _ _ T T').
Qed.
Lemma sep_one : forall w r w' r', w ++ r = w' ++ r' -> separator u w r -> separator u w' r' -> w = w' /\ r = r'.
Proof.
  intros w r w' r' E [(-> & ->)|[(N & F & M)|(c & -> & D & S)]] [(-> & ->)|[(N' & F' & M')|(c' & -> & D' & S')]]; simpl in E.
  - auto.
  - destruct w'; [congruence|discriminate].
  - discriminate.
  - destruct w; [congruence|discriminate].
  - exact (max_run _ _ _ _ _ E F F' M M').
  - destruct w as [|z w]; [congruence|]. injection E as -> E. apply Forall_inv in F. tauto.
  - discriminate.
  - destruct w' as [|z w']; [congruence|]. injection E as -> E. apply Forall_inv in F'. tauto.
  - injection E as -> ->. auto.
Qed.
Lemma readable_not : forall t b w r, read_at u x t b w r -> unreadable u x t -> False.
Proof. intros t b w r (E & B & T & _) N. exact (N b _ w r E B T). Qed.
Lemma piece_eta : forall p q, pc_skip p = pc_skip q -> pc_all p = pc_all q -> pc_tok p = pc_tok q -> pc_sep p = pc_sep q -> p = q.
Proof. intros [? ? ? ?] [? ? ? ?]. simpl. congruence. Qed.
Lemma round_one : forall t p r q s, read_round u x t p r -> read_round u x t q s -> p = q /\ r = s.
Proof.
  intros t p r q s (b & t1 & E & LS & R & S & A & N) (b' & t1' & E' & LS' & R' & S' & A' & N').
  assert (Q : pc_skip p = pc_skip q /\ t1 = t1').
  { rewrite E in E'. destruct (Nat.lt_trichotomy (List.length (pc_skip p)) (List.length (pc_skip q))) as [L|[L|L]].
    - exfalso. assert (X : exists y, pc_skip q = pc_skip p ++ y /\ t1 = y ++ t1').
      { clear - E' L. revert E' L. generalize (pc_skip p) (pc_skip q). induction t as [|c l IH]; intros l' E L.
        - exists l'. auto.
        - destruct l' as [|c' l']; [simpl in L; lia|]. injection E as -> E. destruct (IH l' E) as (y & -> & Hy); [simpl in L; lia|]. exists y. auto. }
      destruct X as (y & Ey & Et). destruct y as [|y0 y]; [rewrite app_nil_r in Ey; rewrite Ey in L; lia|].
      apply (readable_not _ _ _ _ R). rewrite Et. apply (N' (pc_skip p) (y0 :: y) Ey); [discriminate|]. rewrite <- Et. exact LS.
    - apply app_same_length; assumption.
    - exfalso. symmetry in E'. assert (X : exists y, pc_skip p = pc_skip q ++ y /\ t1' = y ++ t1).
      { clear - E' L. revert E' L. generalize (pc_skip q) (pc_skip p). induction t as [|c l IH]; intros l' E L.
        - exists l'. auto.
        - destruct l' as [|c' l']; [simpl in L; lia|]. injection E as -> E. destruct (IH l' E) as (y & -> & Hy); [simpl in L; lia|]. exists y. auto. }
      destruct X as (y & Ey & Et). destruct y as [|y0 y]; [rewrite app_nil_r in Ey; rewrite Ey in L; lia|].
      apply (readable_not _ _ _ _ R'). rewrite Et. apply (N (pc_skip q) (y0 :: y) Ey); [discriminate|]. rewrite <- Et. exact LS'. }
  destruct Q as (Q & <-). destruct (read_one _ _ _ _ _ _ _ R R') as (<- & Ew & Er). destruct (sep_one _ _ _ _ Er S S') as (Es & <-).
  split; [|reflexivity]. apply piece_eta; congruence.
Qed.
Lemma scan_one : forall t ps qs, scanned u x t ps -> scanned u x t qs -> ps = qs.
Proof.
  assert (NO : forall t p r, read_round u x t p r -> ~ forall a t', t = a ++ t' -> line_start a t' -> unreadable u x t').
  { intros t p r (b & t1 & E & LS & R & _) N. exact (readable_not _ _ _ _ R (N _ _ E LS)). }
  intros t ps qs H. revert qs. induction H as [t N|p R|t p r ps Ne R H IH]; intros qs H'; inversion H' as [t' N'|p' R'|t' p' r' ps' Ne' R' H'']; subst;
    try (exfalso; eapply NO; eassumption); try reflexivity; try congruence.
  - f_equal. exact (proj1 (round_one _ _ _ _ _ R R')).
  - destruct (round_one _ _ _ _ _ R R') as (-> & ->). f_equal. apply IH. exact H''.
Qed.

(** ** What the pattern reads *)
Variable g : re.
Hypothesis LP : lex_part u x g.
Hypothesis WF : lex_wf (x_lex x).
Hypothesis NC : no_cap g = true.
Notation part := (RAlt g shape_re).
(** The second group after a state. *)
Definition after (s1 s2 : mst) : list mst :=
  map (fun s3 => mkM (m_prev s3) (m_rest s3) ((2%nat, consumed (mkM (m_prev s2) (m_rest s2) ((1%nat, consumed s1 s2) :: m_caps s2)) s3) :: m_caps s3))
    (mtT sep_re (mkM (m_prev s2) (m_rest s2) ((1%nat, consumed s1 s2) :: m_caps s2))).
Lemma pair_after : forall h s, mtT (pair_re h sep_re) s = flat_map (after s) (mtT h s).
Proof. intros h s. rewrite pair_ways. reflexivity. Qed.
Lemma after_some : forall s1 s2, blank_lines u (m_rest s2) -> stops u (m_rest s2) -> after s1 s2 <> [].
Proof.
  intros s1 s2 BL St K. unfold after in K. apply map_eq_nil in K. revert K. apply sep_ok; cbn [m_rest]; assumption.
Qed.
Lemma after_first : forall s1 s2 s' w, blank_lines u (m_rest s2) -> reads s1 s2 w -> hd_error (after s1 s2) = Some s' ->
  cap 1 s' = w /\ m_rest s2 = cap 2 s' ++ m_rest s' /\ separator u (cap 2 s') (m_rest s') /\ stops u (m_rest s2).
Proof.
  intros s1 s2 s' w BL RW H. assert (CW := consumed_reads _ _ _ RW). unfold after in H. apply hd_map in H. destruct H as (s3 & H & <-).
  set (s4 := mkM (m_prev s2) (m_rest s2) ((1%nat, consumed s1 s2) :: m_caps s2)) in *.
  assert (Mc := mt_caps u true sep_re eq_refl _ _ (hd_in _ _ _ H)).
  assert (St : stops u (m_rest s4)). { apply sep_ok; [exact BL|]. destruct (mtT sep_re s4); [discriminate|discriminate]. }
  apply sep_first in H; [|exact BL]. destruct H as (v & Rv & Hv). assert (Cv := consumed_reads _ _ _ Rv). destruct Rv as (Ev & _).
  unfold cap. cbn [m_caps cap_find Nat.eqb m_rest]. rewrite Cv, Mc. unfold s4. cbn [m_caps cap_find Nat.eqb]. rewrite CW. auto.
Qed.
Lemma like_refl : forall w : text, Forall2 (like u) w w.
Proof. intros w. induction w; constructor; [reflexivity|assumption]. Qed.
Definition some_words : Prop := exists w, listed x w /\ w <> [].
Lemma words_or_not : some_words \/ forall w, listed x w -> w = [].
Proof.
  destruct (existsb (fun w : text => match w with [] => false | _ => true end) (map fst (x_lex x))) eqn:E.
  - left. apply existsb_exists in E. destruct E as (w & H & N). exists w. split; [apply listed_in; assumption|]. destruct w; [discriminate|discriminate].
  - right. intros w H. destruct w as [|c w]; [reflexivity|]. exfalso. apply (listed_in _ _ WF) in H.
    assert (K : existsb (fun w : text => match w with [] => false | _ => true end) (map fst (x_lex x)) = true); [|congruence].
    apply existsb_exists. exists (c :: w). auto.
Qed.
Lemma blank_rest : forall s s2 w, blank_lines u (m_rest s) -> reads s s2 w -> blank_lines u (m_rest s2).
Proof. intros s s2 w BL (E & _). rewrite E in BL. apply blank_lines_suffix in BL. exact BL. Qed.
Lemma reads_some : forall h s s2, In s2 (mtT h s) -> exists w, reads s s2 w.
Proof. intros h s s2 H. exact (mt_reads _ _ _ _ _ H). Qed.
Lemma reads_rest : forall s s2 w w' r, reads s s2 w -> m_rest s = w' ++ r -> m_rest s2 = r -> w = w'.
Proof. intros s s2 w w' r (E & _) E' <-. rewrite E in E'. apply app_inv_tail in E'. exact E'. Qed.
(** A candidate followed by a separator gives a way. *)
Lemma candidate_way : forall h s w r, (exists s2, In s2 (mtT h s) /\ m_rest s2 = r) -> blank_lines u (m_rest s) -> m_rest s = w ++ r -> stops u r ->
  exists s2, In s2 (mtT h s) /\ m_rest s2 = r /\ after s s2 <> [].
Proof.
  intros h s w r (s2 & H2 & E2) BL E St. exists s2. split; [exact H2|]. split; [exact E2|]. apply after_some; rewrite E2; [|exact St].
  rewrite E in BL. apply blank_lines_suffix in BL. exact BL.
Qed.
Lemma shape_token : forall s s2 l1 l2 w, blank_lines u (m_rest s) -> ~ begins_dash u (m_rest s) -> reads s s2 w -> stops u (m_rest s2) ->
  mtT shape_re s = l1 ++ s2 :: l2 -> (forall z, In z l1 -> after s z = []) ->
  (forall w' r', ~ word_at x u (m_rest s) w' r') -> ~ nothing_at x u (m_rest s) -> token_at u x (m_rest s) w (m_rest s2).
Proof.
  intros s s2 l1 l2 w BL ND RW St El Early W0 N0. assert (ER := proj1 RW). unfold shape_re in El. rewrite alt_ways in El.
  assert (I2 : In s2 (mtT shape_re s)). { unfold shape_re. rewrite alt_ways, El. apply in_app_iff. right. left. reflexivity. }
  apply app_cases in El. destruct El as [(m & El & _)|(m & -> & _)].
  - apply ta_number; auto. split; [exact ER|]. split; [|exact St]. apply (lang_reads u _ _ s s2 w (lang_number u)); [|exact RW].
    rewrite El. apply in_app_iff. right. left. reflexivity.
  - assert (NN : forall w' r', ~ number_at u (m_rest s) w' r').
    { intros w' r' (E' & K' & St').
      assert (HN : exists s3, In s3 (mtT number_re s) /\ m_rest s3 = r'). { apply (lang_number u s r'). exists w'. auto. }
      destruct (candidate_way number_re s w' r' HN BL E' St') as (s3 & I3 & E3 & A3). apply A3, Early, in_app_iff. left. exact I3. }
    destruct (shape_reads u s s2 w I2 RW) as [K|(K1 & K2)]; [exfalso; apply (NN w (m_rest s2)); split; auto|].
    apply ta_run; auto. split; auto.
Qed.
Lemma pair_token : forall s s', blank_lines u (m_rest s) -> case_clear u x (m_rest s) -> ~ begins_dash u (m_rest s) ->
  hd_error (mtT (pair_re part sep_re) s) = Some s' ->
  token_at u x (m_rest s) (cap 1 s') (cap 2 s' ++ m_rest s') /\ separator u (cap 2 s') (m_rest s').
Proof.
  intros s s' BL CE ND H. rewrite pair_after in H. rewrite alt_ways in H. apply hd_flat_split in H. destruct H as (l1 & s2 & l2 & El & Early & H).
  assert (I2 : In s2 (mtT g s ++ mtT shape_re s)). { rewrite El. apply in_app_iff. right. left. reflexivity. }
  assert (RW : exists w, reads s s2 w). { apply in_app_iff in I2. destruct I2 as [I2|I2]; exact (reads_some _ _ _ I2). }
  destruct RW as (w & RW). destruct (after_first s s2 s' w (blank_rest _ _ _ BL RW) RW H) as (C1 & E2 & Sp & St). split; [|exact Sp].
  rewrite C1, <- E2. clear C1 Sp H s' E2. assert (ER := proj1 RW). destruct LP as (LL & LX). apply app_cases in El. destruct El as [(m & El & _)|(m & -> & El)].
  - destruct words_or_not as [SW|NW].
    + destruct (LX s SW CE) as (hs & M & SS & HI). rewrite M in El.
      apply map_eq_app in El. destruct El as (h1 & h2 & Eh & E1 & E2). destruct h2 as [|w0 h2]; [discriminate|].
      cbn [map] in E2. injection E2 as E2 _.
      assert (Hw0 : In w0 hs). { rewrite Eh. apply in_app_iff. right. left. reflexivity. }
      apply HI in Hw0. destruct Hw0 as (L0 & r0 & R0).
      assert (w = w0) as ->. { apply (reads_rest s s2 w w0 r0 RW R0). rewrite <- E2. apply adv_rest. exact R0. }
      apply ta_word; [exact ND|split; [exact ER|split; [exact L0|exact St]]|].
      intros w' r' (E' & L' & St'). destruct (Nat.le_gt_cases (List.length w') (List.length w0)) as [Q|Q]; [exact Q|exfalso].
      assert (Hw' : In w' hs). { apply HI. split; [exact L'|exists r'; exact E']. }
      rewrite Eh in Hw', SS. assert (I1 := sorted_before _ _ _ _ SS Hw' Q).
      assert (I2' : In (adv s w') l1). { rewrite <- E1. apply in_map. exact I1. }
      apply Early in I2'. revert I2'. apply after_some; rewrite (adv_rest s w' r' E'); [|exact St']. rewrite E' in BL. apply blank_lines_suffix in BL. exact BL.
    + assert (IG : In s2 (mtT g s)). { rewrite El. apply in_app_iff. right. left. reflexivity. }
      destruct (lang_reads u _ _ _ _ _ LL IG RW) as [(v & Lv & Nv & _)|(-> & _)]; [exfalso; apply Nv, NW, Lv|].
      cbn [app] in ER. rewrite <- ER in St |- *. apply ta_nothing; [exact ND|split; assumption].
  - assert (W0 : forall w' r', ~ word_at x u (m_rest s) w' r').
    { intros w' r' (E' & L' & St'). destruct (candidate_way g s w' r') as (s3 & I3 & _ & A3); [|exact BL|exact E'|exact St'|].
      - apply LL. exists w'. split; [exact E'|]. left. exact L'.
      - apply A3, Early, in_app_iff. left. exact I3. }
    assert (N0 : ~ nothing_at x u (m_rest s)).
    { intros (K & St'). destruct (candidate_way g s [] (m_rest s)) as (s3 & I3 & _ & A3); [|exact BL|reflexivity|exact St'|].
      - apply LL. exists []. split; [reflexivity|]. right. auto.
      - apply A3, Early, in_app_iff. left. exact I3. }
    apply (shape_token s s2 m l2 w BL ND RW St El); auto. intros z Hz. apply Early, in_app_iff. right. exact Hz.
Qed.
Lemma token_pair : forall s w r, blank_lines u (m_rest s) -> token_at u x (m_rest s) w r -> mtT (pair_re part sep_re) s <> [].
Proof.
  intros s w r BL H K. rewrite pair_after in K.
  assert (Q : token_text u x w /\ m_rest s = w ++ r /\ stops u r).
  { destruct H as [w r _ (E & L & St) _|_ (N & St)|w r _ _ _ (E & N & St)|w r _ _ _ _ (E & N & F & St)]; unfold token_text.
    - split; [left; exact L|auto].
    - split; [right; right; right; auto|auto].
    - auto.
    - split; [right; right; left; auto|auto]. }
  destruct Q as (T & E & St). destruct (candidate_way part s w r (part_has u x g s w r LP T E) BL E St) as (s2 & I2 & _ & A2).
  destruct (after s s2) as [|y ys] eqn:Y; [congruence|]. assert (Z : In y []); [|destruct Z]. rewrite <- K. apply in_flat_map. exists s2. rewrite Y. split; [exact I2|left; reflexivity].
Qed.
Lemma token_no_dash : forall t w r, token_at u x t w r -> ~ begins_dash u t.
Proof. intros t w r H. destruct H; assumption. Qed.
(** The whole pattern at the beginning of a line. *)
Definition ways (s : mst) (b : text) : list mst :=
  match skipn (List.length b) (m_rest s) with
  | c :: _ => if dashp u c then [] else mtT (pair_re part sep_re) (adv s b)
  | [] => mtT (pair_re part sep_re) (adv s b)
  end.
Lemma ways_eq : forall s b t, m_rest s = b ++ t -> (begins_dash u t /\ ways s b = []) \/ (~ begins_dash u t /\ ways s b = mtT (pair_re part sep_re) (adv s b)).
Proof.
  intros s b t E. unfold ways. rewrite E, skipn_app_len. destruct t as [|c t]; [right; auto|]. cbn [begins_dash].
  destruct (dashp u c) eqn:D; [left|right]; (split; [|reflexivity]); [apply dashp_iff; exact D|]. intros K. apply dashp_iff in K. congruence.
Qed.
Lemma case_suffix : forall a b, case_clear u x (a ++ b) -> case_clear u x b.
Proof. intros a b H w w' c c' d L L' C C' D. apply (H w w' c c' d L L' C C'). apply in_app_iff. right. exact D. Qed.
Lemma ways_token : forall s b t w r, blank_lines u (m_rest s) -> m_rest s = b ++ t -> token_at u x t w r -> ways s b <> [].
Proof.
  intros s b t w r BL E T. destruct (ways_eq s b t E) as [(D & _)|(_ & ->)]; [destruct (token_no_dash _ _ _ T D)|].
  apply (token_pair _ w r); rewrite (adv_rest s b t E); [|exact T]. rewrite E in BL. apply blank_lines_suffix in BL. exact BL.
Qed.
Lemma line_first : forall s s', at_bol s = true -> blank_lines u (m_rest s) -> case_clear u x (m_rest s) -> hd_error (mtT (token_re part) s) = Some s' ->
  exists b, read_at u x (m_rest s) b (cap 1 s') (cap 2 s' ++ m_rest s') /\ separator u (cap 2 s') (m_rest s').
Proof.
  intros s s' B BL CE H. rewrite token_ways, B in H. change (hd_error (flat_map (ways s) (spans (spp u) (m_rest s))) = Some s') in H.
  apply hd_flat_split in H. destruct H as (l1 & b & l2 & El & Early & H).
  assert (Hb : In b (spans (spp u) (m_rest s))). { rewrite El. apply in_app_iff. right. left. reflexivity. }
  apply spans_in in Hb. destruct Hb as (Fb & t & Et). destruct (ways_eq s b t Et) as [(_ & Q)|(ND & Q)]; rewrite Q in H; [discriminate|].
  assert (ER := adv_rest s b t Et). assert (BL2 := BL). rewrite Et in BL2. apply blank_lines_suffix in BL2. assert (CE2 := CE). rewrite Et in CE2. apply case_suffix in CE2.
  destruct (pair_token (adv s b) s') as (T & Sp); rewrite ?ER; auto. rewrite ER in T. exists b. split; [|exact Sp].
  assert (E2 : t = cap 1 s' ++ cap 2 s' ++ m_rest s').
  { destruct T as [w r _ (E & _) _|_ _|w r _ _ _ (E & _)|w r _ _ _ _ (E & _)]; auto. }
  split; [rewrite <- E2; exact Et|]. split; [apply blanks_spp; exact Fb|]. split; [rewrite <- E2; exact T|].
  intros b' t' E' Bb' L w' r' T'. assert (I' : In b' (spans (spp u) (m_rest s))). { apply spans_in. split; [apply blanks_spp; exact Bb'|exists t'; exact E']. }
  assert (SS := spans_sorted (spp u) (m_rest s)). rewrite El in I', SS. apply (sorted_before _ _ _ _ SS I') in L. apply Early in L. revert L. exact (ways_token s b' t' w' r' BL E' T').
Qed.
Lemma line_none : forall s, at_bol s = true -> blank_lines u (m_rest s) -> mtT (token_re part) s = [] -> unreadable u x (m_rest s).
Proof.
  intros s B BL H b t w r E Bb T. rewrite token_ways, B in H. change (flat_map (ways s) (spans (spp u) (m_rest s)) = []) in H.
  apply (ways_token s b t w r BL E T). destruct (ways s b) as [|y ys] eqn:Y; [reflexivity|]. assert (Z : In y []); [|destruct Z]. rewrite <- H. apply in_flat_map. exists b.
  split; [apply spans_in; split; [apply blanks_spp; exact Bb|exists t; exact E]|rewrite Y; left; reflexivity].
Qed.
Lemma bol_line : forall t0 a t, at_bol (mkM (m_prev (adv (mkM None t0 []) a)) t []) = true <-> line_start a t.
Proof.
  intros t0 a t. unfold line_start, at_bol, adv. cbn [m_prev m_rest]. destruct a as [|c a] using rev_ind; [cbn [rev]; tauto|]. clear IHa. rewrite rev_app_distr. cbn [rev app].
  rewrite andb_true_iff, negb_true_iff, sep_line. split.
  - intros (L & Q). right. exists a, c. split; [reflexivity|]. split; [exact L|]. intros (-> & K). destruct t as [|d t]; [discriminate|]. injection K as ->. discriminate.
  - intros [K|(a' & c' & E & L & Q)]; [destruct a; discriminate|]. apply app_inj_tail in E. destruct E as (-> & ->). split; [exact L|].
    destruct (c' =? 13) eqn:C; [|reflexivity]. destruct t as [|d t]; [reflexivity|]. cbn [andb]. destruct (d =? 10) eqn:D; [|reflexivity]. apply N.eqb_eq in C, D. subst. exfalso. apply Q. auto.
Qed.
Lemma search_read : forall t a s, blank_lines u t -> case_clear u x t -> regex_search u true (token_re part) t = Some (a, s) ->
  read_round u x t (mkPiece a (skipn (List.length a) (firstn (List.length t - List.length (m_rest s)) t)) (cap 1 s) (cap 2 s)) (m_rest s).
Proof.
  intros t a s BL CE H. destruct (search_spec _ _ _ _ _ _ _ H) as (t' & Et & Hh & Hn).
  assert (BL' : blank_lines u t'). { rewrite Et in BL. apply blank_lines_suffix in BL. exact BL. }
  assert (CE' : case_clear u x t'). { rewrite Et in CE. apply case_suffix in CE. exact CE. }
  set (s0 := mkM (m_prev (adv (mkM None t []) a)) t' []) in *.
  assert (B : at_bol s0 = true). { rewrite token_ways in Hh. destruct (at_bol s0); [reflexivity|discriminate]. }
  destruct (line_first s0 s B BL' CE' Hh) as (b & R & Sp). change (m_rest s0) with t' in R. exists b, t'. cbn [pc_skip pc_all pc_tok pc_sep].
  split; [exact Et|]. split; [apply (bol_line t a t'); exact B|]. split; [exact R|]. split; [exact Sp|]. split.
  - destruct R as (E' & _). rewrite Et, E'.
    replace (a ++ b ++ cap 1 s ++ cap 2 s ++ m_rest s) with (a ++ (b ++ cap 1 s ++ cap 2 s) ++ m_rest s) by (rewrite <- !app_assoc; reflexivity). apply piece_all.
  - intros a1 a2 Ea Na LS. specialize (Hn a1 a2 Ea Na).
    apply (bol_line t a1 (a2 ++ t')) in LS. assert (U := line_none _ LS). cbn [m_rest] in U. apply U; [|exact Hn]. rewrite Et, Ea, <- app_assoc in BL. apply blank_lines_suffix in BL. exact BL.
Qed.
Lemma search_from_none : forall ic r t prev, search_from u ic r prev t = None -> forall a t', t = a ++ t' -> mt u ic r (mkM (m_prev (adv (mkM prev t []) a)) t' []) = [].
Proof.
  intros ic r. induction t as [|c t IH]; intros prev H a t' E; cbn [search_from] in H.
  - symmetry in E. apply app_eq_nil in E. destruct E as (-> & ->). unfold adv. cbn [m_prev rev]. destruct (mt u ic r _); [reflexivity|discriminate].
  - destruct (mt u ic r (mkM prev (c :: t) [])) as [|y l] eqn:Y; [|discriminate]. destruct (search_from u ic r (Some c) t) as [(a' & s')|] eqn:F; [discriminate|].
    destruct a as [|d a]; [simpl in E; subst t'; unfold adv; cbn [m_prev rev]; exact Y|]. injection E as -> ->. rewrite <- (IH _ F a t' eq_refl). do 2 f_equal.
    unfold adv. cbn [m_prev rev]. destruct (rev a) as [|e l]; reflexivity.
Qed.
Lemma search_stop : forall t, blank_lines u t -> regex_search u true (token_re part) t = None -> forall a t', t = a ++ t' -> line_start a t' -> unreadable u x t'.
Proof.
  intros t BL H a t' E LS. assert (M := search_from_none _ _ _ _ H a t' E). apply (bol_line t a t') in LS. assert (U := line_none _ LS). cbn [m_rest] in U. apply U; [|exact M].
  rewrite E in BL. apply blank_lines_suffix in BL. exact BL.
Qed.
Lemma round_parts : forall t p rest, read_round u x t p rest -> t = taken p ++ rest.
Proof. intros t p rest (b & t' & E & _ & (E' & _) & _ & A & _). unfold taken. rewrite E, E', A, <- !app_assoc. reflexivity. Qed.
Lemma scan_scanned : forall f t ps, blank_lines u t -> case_clear u x t -> scan f u (token_re part) t = Some ps -> scanned u x t ps.
Proof.
  induction f as [|f IH]; intros t ps BL CE H; [discriminate|]. cbn [scan] in H. destruct (regex_search u true (token_re part) t) as [(a & s)|] eqn:E.
  - assert (R := search_read t a s BL CE E). remember (mkPiece _ _ _ _) as p eqn:Q in *. clear Q. assert (Et := round_parts _ _ _ R). destruct t as [|c t].
    + injection H as <-. symmetry in Et. apply app_eq_nil in Et. destruct Et as (_ & Et). rewrite Et in R. apply sc_last. exact R.
    + destruct (scan f u (token_re part) (m_rest s)) as [qs|] eqn:F; [|discriminate]. injection H as <-.
      apply (sc_more _ _ _ _ (m_rest s)); [discriminate|exact R|]. rewrite Et in BL, CE. apply blank_lines_suffix in BL. apply case_suffix in CE. apply IH; assumption.
  - injection H as <-. apply sc_stop. exact (search_stop t BL E).
Qed.
End R.

(** The pieces of an address are what the description says, and nothing else is. *)
Lemma pieces_scanned : forall e x str ps, built x -> simple_words x -> apart_tables (e_uni e) ->
  let t := e_upper e (x_locale x) (e_nfc e str) in blank_lines (e_uni e) t -> case_clear (e_uni e) x t ->
  (get_pieces e x str = Ok ps <-> scanned (e_uni e) x t ps).
Proof.
  intros e x str ps B SW AT t BL CE. destruct (simple_pattern (e_uni e) x B SW) as (g & NC & K & L). assert (WF := proj1 (built_ok x B)).
  assert (Go : forall qs, get_pieces e x str = Ok qs -> scanned (e_uni e) x t qs).
  { intros qs H. unfold get_pieces in H. rewrite K in H. change (search_text e x str) with t in H. destruct (scan _ _ _ _) as [qs'|] eqn:E; [|discriminate]. injection H as ->.
    exact (scan_scanned _ _ g L WF _ _ _ BL CE E). }
  split; [apply Go|]. intros H. destruct (pieces_end e x str B BL) as [Q|(qs & E & _)]; [destruct (simple_no_throw e x str B SW Q)|].
  rewrite E. f_equal. exact (scan_one _ _ AT t qs ps (Go qs E) H).
Qed.
