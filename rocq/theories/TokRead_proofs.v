(** Lexicons in the token pattern; what can be read. *)
From Coq Require Import String List NArith Bool Lia Arith Sorting.Sorted.
From Verif Require Import Base_model Class_model Uni_model Token_model Regex_model Trie_model Trie_spec Lexicon_model Tokenizer_model
  Lexicon_spec Tokenizer_spec Search_proofs Trie_proofs TrieRegex_proofs TrieWords_proofs TrieLang_proofs TokParse_proofs Match_proofs TokMatch_proofs
  LexMap_proofs TokScan_proofs.
Import ListNotations.
Local Open Scope N_scope.

Lemma token_re_inj : forall g h, token_re g = token_re h -> g = h.
Proof. intros g h H. unfold token_re, pair_re in H. injection H as H. exact H. Qed.
Lemma lex_pattern : forall x, built x -> parse_re (token_pattern (fst (lex_regex x))) = None \/
  exists g, no_cap g = true /\ parse_re (token_pattern (fst (lex_regex x))) = Some (token_re g).
Proof.
  intros x H. apply built_ok in H. destruct H as (_ & C). destruct (patterns_of x C) as (-> & _ & _). apply token_parse.
Qed.
Lemma empty_trie : forall ws, (forall w, In w ws -> w = []) -> trie_of ws = new_trie false.
Proof.
  intros ws H. unfold trie_of. induction ws as [|w ws IH]; [reflexivity|]. simpl. rewrite (H w) by (left; reflexivity). rewrite add_word_nil.
  apply IH. intros v Hv. apply H. right. exact Hv.
Qed.
Lemma parses_none : parses (get_regexp (new_trie false)) [(REmpty, true)].
Proof. change (get_regexp (new_trie false)) with (s2t "(?:" ++ join (s2t "|") [[]] ++ s2t ")"). apply (parses_group [[]] [[]]); [constructor; [apply parses_nil|constructor]|discriminate]. Qed.

(** The part of the pattern that stands for the lexicon. *)
Definition lex_part (u : uni) (x : lexicon) (g : re) : Prop :=
  rlang u true g (fun w => word_like u x w \/ (w = [] /\ forall v, listed x v -> v = [])) /\
  (forall s, (exists w, listed x w /\ w <> []) -> case_clear u x (m_rest s) ->
     exists ls, mt u true g s = map (adv s) ls /\ StronglySorted (fun a b : text => (List.length b < List.length a)%nat) ls /\
       forall w, In w ls <-> word_like u x w /\ prefix_of w (m_rest s)).
Lemma forall2_len : forall {A B} {R : A -> B -> Prop} {l m}, Forall2 R l m -> List.length l = List.length m.
Proof. intros A B R l m H. induction H; simpl; auto. Qed.
(** The text as written in the lexicon. *)
Lemma clear_text_of : forall u x t, lex_wf (x_lex x) -> case_clear u x t -> exists k, agrees u true (fun c => exists w, listed x w /\ In c w) k t.
Proof.
  intros u x t W. induction t as [|d t IH]; intros C; [exists []; constructor|].
  destruct IH as (k & IH). { intros w w' c c' e H1 H2 H3 H4 H5. apply (C w w' c c' e H1 H2 H3 H4). right. exact H5. }
  set (a := match find (fun c => ceq u true c d) (concat (map fst (x_lex x))) with Some c => c | None => d end).
  exists (a :: k). constructor; [|exact IH]. intros c (w & Lw & Hc).
  assert (IC : In c (concat (map fst (x_lex x)))). { apply in_concat. exists w. split; [apply listed_in; assumption|exact Hc]. }
  unfold a. destruct (find _ _) as [a'|] eqn:F.
  - apply find_some in F. destruct F as (Ia & Qa). apply in_concat in Ia. destruct Ia as (w' & Lw' & Ha). apply (listed_in _ _ W) in Lw'.
    destruct (a' =? c) eqn:Q; [apply N.eqb_eq in Q; subst; exact Qa|]. destruct (ceq u true c d) eqn:Qc; [|reflexivity]. apply N.eqb_neq in Q. exfalso. apply Q.
    apply (C w' w a' c d Lw' Lw Ha Hc (or_introl eq_refl)); apply ceq_like; assumption.
  - assert (Z := find_none _ _ F c IC). cbv beta in Z. rewrite Z. symmetry. apply N.eqb_neq. intros <-. unfold ceq in Z. rewrite N.eqb_refl in Z. discriminate.
Qed.
Lemma agrees_weaken : forall u ic (P Q : N -> Prop) k t, (forall c, P c -> Q c) -> agrees u ic Q k t -> agrees u ic P k t.
Proof. intros u ic P Q k t H F. induction F as [|a d k t Hd F IH]; constructor; [intros c Hc; apply Hd, H, Hc|exact IH]. Qed.
Lemma agrees_words : forall u x k t w, (forall c, In c w -> exists v, listed x v /\ In c v) -> agrees u true (fun c => exists w, listed x w /\ In c w) k t ->
  (prefix_of w k <-> Forall2 (like u) w (firstn (List.length w) t)).
Proof.
  intros u x k t w. revert k t. induction w as [|c w IH]; intros k t H F; [split; [constructor|intros _; exists k; reflexivity]|].
  assert (Hc := H c (or_introl eq_refl)). inversion F as [|a d k' t' Ha F']; subst; cbn [List.length firstn].
  - split; [intros (r & K); discriminate|intros K; inversion K].
  - specialize (IH k' t' ltac:(intros e He; apply H; right; exact He) F'). split.
    + intros (r & K). injection K as -> K. constructor; [apply ceq_like; rewrite (Ha c Hc); apply N.eqb_refl|]. apply IH. exists r. exact K.
    + intros K. inversion K as [|? ? ? ? L K']; subst. apply IH in K'. destruct K' as (r & ->). exists r. apply ceq_like in L. rewrite (Ha c Hc) in L. apply N.eqb_eq in L. subst. reflexivity.
Qed.
Lemma hits_like : forall u x s, lex_wf (x_lex x) -> forall k, agrees u true (fun c => exists w, listed x w /\ In c w) k (m_rest s) ->
  exists ls, map (over s) (hits (trie_of (map fst (x_lex x))) k) = map (adv s) ls /\ StronglySorted (fun a b : text => (List.length b < List.length a)%nat) ls /\
    forall w, In w ls <-> word_like u x w /\ prefix_of w (m_rest s).
Proof.
  intros u x s W k A. set (T := trie_of (map fst (x_lex x))). exists (map (fun w : text => firstn (List.length w) (m_rest s)) (hits T k)).
  split; [rewrite map_map; reflexivity|].
  assert (LK : List.length k = List.length (m_rest s)) by (exact (forall2_len A)).
  assert (LW : forall w, In w (hits T k) -> List.length (firstn (List.length w) (m_rest s)) = List.length w).
  { intros w Hw. apply hits_words in Hw. destruct Hw as (_ & _ & r & E). apply firstn_length_le. rewrite <- LK, E, app_length. lia. }
  split.
  - assert (SS := hits_sorted k T). induction SS as [|w l SS IH F]; [constructor|]. cbn [map]. constructor; [apply IH; intros v Hv; apply LW; right; exact Hv|].
    rewrite Forall_forall in *. intros v Hv. apply in_map_iff in Hv. destruct Hv as (v' & <- & Hv). rewrite !LW by (simpl; auto). apply F. exact Hv.
  - intros w. rewrite in_map_iff. split.
    + intros (v & <- & Hv). assert (Lv := LW v Hv). apply hits_words in Hv. destruct Hv as (Nv & Iv & Pv). apply (listed_in _ _ W) in Iv. split.
      * exists v. split; [exact Iv|]. split; [exact Nv|]. apply (agrees_words u x k); [|exact A|exact Pv]. intros c Hc. exists v. auto.
      * exists (skipn (List.length v) (m_rest s)). symmetry. apply firstn_skipn.
    + intros ((v & Lv & Nv & F) & r & E). assert (EL := forall2_len F).
      assert (EF : firstn (List.length v) (m_rest s) = w). { rewrite E, EL, firstn_app, Nat.sub_diag, firstn_all. cbn [firstn]. apply app_nil_r. }
      exists v. split; [exact EF|]. apply hits_words. split; [exact Nv|]. split; [apply listed_in; assumption|]. apply (agrees_words u x k (m_rest s) v); [|exact A|rewrite EF; exact F].
      intros c Hc. exists v. auto.
Qed.
Lemma simple_pattern : forall u x, built x -> simple_words x ->
  exists g, no_cap g = true /\ parse_re (token_pattern (fst (lex_regex x))) = Some (token_re (RAlt g shape_re)) /\ lex_part u x g.
Proof.
  intros u x B S. apply built_ok in B. destruct B as (W & C). destruct (patterns_of x C) as (E & _ & _).
  assert (NC : forall g, parse_re (token_pattern (fst (lex_regex x))) = Some (token_re (RAlt g shape_re)) -> no_cap g = true).
  { intros g Hg. rewrite E in Hg. destruct (token_parse (trie_of (map fst (x_lex x)))) as [K|(h & Hh & K)]; unfold make_regex in Hg; rewrite K in Hg; [discriminate|].
    injection Hg as Hg. subst h. cbn [no_cap] in Hh. apply andb_true_iff in Hh. apply Hh. }
  set (ws := map fst (x_lex x)) in *.
  assert (AW : all_words plain_char ws). { intros w Hw c Hc. apply (S w c); [apply listed_in; assumption|exact Hc]. }
  destruct (existsb (fun w : text => match w with [] => false | _ => true end) ws) eqn:Ex.
  - assert (Some_word : exists w, In w ws /\ w <> []).
    { apply existsb_exists in Ex. destruct Ex as (w & Hw & Nw). exists w. split; [exact Hw|]. destruct w; [discriminate|discriminate]. }
    set (P := fun c => plain_char c /\ exists w, listed x w /\ In c w).
    assert (AP : all_words P ws). { intros w Hw c Hc. split; [apply (AW w); assumption|]. exists w. split; [apply listed_in; assumption|exact Hc]. }
    assert (PP : forall c, P c -> plain_char c) by (intros c (Q & _); exact Q).
    destruct (words_pattern u true P ws PP AP Some_word) as (l & Hp & Hm).
    destruct (words_lang u true P ws PP AP Some_word) as (l2 & Hp2 & Hl).
    assert (EL : seq_re l = seq_re l2). { apply parses_top in Hp. apply parses_top in Hp2. congruence. }
    assert (PR : parse_re (token_pattern (fst (lex_regex x))) = Some (token_re (RAlt (seq_re l) shape_re))).
    { rewrite E. apply token_parse_words. exact Hp. }
    exists (seq_re l). split; [apply NC; exact PR|]. split; [exact PR|]. split.
    + rewrite EL. eapply lang_weaken; [|exact Hl]. intros t. unfold word_like, same_text. split.
      * intros (w & Nw & Hw & F). left. exists w. split; [apply listed_in; assumption|]. split; [exact Nw|].
        clear - F. induction F as [|c d a b Hcd F IH]; constructor; [apply ceq_like; exact Hcd|exact IH].
      * intros [(w & Hw & Nw & F)|(_ & K)].
        -- exists w. split; [exact Nw|]. split; [apply listed_in; assumption|].
           clear - F. induction F as [|c d a b Hcd F IH]; constructor; [apply ceq_like; exact Hcd|exact IH].
        -- exfalso. destruct Some_word as (w & Hw & Nw). apply Nw, K, listed_in; assumption.
    + intros s _ CE. destruct (clear_text_of u x _ W CE) as (k & A). destruct (hits_like u x s W k A) as (ls & H1 & H2). exists ls. split; [|exact H2].
      rewrite <- H1. apply Hm. apply (agrees_weaken _ _ _ _ _ _ (fun c (Q : P c) => proj2 Q) A).
  - assert (All : forall w, In w ws -> w = []).
    { intros w Hw. destruct w as [|c w]; [reflexivity|]. exfalso. assert (K : existsb (fun w : text => match w with [] => false | _ => true end) ws = true).
      { apply existsb_exists. exists (c :: w). auto. } congruence. }
    assert (PR : parse_re (token_pattern (fst (lex_regex x))) = Some (token_re (RAlt (seq_re [(REmpty, true)]) shape_re))).
    { rewrite E. unfold make_regex. fold ws. rewrite (empty_trie ws All). apply token_parse_words. apply parses_none. }
    exists (seq_re [(REmpty, true)]). split; [apply NC; exact PR|]. split; [exact PR|]. split.
    + apply lang_one. eapply lang_weaken; [|apply lang_empty]. intros t. split.
      * intros ->. right. split; [reflexivity|]. intros v Hv. apply All. apply listed_in; assumption.
      * intros [(w & Hw & Nw & _)|(-> & _)]; [|reflexivity]. exfalso. apply Nw, All, listed_in; assumption.
    + intros s (w & Hw & Nw). exfalso. apply Nw, All, listed_in; assumption.
Qed.

Section R.
Variable u : uni.
Notation mtT := (mt u true).
(** The shapes. *)
Lemma alt_ways : forall a b s, mtT (RAlt a b) s = mtT a s ++ mtT b s.
Proof. reflexivity. Qed.
Lemma set_iff : forall l c, set_pred u true false l c = true <-> exists i, In i l /\ item_has u true c i = true.
Proof. intros l c. unfold set_pred. rewrite xorb_false_l. apply existsb_exists. Qed.
Lemma alnum_iff : forall c, set_pred u true false [IAlpha; IDigit] c = true <-> alnum u c.
Proof.
  intros c. rewrite set_iff. unfold alnum. split.
  - intros (i & [<-|[<-|[]]] & H); auto.
  - intros [H|H]; [exists IAlpha|exists IDigit]; simpl; auto.
Qed.
Lemma digit_iff : forall c, set_pred u true false [IDigit] c = true <-> u_digit u c = true.
Proof. intros c. rewrite set_iff. split; [intros (i & [<-|[]] & H); exact H|intros H; exists IDigit; simpl; auto]. Qed.
Lemma lang_digits : rlang u true digit_re (digits u).
Proof.
  eapply lang_weaken; [|apply lang_plus_set]. intros t. unfold digits, all_of. cbv beta.
  split; intros (N & F); (split; [exact N|]); (eapply Forall_impl; [|exact F]); intros c; apply digit_iff.
Qed.
Lemma lang_alnum : rlang u true (RCat alnum_re REmpty) (fun t => t <> [] /\ Forall (alnum u) t).
Proof.
  intros s b. rewrite cat_empty. revert s b. change (rlang u true alnum_re (fun t => t <> [] /\ Forall (alnum u) t)).
  eapply lang_weaken; [|apply lang_plus_set]. intros t. cbv beta.
  split; intros (N & F); (split; [exact N|]); (eapply Forall_impl; [|exact F]); intros c; apply alnum_iff.
Qed.
Lemma lang_number : rlang u true number_re (number_like u).
Proof.
  unfold number_re. eapply lang_weaken; [|apply lang_cat; [apply lang_digits|apply lang_cat; [apply lang_set|apply lang_cat; [apply lang_digits|apply lang_empty]]]].
  intros t. unfold number_like. split.
  - intros (a & y & -> & Ha & s & z & -> & (c & -> & Hc) & b & e & -> & Hb & ->). exists a, c, b. rewrite app_nil_r. split; [reflexivity|].
    split; [exact Ha|]. split; [exact Hb|]. apply set_iff in Hc. destruct Hc as (i & [<-|[<-|[<-|[]]]] & Hi); simpl in Hi; apply ceq_like in Hi; auto.
  - intros (a & c & b & -> & Ha & Hb & Hc). exists a, (c :: b). split; [reflexivity|]. split; [exact Ha|]. exists [c], b. split; [reflexivity|].
    split; [|exists b, []; rewrite app_nil_r; auto]. exists c. split; [reflexivity|]. apply set_iff.
    destruct Hc as [Hc|[Hc|Hc]]; apply ceq_like in Hc.
    + exists (IChr 47). split; [simpl; tauto|exact Hc].
    + exists (IChr 44). split; [simpl; tauto|exact Hc].
    + exists (IChr 46). split; [simpl; tauto|exact Hc].
Qed.
Definition shape_text (t : text) : Prop := number_like u t \/ (t <> [] /\ Forall (alnum u) t).
Lemma shape_has : forall s w r, shape_text w -> m_rest s = w ++ r -> exists s2, In s2 (mtT shape_re s) /\ m_rest s2 = r.
Proof.
  intros s w r [H|H] E.
  - destruct (proj2 (lang_number s r) (ex_intro _ w (conj E H))) as (s2 & H2 & E2). exists s2. split; [|exact E2].
    unfold shape_re. rewrite !alt_ways. apply in_app_iff. left. exact H2.
  - destruct (proj2 (lang_alnum s r) (ex_intro _ w (conj E H))) as (s2 & H2 & E2). exists s2. split; [|exact E2].
    unfold shape_re. rewrite !alt_ways. do 3 (apply in_app_iff; right). apply in_app_iff. left. exact H2.
Qed.
Lemma app_inv_tail_text : forall (a b r : text), a ++ r = b ++ r -> a = b.
Proof. intros a b r H. apply app_inv_tail in H. exact H. Qed.
Lemma lang_reads : forall g P s s2 w, rlang u true g P -> In s2 (mtT g s) -> reads s s2 w -> P w.
Proof.
  intros g P s s2 w L H (E & _). destruct (proj1 (L s (m_rest s2)) (ex_intro _ s2 (conj H eq_refl))) as (a & Ea & Pa).
  rewrite E in Ea. apply app_inv_tail in Ea. subst a. exact Pa.
Qed.
Lemma alpha_text : forall s s2 w, In s2 (mtT alpha_re s) -> reads s s2 w -> w <> [] /\ Forall (alnum u) w.
Proof.
  intros s s2 w H R. unfold alpha_re in H. change (In s2 (flat_map (mtT (RCat (RPlus (RSet false [IAlpha])) (RCat RWordEnd REmpty))) (guard (at_word_start u s) s))) in H.
  assert (H' : In s2 (mtT (RPlus (RSet false [IAlpha])) s)).
  { apply in_flat_map in H. destruct H as (s0 & H0 & H). apply guard_in in H0. destruct H0 as (_ & ->).
    apply in_flat_map in H. destruct H as (s3 & H3 & H). apply in_flat_map in H. destruct H as (s4 & H4 & H5). destruct H5 as [<-|[]].
    apply guard_in in H4. destruct H4 as (_ & ->). exact H3. }
  assert (K := lang_reads _ _ _ _ _ (lang_plus_set u true false [IAlpha]) H' R). cbv beta in K. destruct K as (N & F). split; [exact N|].
  eapply Forall_impl; [|exact F]. intros c Hc. apply set_iff in Hc. destruct Hc as (i & [<-|[]] & Hi). left. exact Hi.
Qed.
Lemma shape_reads : forall s s2 w, In s2 (mtT shape_re s) -> reads s s2 w -> shape_text w.
Proof.
  intros s s2 w H R. unfold shape_re in H. rewrite !alt_ways, !in_app_iff in H. destruct H as [H|[H|[H|[H|H]]]].
  - left. exact (lang_reads _ _ _ _ _ lang_number H R).
  - right. rewrite cat_empty in H. destruct (lang_reads _ _ _ _ _ lang_digits H R) as (N & F). split; [exact N|].
    eapply Forall_impl; [|exact F]. intros c Hc. right. exact Hc.
  - right. exact (alpha_text _ _ _ H R).
  - right. exact (lang_reads _ _ _ _ _ lang_alnum H R).
  - right. exact (lang_reads _ _ _ _ _ lang_alnum H R).
Qed.
Lemma part_reads : forall x g s s2 w, lex_part u x g -> In s2 (mtT (RAlt g shape_re) s) -> reads s s2 w -> token_text u x w.
Proof.
  intros x g s s2 w (L & _) H R. change (mtT (RAlt g shape_re) s) with (mtT g s ++ mtT shape_re s) in H. apply in_app_iff in H. unfold token_text.
  destruct H as [H|H].
  - destruct (lang_reads _ _ _ _ _ L H R) as [K|K]; auto.
  - destruct (shape_reads _ _ _ H R) as [K|K]; auto.
Qed.
Lemma part_has : forall x g s w r, lex_part u x g -> token_text u x w -> m_rest s = w ++ r ->
  exists s2, In s2 (mtT (RAlt g shape_re) s) /\ m_rest s2 = r.
Proof.
  intros x g s w r (L & _) H E. change (mtT (RAlt g shape_re) s) with (mtT g s ++ mtT shape_re s).
  assert (LL : (word_like u x w \/ (w = [] /\ forall v, listed x v -> v = [])) \/ shape_text w) by (unfold token_text, shape_text in *; tauto).
  destruct LL as [K|K].
  - destruct (proj2 (L s r) (ex_intro _ w (conj E K))) as (s2 & H2 & E2). exists s2. rewrite in_app_iff. auto.
  - destruct (shape_has _ _ _ K E) as (s2 & H2 & E2). exists s2. rewrite in_app_iff. auto.
Qed.
(** A readable text is matched. *)
Lemma readable_match : forall x g prev t, lex_part u x g -> blank_lines u t -> at_bol (mkM prev t []) = true -> readable u x t ->
  mtT (token_re (RAlt g shape_re)) (mkM prev t []) <> [].
Proof.
  intros x g prev t L BL B (b & w & r & E & Fb & T & Nd & St). rewrite token_ways, B. cbn [m_rest]. intros K.
  set (s := mkM prev t []) in *.
  assert (ER : m_rest (adv s b) = w ++ r) by (apply adv_rest; exact E).
  destruct (part_has x g (adv s b) w r L T ER) as (s2 & H2 & E2).
  assert (SK : mtT sep_re (mkM (m_prev s2) (m_rest s2) ((1%nat, consumed (adv s b) s2) :: m_caps s2)) <> []).
  { apply sep_ok; cbn [m_rest]; rewrite E2; [|exact St]. rewrite E in BL. apply blank_lines_suffix in BL. apply blank_lines_suffix in BL. exact BL. }
  assert (PK : mtT (pair_re (RAlt g shape_re) sep_re) (adv s b) <> []).
  { rewrite pair_ways. intros Q. apply SK. set (s3 := mkM _ _ _). 
    destruct (mtT sep_re s3) as [|y ys] eqn:Y; [reflexivity|]. exfalso.
    assert (Z : In (mkM (m_prev y) (m_rest y) ((2%nat, consumed s3 y) :: m_caps y)) []).
    { rewrite <- Q. apply in_flat_map. exists s2. split; [exact H2|]. fold s3. rewrite Y. left. reflexivity. }
    destruct Z. }
  assert (Hb : In b (spans (spp u) t)). { apply spans_in. split; [apply blanks_spp; exact Fb|exists (w ++ r); exact E]. }
  destruct (mtT (pair_re (RAlt g shape_re) sep_re) (adv s b)) as [|y ys] eqn:Y; [congruence|].
  assert (Z : In y []).
  { rewrite <- K. apply in_flat_map. exists b. split; [exact Hb|]. rewrite E, skipn_app_len.
    destruct (w ++ r) as [|c q] eqn:Ew; [rewrite Y; left; reflexivity|].
    replace (dashp u c) with false; [rewrite Y; left; reflexivity|]. symmetry. destruct (dashp u c) eqn:D; [|reflexivity]. exfalso. apply Nd. apply dashp_iff. exact D. }
  destruct Z.
Qed.
(** The longest listed word comes first. *)
Lemma longest_match : forall x g t b w r, lex_part u x g -> lex_wf (x_lex x) -> blank_lines u t -> case_clear u x t -> t = b ++ w ++ r -> longest u x b w r ->
  exists s, regex_search u true (token_re (RAlt g shape_re)) t = Some ([], s) /\ cap 1 s = w /\ t = b ++ w ++ cap 2 s ++ m_rest s.
Proof.
  intros x g t b w r (LL & L) W BL CE E (Fb & Lw & St & Nd & Hs & Hmax).
  set (s := m_start t). set (s1 := adv s b).
  assert (ER : m_rest s1 = w ++ r) by (apply adv_rest; exact E).
  assert (BL1 : blank_lines u (w ++ r)). { rewrite E in BL. apply blank_lines_suffix in BL. exact BL. }
  assert (Nw : w <> []). { destruct Lw as (v & _ & Nv & F). intros ->. inversion F. congruence. }
  destruct (L s1) as (hs & M & SS & HI).
  { destruct Lw as (v & Lv & Nv & _). exists v. auto. }
  { rewrite ER. intros v v' c c' d Hv Hv' Hc Hc' Hd. apply (CE v v' c c' d Hv Hv' Hc Hc'). rewrite E. apply in_app_iff. right. exact Hd. }
  rewrite ER in HI. assert (Hw : In w hs). { apply HI. split; [exact Lw|exists r; reflexivity]. }
  destruct (in_split _ _ Hw) as (l1 & l2 & El).
  set (step := fun s1' => map (fun s2 => mkM (m_prev s2) (m_rest s2) ((2%nat, consumed (mkM (m_prev s1') (m_rest s1') ((1%nat, consumed s1 s1') :: m_caps s1')) s2) :: m_caps s2))
    (mtT sep_re (mkM (m_prev s1') (m_rest s1') ((1%nat, consumed s1 s1') :: m_caps s1')))).
  assert (Early : forall y, In y (map (adv s1) l1) -> step y = []).
  { intros y Hy. apply in_map_iff in Hy. destruct Hy as (w' & <- & Hw').
    assert (Iw : In w' hs). { rewrite El. apply in_app_iff. left. exact Hw'. }
    apply HI in Iw. destruct Iw as (Hl' & r' & Er').
    assert (Len : (List.length w < List.length w')%nat).
    { rewrite El in SS. clear - SS Hw'. induction l1 as [|v l1 IH]; [destruct Hw'|].
      simpl in SS. inversion SS as [|? ? S1 S2]; subst. destruct Hw' as [->|Hw'].
      - rewrite Forall_forall in S2. apply (S2 w). apply in_app_iff. right. left. reflexivity.
      - apply IH; assumption. }
    unfold step. destruct (mtT sep_re _) as [|z zs] eqn:Z; [reflexivity|]. exfalso.
    assert (Q : stops u (m_rest (adv s1 w'))).
    { apply (sep_ok u (mkM (m_prev (adv s1 w')) (m_rest (adv s1 w')) ((1%nat, consumed s1 (adv s1 w')) :: m_caps (adv s1 w')))).
      - cbn [m_rest]. rewrite (adv_rest s1 w' r') by (rewrite ER; exact Er'). rewrite Er' in BL1. apply blank_lines_suffix in BL1. exact BL1.
      - rewrite Z. discriminate. }
    rewrite (adv_rest s1 w' r') in Q by (rewrite ER; exact Er').
    assert (T := Hmax w' r' Er' Hl' Q). lia. }
  assert (RW : reads s1 (adv s1 w) w). { split; [rewrite (adv_rest s1 w r ER); exact ER|reflexivity]. }
  assert (CW := consumed_reads _ _ _ RW).
  set (s2 := mkM (m_prev (adv s1 w)) (m_rest (adv s1 w)) ((1%nat, w) :: m_caps (adv s1 w))).
  assert (SO : mtT sep_re s2 <> []).
  { apply sep_ok; unfold s2; cbn [m_rest]; rewrite (adv_rest s1 w r ER); [|exact St]. apply blank_lines_suffix in BL1. exact BL1. }
  destruct (mtT sep_re s2) as [|z zs] eqn:Z; [congruence|].
  set (fin := mkM (m_prev z) (m_rest z) ((2%nat, consumed s2 z) :: m_caps z)).
  assert (HP : hd_error (mtT (pair_re (RAlt g shape_re) sep_re) s1) = Some fin).
  { rewrite pair_ways. fold step. change (mtT (RAlt g shape_re) s1) with (mtT g s1 ++ mtT shape_re s1). rewrite M, El.
    rewrite map_app, <- app_assoc. cbn [map app]. apply hd_app_pick; [exact Early|]. unfold step. cbv beta. rewrite !CW.
    change (hd_error (map (fun s0 => mkM (m_prev s0) (m_rest s0) ((2%nat, consumed s2 s0) :: m_caps s0)) (mtT sep_re s2)) = Some fin). rewrite Z. reflexivity. }
  destruct (spans_longest (spp u) b (w ++ r)) as (bs & Hbs).
  { apply blanks_spp. exact Fb. }
  { destruct w as [|c w']; [congruence|]. cbn [app]. rewrite spp_eq. exact Hs. }
  assert (HT : hd_error (mtT (token_re (RAlt g shape_re)) s) = Some fin).
  { rewrite token_ways. change (at_bol s) with true. cbv iota. change (m_rest s) with t. rewrite E, Hbs.
    apply (hd_app_pick _ _ _ []); [intros ? []|]. rewrite skipn_app_len. destruct w as [|c w']; [congruence|]. cbn [app].
    replace (dashp u c) with false; [exact HP|]. symmetry. destruct (dashp u c) eqn:D; [|reflexivity]. exfalso. apply Nd. apply dashp_iff. exact D. }
  exists fin. split; [apply search_first; exact HT|].
  assert (Mc := mt_caps u true sep_re eq_refl s2 z). rewrite Z in Mc. specialize (Mc (or_introl eq_refl)).
  destruct (mt_reads u true sep_re s2 z) as (q & Rq); [rewrite Z; left; reflexivity|]. assert (Cq := consumed_reads _ _ _ Rq).
  split.
  - unfold cap, fin. cbn [m_caps cap_find Nat.eqb]. rewrite Mc. reflexivity.
  - unfold cap, fin. cbn [m_caps cap_find Nat.eqb m_rest]. rewrite Cq. destruct Rq as (Eq & _). unfold s2 in Eq. cbn [m_rest] in Eq.
    rewrite (adv_rest s1 w r ER) in Eq. rewrite <- Eq. exact E.
Qed.

(** ** The whole scan *)
Lemma scan_split : forall g, no_cap g = true -> forall ps1 f t ps2 rem, rem <> [] -> scan f u (token_re g) t = Some (ps1 ++ ps2) -> t = concat (map taken ps1) ++ rem ->
  exists f', scan f' u (token_re g) rem = Some ps2.
Proof.
  intros g N. induction ps1 as [|p ps1 IH]; intros f t ps2 rem Nr H E.
  - simpl in E. subst t. exists f. exact H.
  - destruct f as [|f]; [discriminate|]. cbn [scan] in H. destruct (regex_search u true (token_re g) t) as [(a & s)|] eqn:F; [|discriminate].
    destruct (search_round u g t a s N F) as ((R1 & _) & _). remember (mkPiece _ _ _ _) as q eqn:Q in *. clear Q. destruct t as [|c t].
    + exfalso. symmetry in E. apply app_eq_nil in E. destruct E as (_ & E). congruence.
    + destruct (scan f u (token_re g) (m_rest s)) as [qs|] eqn:G; [|discriminate]. injection H as H1 H2. subst p qs.
      apply (IH f (m_rest s) ps2 rem Nr G). cbn [map concat] in E. rewrite <- app_assoc in E. rewrite R1 in E. unfold taken at 1 in E.
      rewrite <- app_assoc in E. apply app_inv_head in E. apply app_inv_head in E. exact E.
Qed.
Lemma scan_well : forall x g, no_cap g = true -> (forall s s2 w, In s2 (mtT g s) -> reads s s2 w -> token_text u x w) ->
  (forall t, blank_lines u t -> readable u x t -> mtT (token_re g) (m_start t) <> []) ->
  forall f t ps, blank_lines u t -> scan f u (token_re g) t = Some ps ->
  exists left, t = concat (map taken ps) ++ left /\ well_read u x ps left /\ (left = [] \/ regex_search u true (token_re g) left = None).
Proof.
  intros x g N HT HR. induction f as [|f IH]; intros t ps BL H; [discriminate|]. cbn [scan] in H.
  destruct (regex_search u true (token_re g) t) as [(a & s)|] eqn:E.
  2:{ injection H as <-. exists t. split; [reflexivity|]. split; [exact I|right; exact E]. }
  destruct (search_round u g t a s N E) as ((R1 & R2 & R3) & _).
  destruct (search_spec _ _ _ _ _ _ _ E) as (t' & Et & Hh & _).
  assert (BL' : blank_lines u t'). { rewrite Et in BL. apply blank_lines_suffix in BL. exact BL. }
  destruct (token_first u g (mkM (m_prev (adv (mkM None t []) a)) t' []) s N BL' Hh) as (Sp & (b & s1 & _ & s2 & H2 & Rd) & _).
  assert (TK : token_text u x (cap 1 s)) by (eapply HT; eassumption).
  assert (Pt : pc_tok (mkPiece a (skipn (List.length a) (firstn (List.length t - List.length (m_rest s)) t)) (cap 1 s) (cap 2 s)) = cap 1 s) by reflexivity.
  assert (Ps : pc_sep (mkPiece a (skipn (List.length a) (firstn (List.length t - List.length (m_rest s)) t)) (cap 1 s) (cap 2 s)) = cap 2 s) by reflexivity.
  assert (Pk : pc_skip (mkPiece a (skipn (List.length a) (firstn (List.length t - List.length (m_rest s)) t)) (cap 1 s) (cap 2 s)) = a) by reflexivity.
  remember (mkPiece _ _ _ _) as p eqn:Q in *. clear Q. rewrite <- Pt in TK. rewrite <- Ps in Sp.
  assert (SK : forall t2, t = t2 -> pc_skip p = [] \/ (exists a c, pc_skip p = a ++ [c] /\ line_end c) /\ ~ readable u x t2).
  { intros t2 <-. destruct R3 as [R3|R3]; [left; exact R3|]. destruct (pc_skip p) as [|c0 a0] eqn:Ea; [left; reflexivity|right]. split; [exact R3|].
    intros Rd'. apply HR in Rd'; [|exact BL]. destruct (mtT (token_re g) (m_start t)) as [|y ys] eqn:Y; [congruence|].
    assert (Z : search_from u true (token_re g) None t = Some ([], y)). { apply search_first. change (mkM None t []) with (m_start t). rewrite Y. reflexivity. }
    unfold regex_search in E. rewrite Z in E. injection E as E _. rewrite <- E in Pk. discriminate. }
  assert (Done : forall qs, option_map (cons p) (scan f u (token_re g) (m_rest s)) = Some qs -> exists left, t = concat (map taken qs) ++ left /\
    well_read u x qs left /\ (left = [] \/ regex_search u true (token_re g) left = None)).
  { intros qs K. destruct (scan f u (token_re g) (m_rest s)) as [qs'|] eqn:F; [|discriminate]. injection K as <-.
    destruct (IH (m_rest s) qs') as (left & El & Wl & Hl); [|exact F|].
    { rewrite R1 in BL. rewrite app_assoc in BL. apply blank_lines_suffix in BL. exact BL. }
    exists left. cbn [map concat well_read]. unfold taken at 1. rewrite <- !app_assoc, <- El.
    split; [exact R1|]. split; [|exact Hl]. split; [apply SK; unfold taken; rewrite <- app_assoc; exact R1|]. split; [exact R2|]. split; [exact TK|]. split; [exact Sp|exact Wl]. }
  destruct t as [|c t]; [|apply Done; exact H]. injection H as <-. exists []. cbn [map concat well_read]. unfold taken at 1.
  assert (R1' := R1). symmetry in R1'. apply app_eq_nil in R1'. destruct R1' as (Q1 & Q2). apply app_eq_nil in Q2. destruct Q2 as (Q2 & Q3). rewrite Q1, Q2.
  split; [reflexivity|]. split; [|left; reflexivity]. split; [left; reflexivity|]. split; [exact R2|]. split; [exact TK|]. split; [|exact I].
  cbn [concat map app]. rewrite Q3 in Sp. exact Sp.
Qed.
End R.
