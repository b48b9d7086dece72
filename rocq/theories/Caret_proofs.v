From Coq Require Import String List NArith Bool Lia Arith.
From Verif Require Import Base_model Uni_model Regex_model Trie_model Trie_spec Search_proofs Trie_proofs TrieRegex_proofs TrieWords_proofs Caret_spec.
Import ListNotations.
Local Open Scope N_scope.

(** ** The pattern of one word *)
Lemma one_regexp : forall w, w <> [] -> get_regexp (add_word w (new_trie false)) = concat (map (fun c => quote_meta [c]) w).
Proof.
  intros w. induction w as [|c w IH]; intros NE; [congruence|]. cbn [add_word new_trie kid_find kid_set map concat].
  rewrite get_regexp_eq. cbn [andb]. unfold alts_of, leaves. cbn [filter snd fst map]. destruct w as [|d w].
  - cbn [add_word]. change (leaf (new_trie true)) with true. cbn [negb map fst]. unfold finish_regexp. cbn [map concat app andb]. rewrite app_nil_r. reflexivity.
  - assert (G := IH ltac:(discriminate)). unfold leaf. rewrite G.
    assert (Q : concat (map (fun c0 => quote_meta [c0]) (d :: w)) <> []).
    { cbn [map concat]. intros E. apply app_eq_nil in E. destruct E as (E & _). exact (quote_nonempty _ E). }
    destruct (concat (map (fun c0 => quote_meta [c0]) (d :: w))) as [|x r]; [congruence|]. cbn [negb map fst snd]. rewrite G. unfold finish_regexp. cbn [map andb]. reflexivity.
Qed.
Lemma regexp_of_word : forall w, w <> [] -> get_regexp (trie_of [w]) = concat (map (fun c => quote_meta [c]) w).
Proof. intros w NE. exact (one_regexp w NE). Qed.
(** The atoms of the pattern. *)
Definition atom (c : N) : re * bool := if c =? 94 then (RBol, false) else (RChr c, true).
Lemma parses_caret : parses (quote_meta [94]) [(RBol, false)].
Proof. intros rest [cur alts st n]. reflexivity. Qed.
Lemma parses_word : forall w, (forall c, In c w -> c <> 123 /\ c <> 125) -> parses (concat (map (fun c => quote_meta [c]) w)) (map atom w).
Proof.
  intros w. induction w as [|c w IH]; intros H; [exact parses_nil|]. cbn [map concat]. change (atom c :: map atom w) with ([atom c] ++ map atom w).
  apply parses_app; [|apply IH; intros d I; apply H; right; exact I]. unfold atom. destruct (N.eqb_spec c 94) as [->|K]; [exact parses_caret|].
  apply parses_char. destruct (H c (or_introl eq_refl)). split; [exact K|]. split; assumption.
Qed.
Lemma word_pattern : forall w, w <> [] -> (forall c, In c w -> c <> 123 /\ c <> 125) -> parse_re (get_regexp (trie_of [w])) = Some (seq_re (map atom w)).
Proof.
  intros w NE H. rewrite (regexp_of_word w NE). unfold parse_re. rewrite <- (app_nil_r (concat _)). rewrite (parses_word w H). cbn [parse_go p_start push_all p_stack].
  unfold p_finish. cbn [p_alts p_cur]. unfold push_all. cbn [p_cur p_alts p_start]. cbn [rev app alt_of]. f_equal. apply cat_of_rev.
Qed.

(** ** Matching *)
Definition prev_of (before : text) : option N := match rev before with [] => None | c :: _ => Some c end.
Lemma is_sep_iff : forall c, is_sep c = true <-> ends_line c.
Proof. intros c. unfold is_sep, ends_line. rewrite !orb_true_iff, !N.eqb_eq. cbn [In]. intuition. Qed.
Lemma prev_snoc : forall b c, prev_of (b ++ [c]) = Some c.
Proof. intros b c. unfold prev_of. rewrite rev_app_distr. reflexivity. Qed.
Lemma at_bol_iff : forall before s cs, at_bol (mkM (prev_of before) s cs) = true <-> line_start before s.
Proof.
  intros before s cs. unfold at_bol, line_start. cbn [m_prev m_rest]. destruct (rev before) as [|c r] eqn:E.
  - assert (B : before = []) by (rewrite <- (rev_involutive before), E; reflexivity). subst. cbn. split; [intros _; left; reflexivity|reflexivity].
  - assert (B : before = rev r ++ [c]) by (rewrite <- (rev_involutive before), E; reflexivity). rewrite B at 1. rewrite prev_snoc. rewrite andb_true_iff, is_sep_iff, negb_true_iff, andb_false_iff. split.
    + intros (L & K). right. exists (rev r), c. split; [exact B|]. split; [exact L|]. intros (-> & a & ->). destruct K as [K|K]; discriminate K.
    + intros [Z|(b & d & Z & L & K)]; [rewrite Z in B; symmetry in B; destruct (app_cons_not_nil _ _ _ (eq_sym B))|].
      rewrite B in Z. apply app_inj_tail in Z. destruct Z as (_ & <-). split; [exact L|]. destruct (N.eqb_spec c 13) as [->|]; [right|left; reflexivity].
      destruct s as [|x s]; [reflexivity|]. apply N.eqb_neq. intros ->. apply K. split; [reflexivity|]. exists s. reflexivity.
Qed.
Lemma word_ways : forall u w before s cs,
  (exists m, In m (mt u false (seq_re (map atom w)) (mkM (prev_of before) s cs)) /\ m_rest m = []) <-> caret_reads before w s.
Proof.
  intros u w. induction w as [|c w IH]; intros before s cs.
  - cbn [map seq_re fold_right mt]. split.
    + intros (m & [<-|[]] & E). cbn [m_rest] in E. subst. constructor.
    + intros H. inversion H; subst. eexists. split; [left; reflexivity|reflexivity].
  - change (seq_re (map atom (c :: w))) with (RCat (fst (atom c)) (seq_re (map atom w))). cbn [mt]. unfold atom at 2. destruct (N.eqb_spec c 94) as [->|K]; cbn [fst mt].
    + unfold guard. destruct (at_bol (mkM (prev_of before) s cs)) eqn:B.
      * cbn [flat_map]. rewrite app_nil_r. rewrite (IH before s cs). split.
        { intros R. constructor; [|exact R]. apply (at_bol_iff before s cs). exact B. }
        intros H. inversion H; subst; [congruence|assumption].
      * cbn [flat_map]. split; [intros (m & [] & _)|]. intros H. inversion H; subst; [congruence|].
        assert (T : at_bol (mkM (prev_of before) s cs) = true) by (apply at_bol_iff; assumption). congruence.
    + unfold RChr. cbn [mt]. unfold one_char. cbn [m_rest]. destruct s as [|d s].
      * cbn [flat_map]. split; [intros (m & [] & _)|]. intros H. inversion H; subst. congruence.
      * cbn [existsb item_has]. unfold ceq. rewrite orb_false_r. cbn [xorb]. destruct (N.eqb_spec c d) as [->|D].
        { cbn [flat_map]. rewrite app_nil_r. unfold m_step. cbn [m_caps]. rewrite <- (prev_snoc before d). rewrite (IH (before ++ [d]) s cs). split.
          - intros R. constructor; assumption.
          - intros H. inversion H; subst; [assumption|congruence]. }
        cbn [flat_map]. split; [intros (m & [] & _)|]. intros H. inversion H; subst; congruence.
Qed.
Lemma caret_match : forall u w s, w <> [] -> (forall c, In c w -> c <> 123 /\ c <> 125) ->
  exists b, u32regex_match u false (get_regexp (trie_of [w])) s = Ok b /\ (b = true <-> caret_reads [] w s).
Proof.
  intros u w s NE H. unfold u32regex_match. rewrite (word_pattern w NE H). eexists. split; [reflexivity|]. unfold match_all.
  rewrite <- (word_ways u w [] s []). change (mkM (prev_of []) s []) with (m_start s).
  destruct (find _ _) as [m|] eqn:F.
  - apply find_some in F. destruct F as (I & R). split; [|reflexivity]. intros _. exists m. split; [exact I|]. destruct (m_rest m); [reflexivity|discriminate].
  - split; [discriminate|]. intros (m & I & R). assert (Q := find_none _ _ F m I). cbn beta in Q. rewrite R in Q. discriminate.
Qed.
(** Within one line. *)
Lemma reads_inside : forall before w s, before <> [] -> (forall c, In c before -> ~ ends_line c) -> (forall c, In c w -> ~ ends_line c) -> caret_reads before w s -> s = w /\ ~ In 94 w.
Proof.
  intros before w s N0 B W R. induction R as [b|b c w s K R IH|b w s L R IH].
  - split; [reflexivity|intros []].
  - destruct IH as (-> & I).
    + destruct b; discriminate.
    + intros d I. apply in_app_or in I. destruct I as [I|[<-|[]]]; [exact (B d I)|apply W; left; reflexivity].
    + intros d I. apply W. right. exact I.
    + split; [reflexivity|]. intros [Z|Z]; [congruence|exact (I Z)].
  - destruct L as [->|(a & c & -> & L & _)]; [congruence|]. exfalso. apply (B c); [apply in_elt|exact L].
Qed.
Lemma reads_inside_back : forall before w, ~ In 94 w -> caret_reads before w w.
Proof.
  intros before w. revert before. induction w as [|c w IH]; intros b H; constructor; [intros ->; apply H; left; reflexivity|]. apply IH. intros I. apply H. right. exact I.
Qed.
Lemma reads_line : forall w s, (forall c, In c w -> ~ ends_line c) -> (caret_reads [] w s <-> exists n, w = repeat 94 n ++ s /\ ~ In 94 s).
Proof.
  intros w. induction w as [|c w IH]; intros s W.
  - split.
    + intros R. inversion R; subst. exists 0%nat. split; [reflexivity|intros []].
    + intros ([|n] & E & _); [|discriminate E]. cbn in E. subst. constructor.
  - split.
    + intros R. inversion R as [|b c' w' s' K R'|b w' s' L R']; subst.
      * destruct (reads_inside [c] w s') as (-> & I); [discriminate| | |exact R'|].
        { intros d [<-|[]]. apply W. left. reflexivity. }
        { intros d I. apply W. right. exact I. }
        exists 0%nat. split; [reflexivity|]. intros [Z|Z]; [congruence|exact (I Z)].
      * apply IH in R'; [|intros d I; apply W; right; exact I]. destruct R' as (n & -> & I). exists (S n). split; [reflexivity|exact I].
    + intros ([|n] & E & I).
      * cbn in E. subst s. apply reads_inside_back. exact I.
      * cbn in E. injection E as -> E. constructor; [left; reflexivity|]. apply IH; [intros d J; apply W; right; exact J|]. exists n. split; [exact E|exact I].
Qed.
Lemma caret_line : forall u w s, w <> [] -> (forall c, In c w -> c <> 123 /\ c <> 125 /\ ~ ends_line c) ->
  exists b, u32regex_match u false (get_regexp (trie_of [w])) s = Ok b /\ (b = true <-> exists n, w = repeat 94 n ++ s /\ ~ In 94 s).
Proof.
  intros u w s NE H. destruct (caret_match u w s NE) as (b & E & Q). { intros c I. destruct (H c I) as (A & B & _). split; assumption. }
  exists b. split; [exact E|]. rewrite Q. apply reads_line. intros c I. apply (H c I).
Qed.
Lemma caret_itself : forall u w, w <> [] -> (forall c, In c w -> c <> 123 /\ c <> 125 /\ ~ ends_line c) ->
  exists b, u32regex_match u false (get_regexp (trie_of [w])) w = Ok b /\ (b = true <-> ~ In 94 w).
Proof.
  intros u w NE H. destruct (caret_line u w w NE H) as (b & E & Q). exists b. split; [exact E|]. rewrite Q. split.
  - intros (n & _ & I). exact I.
  - intros I. exists 0%nat. split; [reflexivity|exact I].
Qed.
