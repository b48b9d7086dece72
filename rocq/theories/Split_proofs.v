(** Splitting: which attached words are found. *)
From Coq Require Import String List NArith Bool Lia Arith Sorting.Sorted.
From Verif Require Import Base_model Class_model Uni_model Token_model Regex_model Trie_model Trie_spec Lexicon_model Tokenizer_model
  Lexicon_spec Tokenizer_spec Split_spec Search_proofs Class_proofs Trie_proofs TrieRegex_proofs TrieWords_proofs Match_proofs TokParse_proofs TokMatch_proofs
  LexMap_proofs Classify_proofs TokScan_proofs TokRead_proofs TokPieces_proofs TokSplit_proofs Tab_proofs WrapperTop_proofs.
Import ListNotations.
Local Open Scope N_scope.

(** ** Words of the lexicon *)
Lemma map_in_get : forall A k (v : A) l, sorted_keys l -> In (k, v) l -> map_get k l = Some v.
Proof.
  intros A k v l H. induction H as [|[k' v'] l Hl IH Ha]; intros I; [destruct I|]. cbn [map_get]. destruct I as [E|I].
  - injection E as -> ->. replace (teqb k k) with true by (symmetry; apply teqb_eq; reflexivity). reflexivity.
  - destruct (teqb k k') eqn:E; [|exact (IH I)]. apply teqb_eq in E. subst k'. rewrite Forall_forall in Ha. specialize (Ha _ I). cbn [fst] in Ha.
    rewrite tltb_irrefl in Ha. discriminate.
Qed.
Lemma att_in : forall x f w, lex_wf (x_lex x) -> (In w (att_words f (x_lex x)) <-> exists le, In le (lex_find x w) /\ f le = true).
Proof.
  intros x f w W. unfold att_words. rewrite in_flat_map. split.
  - intros (kv & I & K). apply in_map_iff in K. destruct K as (le & <- & K). apply filter_In in K. exists le. split; [|apply K].
    unfold lex_find. destruct kv as (k & l). cbn [fst snd] in *. rewrite (map_in_get _ k l _ (proj1 W) I). apply K.
  - intros (le & I & K). unfold lex_find in I. destruct (map_get w (x_lex x)) as [l|] eqn:E; [|destruct I].
    apply map_get_in in E. exists (w, l). split; [exact E|]. apply in_map_iff. exists le. split; [reflexivity|]. apply filter_In. auto.
Qed.
Lemma front_in : forall x w, lex_wf (x_lex x) -> (front_word x w <-> w <> [] /\ In w (att_words is_prefix_att (x_lex x))).
Proof.
  intros x w W. unfold front_word. rewrite (att_in x _ w W). unfold is_prefix_att. split; intros (N & le & I & K); (split; [exact N|]); exists le; (split; [exact I|]); apply aset_mem_in; exact K.
Qed.
Lemma back_in : forall x w, lex_wf (x_lex x) -> (back_word x w <-> w <> [] /\ In w (att_words is_suffix_att (x_lex x))).
Proof.
  intros x w W. unfold back_word. rewrite (att_in x _ w W). unfold is_suffix_att. split; intros (N & le & I & K); (split; [exact N|]); exists le; (split; [exact I|]); apply aset_mem_in; exact K.
Qed.

(** ** The ways of the pattern of a set of words, longest first *)
Definition longer (a b : text) : Prop := (List.length b < List.length a)%nat.
Lemma att_ways : forall u ws, all_words plain_char ws -> exists l hs, parses (get_regexp (trie_of ws)) l /\
  (forall s, mt u false (seq_re l) s = map (adv s) (hs (m_rest s))) /\
  forall rest, StronglySorted longer (hs rest) /\ (forall w, w <> [] -> (In w (hs rest) <-> In w ws /\ prefix_of w rest)) /\
    (In [] (hs rest) -> forall w, In w ws -> w = []).
Proof.
  intros u ws A. destruct (existsb (fun w : text => match w with [] => false | _ => true end) ws) eqn:E.
  - apply existsb_exists in E. destruct E as (w0 & I0 & N0). assert (N0' : w0 <> []) by (destruct w0; discriminate).
    destruct (words_regexp u false plain_char ws ltac:(auto) A (ex_intro _ w0 (conj I0 N0'))) as (l & L & M).
    exists l, (hits (trie_of ws)). split; [exact L|]. split; [intros s; apply M; apply exact_sensitive|]. intros rest. split; [apply hits_sorted|]. split.
    + intros w N. rewrite hits_words. tauto.
    + intros K. apply hits_words in K. destruct K as (K & _). congruence.
  - assert (All : forall w, In w ws -> w = []).
    { intros w I. destruct w as [|c w]; [reflexivity|exfalso].
      assert (existsb (fun w : text => match w with [] => false | _ => true end) ws = true) by (apply existsb_exists; exists (c :: w); auto). congruence. }
    exists [(REmpty, true)], (fun _ => [[]]). split; [rewrite (empty_trie ws All); apply parses_none|]. split; [intros s; simpl; rewrite adv_nil; reflexivity|].
    intros rest. split; [repeat constructor|]. split; [|intros _; exact All]. intros w N. split; [intros [K|[]]; congruence|]. intros (K & _). apply All in K. congruence.
Qed.

(** ** The first way that reads the whole text *)
Definition at_end (s : mst) : bool := match m_rest s with [] => true | _ => false end.
Lemma find_flat : forall A B (p : B -> bool) (f : A -> list B) l y, find p (flat_map f l) = Some y ->
  exists l1 w l2, l = l1 ++ w :: l2 /\ In y (f w) /\ p y = true /\ forall w', In w' l1 -> forall z, In z (f w') -> p z = false.
Proof.
  intros A B p f l y. induction l as [|w l IH]; intros H; [discriminate|]. cbn [flat_map] in H.
  destruct (find p (f w)) as [z|] eqn:E.
  - assert (find p (f w ++ flat_map f l) = Some z).
    { clear -E. induction (f w) as [|a m IHm]; [discriminate|]. simpl in *. destruct (p a); [exact E|exact (IHm E)]. }
    assert (y = z) by congruence. subst z. apply find_some in E. exists [], w, l. split; [reflexivity|]. destruct E as (E1 & E2). split; [exact E1|]. split; [exact E2|]. intros w' [].
  - assert (K := find_none _ _ E). assert (H' : find p (flat_map f l) = Some y).
    { clear -E H. induction (f w) as [|a m IHm]; [exact H|]. simpl in *. destruct (p a); [discriminate|]. exact (IHm H E). }
    destruct (IH H') as (l1 & w1 & l2 & -> & I & P & Q). exists (w :: l1), w1, l2. split; [reflexivity|]. split; [exact I|]. split; [exact P|].
    intros w' [<-|J] z Z; [exact (K z Z)|exact (Q w' J z Z)].
Qed.
Lemma sorted_split : forall (l1 : list text) w l2, StronglySorted longer (l1 ++ w :: l2) -> forall v, In v (l1 ++ w :: l2) -> In v l1 \/ (List.length v <= List.length w)%nat.
Proof.
  induction l1 as [|a l1 IH]; intros w l2 H v I.
  - right. inversion H as [|? ? _ F]; subst. destruct I as [->|I]; [lia|]. rewrite Forall_forall in F. specialize (F v I). unfold longer in F. lia.
  - inversion H as [|? ? H' F]; subst. destruct I as [->|I]; [left; left; reflexivity|]. destruct (IH w l2 H' v I) as [K|K]; [left; right; exact K|right; exact K].
Qed.
Lemma sorted_filter : forall (p : text -> bool) l, StronglySorted longer l -> StronglySorted longer (filter p l).
Proof.
  intros p l H. induction H as [|a l H IH F]; [constructor|]. cbn [filter]. destruct (p a); [|exact IH]. constructor; [exact IH|].
  rewrite Forall_forall in *. intros b Hb. apply filter_In in Hb. apply F, Hb.
Qed.
(** Ways of a pair that reach the end. *)
Definition second (s s1 : mst) : mst := mkM (m_prev s1) (m_rest s1) ((1%nat, consumed s s1) :: m_caps s1).
Definition closed (s s1 s2 : mst) : mst := mkM (m_prev s2) (m_rest s2) ((2%nat, consumed (second s s1) s2) :: m_caps s2).
Lemma pair_find : forall u g h t y, no_cap h = true -> match_all u false (pair_re g h) t = Some y ->
  exists l1 s1 l2 s2, mt u false g (m_start t) = l1 ++ s1 :: l2 /\ In s2 (mt u false h (second (m_start t) s1)) /\ m_rest s2 = [] /\
    cap 1 y = consumed (m_start t) s1 /\ cap 2 y = m_rest s1 /\
    forall s', In s' l1 -> forall z, In z (mt u false h (second (m_start t) s')) -> m_rest z <> [].
Proof.
  intros u g h t y N H. unfold match_all in H. rewrite pair_ways in H. apply find_flat in H. destruct H as (l1 & s1 & l2 & E & I & P & Q).
  apply in_map_iff in I. destruct I as (s2 & <- & I2). cbn [m_rest] in P. assert (R : m_rest s2 = []) by (destruct (m_rest s2); [reflexivity|discriminate]).
  exists l1, s1, l2, s2. split; [exact E|]. split; [exact I2|]. split; [exact R|]. unfold cap. cbn [m_caps cap_find Nat.eqb].
  rewrite (mt_caps _ _ _ N _ _ I2). cbn [m_caps cap_find Nat.eqb]. split; [reflexivity|]. split.
  - destruct (mt_reads _ _ _ _ _ I2) as (w & Rw). rewrite (consumed_reads _ _ _ Rw). destruct Rw as (Ew & _). cbn [m_rest second] in Ew. rewrite Ew, R, app_nil_r. reflexivity.
  - intros s' Hs z Z K. assert (F := Q s' Hs (closed (m_start t) s' z)). cbn [m_rest closed] in F. rewrite K in F. discriminate F. apply in_map_iff. exists z. split; [reflexivity|exact Z].
Qed.
Lemma pair_none : forall u g h t, match_all u false (pair_re g h) t = None ->
  forall s1 s2, In s1 (mt u false g (m_start t)) -> In s2 (mt u false h (second (m_start t) s1)) -> m_rest s2 <> [].
Proof.
  intros u g h t H s1 s2 I1 I2 K. unfold match_all in H. assert (F := find_none _ _ H (closed (m_start t) s1 s2)). cbn [m_rest closed] in F. rewrite K in F.
  discriminate F. rewrite pair_ways. apply in_flat_map. exists s1. split; [exact I1|]. apply in_map_iff. exists s2. split; [reflexivity|exact I2].
Qed.

(** ** Attached in front *)
Definition pre_atoms (l : list (re * bool)) : list (re * bool) := (RBol, false) :: l ++ [(RWithin, false)].
Lemma pre_parsed : forall T l, parses (get_regexp T) l ->
  parse_re (s2t "(" ++ (s2t "^" ++ get_regexp T ++ s2t "\B") ++ s2t ")(.+)") = Some (pair_re (seq_re (pre_atoms l)) rest_re).
Proof.
  intros T l H. unfold parse_re.
  change (parse_go 0 MNormal (s2t "(" ++ (s2t "^" ++ get_regexp T ++ s2t "\B") ++ s2t ")(.+)") p_start) with
    (parse_go 0 MNormal ((get_regexp T ++ s2t "\B") ++ s2t ")(.+)") (mkP [(RBol, false)] [] [(GCap 1, [], [])] 1)).
  rewrite <- app_assoc, H. unfold push_all. cbn [p_cur p_alts p_stack p_n].
  change (Some (pair_re (cat_of ((RWithin, false) :: rev l ++ [(RBol, false)])) rest_re) = Some (pair_re (seq_re (pre_atoms l)) rest_re)).
  do 2 f_equal. unfold cat_of, seq_re, pre_atoms. f_equal. cbn [rev]. rewrite rev_app_distr, rev_involutive. reflexivity.
Qed.
Lemma pre_ways : forall u l hs t, (forall s, mt u false (seq_re l) s = map (adv s) (hs (m_rest s))) ->
  mt u false (seq_re (pre_atoms l)) (m_start t) = map (adv (m_start t)) (filter (fun w => at_within u (adv (m_start t) w)) (hs t)).
Proof.
  intros u l hs t M. unfold pre_atoms. rewrite mt_cons. cbn [mt]. unfold guard. cbn [at_bol m_prev m_start flat_map]. rewrite app_nil_r, mt_seq_app, M. cbn [m_rest m_start].
  induction (hs t) as [|w ws IH]; [reflexivity|]. cbn [map flat_map filter]. rewrite IH, mt_one. cbn [mt]. unfold guard. destruct (at_within u (adv (m_start t) w)); reflexivity.
Qed.
Lemma within_at : forall u t a b, t = a ++ b -> a <> [] -> (at_within u (adv (m_start t) a) = true <-> within u a b).
Proof.
  intros u t a b -> N. unfold at_within, within, adv. cbn [m_rest m_prev m_start]. rewrite skipn_app_len.
  destruct (rev a) as [|p q] eqn:E; [exfalso; apply N; rewrite <- (rev_involutive a), E; reflexivity|]. destruct b as [|c b].
  - split; [discriminate|]. intros (p' & c & _ & K & _). discriminate.
  - cbn [hd_error]. split.
    + intros K. exists p, c. apply eqb_prop in K. auto.
    + intros (p' & c' & K1 & K2 & K). injection K1 as <-. injection K2 as <-. rewrite K. apply eqb_reflx.
Qed.
Lemma rest_end : forall u s, m_rest s <> [] -> exists z, In z (mt u false rest_re s) /\ m_rest z = [].
Proof.
  intros u s N. assert (L := lang_cat u false _ _ _ _ (lang_plus_dot u false) (lang_empty u false)). apply (proj2 (L s [])).
  exists (m_rest s). split; [rewrite app_nil_r; reflexivity|]. exists (m_rest s), []. split; [rewrite app_nil_r; reflexivity|]. auto.
Qed.
Lemma consumed_adv : forall s w r, m_rest s = w ++ r -> consumed s (adv s w) = w.
Proof. intros s w r E. apply consumed_reads. split; [rewrite (adv_rest s w r E); exact E|reflexivity]. Qed.
Lemma at_within_nil : forall u t, at_within u (adv (m_start t) []) = false.
Proof. intros u t. unfold at_within, adv. cbn [m_rest m_prev m_start rev skipn List.length]. destruct t; reflexivity. Qed.
Lemma groups_front : forall u x t, built x -> simple_words x ->
  exists a b, two_groups u (s2t "(" ++ fst (lex_pre x) ++ s2t ")(.+)") t = Ok (a, b) /\
    (front u x t a b \/ (a = [] /\ b = [] /\ forall a' b', ~ front u x t a' b')).
Proof.
  intros u x t B SW. apply built_ok in B. destruct B as (W & C). destruct (patterns_of x C) as (_ & E & _).
  destruct (att_ways u _ (att_plain x is_prefix_att SW W)) as (l & hs & L & M & Q). unfold two_groups. rewrite E. unfold make_pre. rewrite (pre_parsed _ _ L).
  assert (Mem : forall a b, t = a ++ b -> front_word x a -> within u a b -> In a (filter (fun w => at_within u (adv (m_start t) w)) (hs t))).
  { intros a b Et F Wi. apply (front_in x a W) in F. destruct F as (N & I). apply filter_In. split; [|apply (within_at u t a b Et N); exact Wi].
    destruct (Q t) as (_ & Q2 & _). apply Q2; [exact N|]. split; [exact I|]. exists b. exact Et. }
  assert (Snd : forall a, In a (filter (fun w => at_within u (adv (m_start t) w)) (hs t)) -> exists b, t = a ++ b /\ front_word x a /\ within u a b).
  { intros a I. apply filter_In in I. destruct I as (I & K). assert (N : a <> []). { intros ->. rewrite at_within_nil in K. discriminate. }
    destruct (Q t) as (_ & Q2 & _). apply (Q2 a N) in I. destruct I as (I & b & Eb). exists b. split; [exact Eb|]. split; [apply (front_in x a W); auto|].
    apply (within_at u t a b Eb N). exact K. }
  assert (Srt : StronglySorted longer (filter (fun w => at_within u (adv (m_start t) w)) (hs t))) by (apply sorted_filter; apply Q).
  set (ways := filter _ (hs t)) in *.
  destruct (match_all u false _ t) as [y|] eqn:F.
  - apply (pair_find u _ _ t y (eq_refl : no_cap rest_re = true)) in F. destruct F as (l1 & s1 & l2 & s2 & Ew & I2 & R2 & C1 & C2 & No). rewrite (pre_ways u l hs t M) in Ew. fold ways in Ew.
    assert (Ew' := Ew). apply map_eq_app in Ew'. destruct Ew' as (v1 & v2 & Ev & E1 & E2). destruct v2 as [|a v2]; [discriminate|]. injection E2 as Ea E2.
    destruct (Snd a) as (b & Et & Fa & Wa); [rewrite Ev; apply in_app_iff; right; left; reflexivity|].
    exists a, b. rewrite C1, C2, <- Ea. split.
    + rewrite (consumed_adv (m_start t) a b Et), (adv_rest (m_start t) a b Et). reflexivity.
    + left. split; [exact Et|]. split; [exact Fa|]. split; [exact Wa|]. intros a' b' Et' Fa' Wa'. rewrite Ev in Srt.
      destruct (sorted_split v1 a v2 Srt a') as [K|K]; [rewrite <- Ev; exact (Mem a' b' Et' Fa' Wa')| |exact K]. exfalso.
      destruct (rest_end u (second (m_start t) (adv (m_start t) a'))) as (z & Z1 & Z2).
      { cbn [second m_rest]. rewrite (adv_rest (m_start t) a' b' Et'). destruct Wa' as (p & c & _ & Hc & _). destruct b'; discriminate. }
      refine (No (adv (m_start t) a') _ z Z1 Z2). rewrite <- E1. apply in_map. exact K.
  - exists [], []. split; [reflexivity|right]. split; [reflexivity|]. split; [reflexivity|]. intros a b (Et & Fa & Wa & _).
    destruct (rest_end u (second (m_start t) (adv (m_start t) a))) as (z & Z1 & Z2).
    { cbn [second m_rest]. rewrite (adv_rest (m_start t) a b Et). destruct Wa as (p & c & _ & Hc & _). destruct b; discriminate. }
    refine (pair_none u _ _ t F (adv (m_start t) a) z _ Z1 Z2). rewrite (pre_ways u l hs t M). apply in_map. exact (Mem a b Et Fa Wa).
Qed.

(** ** Attached at the end *)
Lemma suf_parsed : forall T l, parses (get_regexp T) l -> parse_re (s2t "(.+)(" ++ get_regexp T ++ s2t ")") = Some (pair_re rest_re (seq_re l)).
Proof.
  intros T l H. unfold parse_re.
  assert (F : forall t, no_mark t -> parse_go 0 MNormal (s2t "(.+)(" ++ t) p_start =
    parse_go 0 MNormal t (mkP [] [] [(GCap 2, [(RCap 1 rest_re, true)], [])] 2)).
  { intros t M. change (parse_go 0 MNormal (s2t "(.+)(" ++ t) p_start) with
      (match starts_with (s2t "?:") t, starts_with (s2t "?!") t, starts_with (s2t "?") t with
       | Some _, _, _ => parse_go 2 MNormal t (mkP [] [] [(GPlain, [(RCap 1 rest_re, true)], [])] 1)
       | _, Some _, _ => parse_go 2 MNormal t (mkP [] [] [(GNot, [(RCap 1 rest_re, true)], [])] 1)
       | _, _, Some _ => None
       | None, None, None => parse_go 0 MNormal t (mkP [] [] [(GCap 2, [(RCap 1 rest_re, true)], [])] 2)
       end).
    destruct t as [|c t]; [reflexivity|]. simpl in M.
    assert (K : forall p, starts_with (63%N :: p) (c :: t) = None).
    { intros p. cbn [starts_with]. replace (63 =? c)%N with false by (symmetry; apply N.eqb_neq; congruence). reflexivity. }
    change (s2t "?:") with (63%N :: [58%N]). change (s2t "?!") with (63%N :: [33%N]). change (s2t "?") with (63%N :: []). rewrite !K. reflexivity. }
  rewrite F by (apply mark_app2; [apply trie_mark|discriminate]). rewrite H. unfold push_all. cbn [p_cur p_alts p_stack p_n].
  change (Some (pair_re rest_re (cat_of (rev l ++ []))) = Some (pair_re rest_re (seq_re l))). rewrite cat_of_rev. reflexivity.
Qed.
Lemma dot_ways : forall u s, mt u false rest_re s = map (adv s) (spans1 (fun _ => true) (m_rest s)).
Proof.
  intros u s. unfold rest_re. rewrite cat_empty. cbn [mt]. unfold one_char at 2. destruct (m_rest s) as [|c t] eqn:E; [reflexivity|]. cbn [spans1 flat_map].
  rewrite app_nil_r, star_ways by apply le_n. cbn [m_rest m_step]. rewrite map_map. apply map_ext. intros w. apply adv_cons. exact E.
Qed.
Lemma spans_in : forall t c, In c (spans (fun _ => true) t) <-> prefix_of c t.
Proof.
  induction t as [|a t IH]; intros c; cbn [spans].
  - split; [intros [<-|[]]; exists []; reflexivity|]. intros (s & E). symmetry in E. apply app_eq_nil in E. left. symmetry. apply E.
  - rewrite in_app_iff, in_map_iff. split.
    + intros [(w & <- & K)|[<-|[]]]; [apply IH in K; destruct K as (s & ->); exists s; reflexivity|exists (a :: t); reflexivity].
    + intros (s & E). destruct c as [|b c]; [right; left; reflexivity|left]. injection E as <- E. exists c. split; [reflexivity|]. apply IH. exists s. exact E.
Qed.
Lemma spans1_in : forall t c, In c (spans1 (fun _ => true) t) <-> c <> [] /\ prefix_of c t.
Proof.
  intros [|a t] c; cbn [spans1].
  - split; [intros []|]. intros (N & s & E). symmetry in E. apply app_eq_nil in E. tauto.
  - rewrite in_map_iff. split.
    + intros (w & <- & K). split; [discriminate|]. apply spans_in in K. destruct K as (s & ->). exists s. reflexivity.
    + intros (N & s & E). destruct c as [|b c]; [congruence|]. injection E as <- E. exists c. split; [reflexivity|]. apply spans_in. exists s. exact E.
Qed.
Lemma spans_sorted : forall t, StronglySorted longer (spans (fun _ => true) t).
Proof.
  induction t as [|a t IH]; cbn [spans]; [repeat constructor|].
  assert (G : forall l : list text, StronglySorted longer l -> StronglySorted longer (map (cons a) l ++ [[]])).
  { clear. intros l H. induction H as [|b l H IH F]; [repeat constructor|]. cbn [map app]. constructor; [exact IH|]. apply Forall_app. split.
    - apply Forall_forall. intros c Hc. apply in_map_iff in Hc. destruct Hc as (d & <- & Hd). rewrite Forall_forall in F. specialize (F d Hd). unfold longer in *. simpl. lia.
    - constructor; [unfold longer; simpl; lia|constructor]. }
  apply G. exact IH.
Qed.
Lemma spans1_sorted : forall t, StronglySorted longer (spans1 (fun _ => true) t).
Proof.
  intros [|a t]; cbn [spans1]; [constructor|]. generalize (spans_sorted t). generalize (spans (fun _ => true) t). intros l H.
  induction H as [|b l H IH F]; cbn [map]; [constructor|]. constructor; [exact IH|]. apply Forall_forall. intros c Hc. apply in_map_iff in Hc. destruct Hc as (d & <- & Hd).
  rewrite Forall_forall in F. specialize (F d Hd). unfold longer in *. simpl. lia.
Qed.
Lemma words_cap : forall T l, parses (get_regexp T) l -> no_cap (seq_re l) = true.
Proof.
  intros T l L. destruct (suf_parse T) as [K|(g & N & K)]; rewrite (suf_parsed _ _ L) in K; [discriminate|]. injection K as <-. exact N.
Qed.
Lemma groups_back : forall u x t, built x -> simple_words x ->
  exists c d, two_groups u (s2t "(.+)(" ++ fst (lex_suf x) ++ s2t ")") t = Ok (c, d) /\
    (back x t c d \/ (d = [] /\ forall c' d', ~ back x t c' d')).
Proof.
  intros u x t B SW. apply built_ok in B. destruct B as (W & C). destruct (patterns_of x C) as (_ & _ & E).
  destruct (att_ways u _ (att_plain x is_suffix_att SW W)) as (l & hs & L & M & Q). unfold two_groups. rewrite E. unfold make_suf. rewrite (suf_parsed _ _ L).
  assert (Mem : forall c d, t = c ++ d -> back_word x d -> exists z, In z (mt u false (seq_re l) (second (m_start t) (adv (m_start t) c))) /\ m_rest z = []).
  { intros c d Et F. apply (back_in x d W) in F. destruct F as (N & I). rewrite M. cbn [second m_rest]. rewrite (adv_rest (m_start t) c d Et).
    exists (adv (second (m_start t) (adv (m_start t) c)) d). split; [apply in_map; apply Q; [exact N|]; split; [exact I|]; exists []; rewrite app_nil_r; reflexivity|].
    apply (adv_rest _ d []). cbn [second m_rest]. rewrite (adv_rest (m_start t) c d Et), app_nil_r. reflexivity. }
  destruct (match_all u false _ t) as [y|] eqn:F.
  - apply (pair_find u _ _ t y (words_cap _ _ L)) in F. destruct F as (l1 & s1 & l2 & s2 & Ew & I2 & R2 & C1 & C2 & No).
    rewrite dot_ways in Ew. cbn [m_rest m_start] in Ew. assert (Ew' := Ew). apply map_eq_app in Ew'. destruct Ew' as (v1 & v2 & Ev & E1 & E2).
    destruct v2 as [|c v2]; [discriminate|]. injection E2 as Ea E2.
    assert (Ic : In c (spans1 (fun _ => true) t)) by (rewrite Ev; apply in_app_iff; right; left; reflexivity). apply spans1_in in Ic. destruct Ic as (Nc & d & Et).
    exists c, d. rewrite C1, C2, <- Ea. rewrite (consumed_adv (m_start t) c d Et), (adv_rest (m_start t) c d Et). split; [reflexivity|].
    rewrite M in I2. apply in_map_iff in I2. destruct I2 as (w & Ez & Iw). rewrite <- Ea in Iw, Ez. cbn [second m_rest] in Iw. rewrite (adv_rest (m_start t) c d Et) in Iw.
    assert (Ewd : w = d).
    { assert (P : prefix_of w d). { destruct w as [|w0 w]; [exists d; reflexivity|]. apply (Q d) in Iw; [apply Iw|discriminate]. }
      destruct P as (r & ->). rewrite <- Ez in R2. rewrite (adv_rest _ w r) in R2; [subst r; rewrite app_nil_r; reflexivity|]. cbn [second m_rest]. apply (adv_rest (m_start t) c _ Et). }
    subst w. destruct d as [|d0 d].
    + right. split; [reflexivity|]. intros c' d' (Et' & Nc' & Bd' & _). apply (back_in x d' W) in Bd'. destruct Bd' as (Nd' & Id'). apply Nd'. exact (proj2 (proj2 (Q [])) Iw d' Id').
    + left. split; [exact Et|]. split; [exact Nc|]. split; [apply (back_in x _ W); split; [discriminate|]; apply (Q (d0 :: d)) in Iw; [apply Iw|discriminate]|].
      intros c' d' Et' Nc' Bd'. assert (Srt := spans1_sorted t). rewrite Ev in Srt. destruct (sorted_split v1 c v2 Srt c') as [K|K].
      * rewrite <- Ev. apply spans1_in. split; [exact Nc'|]. exists d'. exact Et'.
      * exfalso. destruct (Mem c' d' Et' Bd') as (z & Z1 & Z2). refine (No (adv (m_start t) c') _ z Z1 Z2). rewrite <- E1. apply in_map. exact K.
      * assert (Lt := f_equal (@List.length N) Et). assert (Lt' := f_equal (@List.length N) Et'). rewrite app_length in Lt, Lt'. lia.
  - exists [], []. split; [reflexivity|right]. split; [reflexivity|]. intros c d (Et & Nc & Bd & _). destruct (Mem c d Et Bd) as (z & Z1 & Z2).
    refine (pair_none u _ _ t F (adv (m_start t) c) z _ Z1 Z2). rewrite dot_ways. apply in_map. cbn [m_rest m_start]. apply spans1_in. split; [exact Nc|]. exists d. exact Et.
Qed.

(** ** The cases *)
Lemma attached_ok : forall u x k, built x -> simple_words x -> is_in_class k I_MIXED = false ->
  exists ws, split_parts u x k = Ok ws /\ attached u x (t_text k) (match ws with [] => [t_text k] | _ => ws end).
Proof.
  intros u x k B SW NM. unfold split_parts. rewrite NM. set (t := t_text k).
  destruct (groups_front u x t B SW) as (a & b & -> & Ha). cbn [obind]. destruct (groups_back u x t B SW) as (c & d & -> & Hd). cbn [obind].
  destruct Ha as [Fa|(-> & -> & Na)].
  - destruct a as [|a0 a']; [exfalso; destruct Fa as (_ & (K & _) & _); congruence|]. set (a := a0 :: a') in *. clearbody a. clear a0 a'.
    assert (Et := proj1 Fa). assert (Lt := f_equal blen Et). rewrite blen_app in Lt.
    destruct (Nat.eqb (blen d) 0 || Nat.eqb (blen b) (blen d)) eqn:C1.
    { eexists. split; [reflexivity|]. cbv iota. destruct Hd as [Bd|(-> & Nd)]; [|apply at_front; assumption].
      assert (Ed := proj1 Bd). assert (Ld := f_equal blen Ed). rewrite blen_app in Ld. apply orb_true_iff in C1. rewrite !Nat.eqb_eq in C1. destruct C1 as [C1|C1].
      { exfalso. apply blen_nil in C1. destruct Bd as (_ & _ & (K & _) & _). congruence. }
      assert (E : a = c /\ b = d).
      { destruct (prefix_cases a b c d) as [(l & E1 & E2)|(l & E1 & E2)]; [congruence| |].
        - assert (K := f_equal blen E2). rewrite blen_app in K. assert (l = []) by (apply blen_nil; lia). subst l. rewrite app_nil_r in E1. auto.
        - assert (K := f_equal blen E2). rewrite blen_app in K. assert (l = []) by (apply blen_nil; lia). subst l. rewrite app_nil_r in E1. auto. }
      destruct E as (-> & ->). apply at_touch; assumption. }
    apply orb_false_iff in C1. destruct C1 as (C1 & C2). apply Nat.eqb_neq in C1. apply Nat.eqb_neq in C2.
    destruct Hd as [Bd|(-> & _)]; [|exfalso; apply C1; reflexivity]. assert (Ed := proj1 Bd). assert (Ld := f_equal blen Ed). rewrite blen_app in Ld.
    destruct (Nat.ltb 0 (blen d) && Nat.ltb (blen a + blen d) (blen t)) eqn:C3.
    { apply andb_true_iff in C3. destruct C3 as (_ & C3). apply Nat.ltb_lt in C3. eexists. split; [reflexivity|]. cbv iota.
      destruct (prefix_cases a b c d) as [(l & Q1 & Q2)|(l & Q1 & Q2)]; [congruence| |].
      { apply (f_equal blen) in Q1. rewrite blen_app in Q1. lia. }
      assert (Et' : t = a ++ l ++ d) by (rewrite <- Q2; exact Et).
      assert (Ef : firstn (List.length t - List.length a - List.length d) (skipn (List.length a) t) = l).
      { rewrite Et', skipn_app_len. rewrite !app_length.
        replace (List.length a + (List.length l + List.length d) - List.length a - List.length d)%nat with (List.length l) by lia.
        rewrite firstn_app, Nat.sub_diag, firstn_all. simpl. apply app_nil_r. }
      rewrite Ef. apply at_apart; [intros ->; rewrite app_nil_r in Q1; rewrite Q1 in Ld; lia|rewrite <- Q2; exact Fa|rewrite <- Q1; exact Bd]. }
    destruct (Nat.ltb 0 (blen d) && Nat.ltb (blen t) (blen a + blen d)) eqn:C4.
    { apply andb_true_iff in C4. destruct C4 as (_ & C4). apply Nat.ltb_lt in C4. eexists. split; [reflexivity|]. cbv iota. apply (at_overlap u x t a b c d Fa Bd).
      destruct (prefix_cases a b c d) as [(l & Q1 & Q2)|(l & Q1 & Q2)]; [congruence| |].
      - rewrite Q1, app_length. destruct l; [rewrite app_nil_r in Q1; subst; lia|simpl; lia].
      - exfalso. apply (f_equal blen) in Q1. rewrite blen_app in Q1. lia. }
    exfalso. apply andb_false_iff in C3. apply andb_false_iff in C4. rewrite !Nat.ltb_ge in *. lia.
  - destruct Hd as [Bd|(-> & Nd)].
    + destruct d as [|d0 d]; [exfalso; destruct Bd as (_ & _ & (K & _) & _); congruence|]. eexists. split; [reflexivity|]. cbv iota. apply at_back; assumption.
    + eexists. split; [reflexivity|]. cbv iota. apply at_none; assumption.
Qed.
(** The cases determine the parts. *)
Lemma app_eq_len : forall (a b c d : text), a ++ b = c ++ d -> List.length a = List.length c -> a = c /\ b = d.
Proof.
  induction a as [|x a IH]; intros b [|y c] d E L; try discriminate; [auto|]. injection E as -> E. destruct (IH b c d E) as (-> & ->); [simpl in L; lia|auto].
Qed.
Lemma front_fun : forall u x t a b a' b', front u x t a b -> front u x t a' b' -> a = a' /\ b = b'.
Proof.
  intros u x t a b a' b' (E & F & W & M) (E' & F' & W' & M'). assert (L1 := M _ _ E' F' W'). assert (L2 := M' _ _ E F W).
  apply app_eq_len; [congruence|]. apply Nat.le_antisymm; assumption.
Qed.
Lemma back_fun : forall x t a b a' b', back x t a b -> back x t a' b' -> a = a' /\ b = b'.
Proof.
  intros x t a b a' b' (E & Na & F & M) (E' & Na' & F' & M'). assert (L1 := M _ _ E' Na' F'). assert (L2 := M' _ _ E Na F).
  apply app_eq_len; [congruence|]. assert (L := f_equal (@List.length N) E). assert (L' := f_equal (@List.length N) E'). rewrite app_length in L, L'. lia.
Qed.
Lemma attached_fun : forall u x t ws ws', attached u x t ws -> attached u x t ws' -> ws = ws'.
Proof.
  assert (W : forall u x t ws, attached u x t ws ->
    ((exists a b, front u x t a b) \/ forall a b, ~ front u x t a b) /\ ((exists c d, back x t c d) \/ forall c d, ~ back x t c d) /\
    (forall a b, front u x t a b -> (forall c d, ~ back x t c d) -> ws = [a; b]) /\
    (forall c d, back x t c d -> (forall a b, ~ front u x t a b) -> ws = [c; d]) /\
    ((forall a b, ~ front u x t a b) -> (forall c d, ~ back x t c d) -> ws = [t]) /\
    (forall a b c d, front u x t a b -> back x t c d -> ws = if Nat.leb (List.length a) (List.length c)
       then (if Nat.eqb (List.length a) (List.length c) then [a; b] else [a; skipn (List.length a) c; d]) else [c; d])).
  { intros u x t ws H. destruct H as [F B|a b F B|c d F B|a b F B|a m d N F B|a b c d F B L].
    - split; [right; exact F|]. split; [right; exact B|]. split; [intros a b K; destruct (F a b K)|]. split; [intros c d K; destruct (B c d K)|]. split; [auto|]. intros a b c d K. destruct (F a b K).
    - split; [left; eauto|]. split; [right; exact B|]. split; [intros a' b' K _; destruct (front_fun _ _ _ _ _ _ _ F K) as (-> & ->); reflexivity|].
      split; [intros c d K; destruct (B c d K)|]. split; [intros K; destruct (K a b F)|]. intros a' b' c d _ K. destruct (B c d K).
    - split; [right; exact F|]. split; [left; eauto|]. split; [intros a b K; destruct (F a b K)|]. split; [intros c' d' K _; destruct (back_fun _ _ _ _ _ _ B K) as (-> & ->); reflexivity|].
      split; [intros _ K; destruct (K c d B)|]. intros a b c' d' K. destruct (F a b K).
    - split; [left; eauto|]. split; [left; eauto|]. split; [intros a' b' _ K; destruct (K a b B)|]. split; [intros c d _ K; destruct (K a b F)|]. split; [intros K; destruct (K a b F)|].
      intros a' b' c d K1 K2. destruct (front_fun _ _ _ _ _ _ _ F K1) as (<- & <-). destruct (back_fun _ _ _ _ _ _ B K2) as (<- & <-). rewrite Nat.leb_refl, Nat.eqb_refl. reflexivity.
    - split; [left; eauto|]. split; [left; eauto|]. split; [intros a' b' _ K; destruct (K _ _ B)|]. split; [intros c d' _ K; destruct (K _ _ F)|]. split; [intros K; destruct (K _ _ F)|].
      intros a' b' c d' K1 K2. destruct (front_fun _ _ _ _ _ _ _ F K1) as (<- & <-). destruct (back_fun _ _ _ _ _ _ B K2) as (<- & <-).
      replace (Nat.leb (List.length a) (List.length (a ++ m))) with true by (symmetry; apply Nat.leb_le; rewrite app_length; lia).
      replace (Nat.eqb (List.length a) (List.length (a ++ m))) with false by (symmetry; apply Nat.eqb_neq; rewrite app_length; destruct m; [congruence|simpl; lia]).
      rewrite skipn_app_len. reflexivity.
    - split; [left; eauto|]. split; [left; eauto|]. split; [intros a' b' _ K; destruct (K _ _ B)|]. split; [intros c' d' _ K; destruct (K _ _ F)|]. split; [intros K; destruct (K _ _ F)|].
      intros a' b' c' d' K1 K2. destruct (front_fun _ _ _ _ _ _ _ F K1) as (<- & <-). destruct (back_fun _ _ _ _ _ _ B K2) as (<- & <-).
      replace (Nat.leb (List.length a) (List.length c)) with false by (symmetry; apply Nat.leb_gt; exact L). reflexivity. }
  intros u x t ws ws' H H'. destruct (W _ _ _ _ H) as (D1 & D2 & A1 & A2 & A3 & A4). destruct (W _ _ _ _ H') as (_ & _ & B1 & B2 & B3 & B4).
  destruct D1 as [(a & b & F)|F], D2 as [(c & d & B)|B].
  - rewrite (A4 a b c d F B), (B4 a b c d F B). reflexivity.
  - rewrite (A1 a b F B), (B1 a b F B). reflexivity.
  - rewrite (A2 c d B F), (B2 c d B F). reflexivity.
  - rewrite (A3 F B), (B3 F B). reflexivity.
Qed.

(** ** Words of digits and letters *)
Lemma between_inv : forall u g1 g2 f1 f2 a b P Q s s', (forall s, mt u false g1 s = guard (f1 s) s) -> (forall s, mt u false g2 s = guard (f2 s) s) ->
  no_cap a = true -> no_cap b = true -> rlang u false a P -> rlang u false b Q -> In s' (mt u false (between g1 g2 a b) s) ->
  exists x y, f1 s = true /\ m_rest s = x ++ y ++ m_rest s' /\ P x /\ Q y /\ cap 1 s' = x /\ cap 2 s' = y /\ f2 s' = true /\ m_prev s' = m_prev (adv s (x ++ y)).
Proof.
  intros u g1 g2 f1 f2 a b P Q s s' G1 G2 Na Nb LP LQ H. unfold between in H.
  change (In s' (flat_map (mt u false (RCat (RCap 1 a) (RCat (RCap 2 b) (RCat g2 REmpty)))) (mt u false g1 s))) in H.
  apply in_flat_map in H. destruct H as (s0 & H0 & H). rewrite G1 in H0. apply guard_in in H0. destruct H0 as (F1 & ->).
  change (In s' (flat_map (mt u false (RCat (RCap 2 b) (RCat g2 REmpty))) (mt u false (RCap 1 a) s))) in H.
  apply in_flat_map in H. destruct H as (s1 & H1 & H).
  change (In s' (flat_map (mt u false (RCat g2 REmpty)) (mt u false (RCap 2 b) s1))) in H.
  apply in_flat_map in H. destruct H as (s2 & H2 & H). rewrite cat_empty, G2 in H. apply guard_in in H. destruct H as (F2 & ->).
  cbn [mt] in H1, H2. apply in_map_iff in H1. destruct H1 as (r1 & <- & H1). apply in_map_iff in H2. destruct H2 as (r2 & <- & H2).
  destruct (mt_reads _ _ _ _ _ H1) as (x & Rx). destruct (mt_reads _ _ _ _ _ H2) as (y & Ry). rewrite (consumed_reads _ _ _ Rx) in *. rewrite (consumed_reads _ _ _ Ry) in *.
  assert (Px := reads_lang _ _ _ _ _ _ _ LP H1 Rx). assert (Qy := reads_lang _ _ _ _ _ _ _ LQ H2 Ry).
  exists x, y. split; [exact F1|]. destruct Rx as (Ex & Px'). destruct Ry as (Ey & Py'). cbn [m_rest m_prev] in *. split; [rewrite Ex, Ey; reflexivity|].
  split; [exact Px|]. split; [exact Qy|]. assert (C2 := mt_caps _ _ _ Nb _ _ H2). cbn [m_caps] in C2.
  split; [unfold cap; cbn [m_caps cap_find Nat.eqb]; rewrite C2; reflexivity|]. split; [reflexivity|]. split; [exact F2|]. rewrite Py'. unfold adv. cbn [m_prev]. rewrite rev_app_distr. destruct (rev y); [|reflexivity].
  simpl. rewrite Px'. reflexivity.
Qed.
Lemma between_make : forall u g1 g2 f1 f2 a b P Q s x y r, (forall s, mt u false g1 s = guard (f1 s) s) -> (forall s, mt u false g2 s = guard (f2 s) s) ->
  rlang u false a P -> rlang u false b Q -> m_rest s = x ++ y ++ r -> P x -> Q y -> f1 s = true ->
  (forall s', m_rest s' = r -> m_prev s' = m_prev (adv s (x ++ y)) -> f2 s' = true) ->
  exists s', In s' (mt u false (between g1 g2 a b) s).
Proof.
  intros u g1 g2 f1 f2 a b P Q s x y r G1 G2 LP LQ E Px Qy F1 F2. unfold between.
  destruct (proj2 (LP s (y ++ r)) (ex_intro _ x (conj E Px))) as (s1 & H1 & E1).
  set (s1' := mkM (m_prev s1) (m_rest s1) ((1%nat, consumed s s1) :: m_caps s1)).
  assert (E1' : m_rest s1' = y ++ r) by exact E1.
  destruct (proj2 (LQ s1' r) (ex_intro _ y (conj E1' Qy))) as (s2 & H2 & E2).
  set (s2' := mkM (m_prev s2) (m_rest s2) ((2%nat, consumed s1' s2) :: m_caps s2)). exists s2'.
  change (In s2' (flat_map (mt u false (RCat (RCap 1 a) (RCat (RCap 2 b) (RCat g2 REmpty)))) (mt u false g1 s))). apply in_flat_map. exists s. rewrite G1, F1. split; [left; reflexivity|].
  change (In s2' (flat_map (mt u false (RCat (RCap 2 b) (RCat g2 REmpty))) (mt u false (RCap 1 a) s))). apply in_flat_map. exists s1'.
  split; [cbn [mt]; apply in_map_iff; exists s1; split; [reflexivity|exact H1]|].
  change (In s2' (flat_map (mt u false (RCat g2 REmpty)) (mt u false (RCap 2 b) s1'))). apply in_flat_map. exists s2'.
  split; [cbn [mt]; apply in_map_iff; exists s2; split; [reflexivity|exact H2]|]. rewrite cat_empty, G2.
  destruct (mt_reads _ _ _ _ _ H1) as (x' & Rx & Px'). destruct (mt_reads _ _ _ _ _ H2) as (y' & Ry & Py').
  assert (x' = x). { rewrite E, E1 in Rx. apply app_inv_tail in Rx. symmetry. exact Rx. } assert (y' = y). { rewrite E1', E2 in Ry. apply app_inv_tail in Ry. symmetry. exact Ry. } subst x' y'.
  rewrite F2; [left; reflexivity|exact E2|]. cbn [m_prev s2']. rewrite Py'. unfold adv. cbn [m_prev s1']. rewrite rev_app_distr. destruct (rev y); [|reflexivity]. simpl. exact Px'.
Qed.
Lemma search_none : forall u r t prev, (forall a b, t = a ++ b -> mt u false r (mkM (m_prev (adv (mkM prev t []) a)) b []) = []) -> search_from u false r prev t = None.
Proof.
  intros u r. induction t as [|c t IH]; intros prev H.
  - cbn [search_from]. rewrite (H [] [] eq_refl : mt u false r (mkM prev [] []) = []). reflexivity.
  - cbn [search_from]. rewrite (H [] (c :: t) eq_refl : mt u false r (mkM prev (c :: t) []) = []). rewrite IH; [reflexivity|].
    intros a b E. assert (K := H (c :: a) b ltac:(rewrite E; reflexivity)). unfold adv in *. cbn [m_prev m_rest rev] in *.
    destruct (rev a) as [|z q]; [exact K|]. exact K.
Qed.
Lemma search_first : forall u r t prev s, In s (mt u false r (mkM prev t [])) -> exists s', In s' (mt u false r (mkM prev t [])) /\ search_from u false r prev t = Some ([], s').
Proof.
  intros u r t prev s H. destruct (mt u false r (mkM prev t [])) as [|s' l] eqn:E; [destruct H|]. exists s'. split; [left; reflexivity|]. destruct t; cbn [search_from]; rewrite E; reflexivity.
Qed.
Lemma lang_digits : forall u, rlang u false dig_re (digits u).
Proof.
  intros u. eapply lang_weaken; [|apply lang_cat; [apply lang_plus_set|apply lang_empty]]. intros t. unfold digits, all_of, set_pred. cbn [existsb item_has xorb]. split.
  - intros (x & y & -> & (N & F) & ->). rewrite app_nil_r. split; [exact N|]. eapply Forall_impl; [|exact F]. intros c H. cbn in H. destruct (u_digit u c); [reflexivity|discriminate].
  - intros (N & F). exists t, []. split; [symmetry; apply app_nil_r|]. split; [|reflexivity]. split; [exact N|]. eapply Forall_impl; [|exact F]. intros c H. cbn in *. rewrite H. reflexivity.
Qed.
Lemma lang_letter : forall u, rlang u false let_re (fun t => exists c, t = [c] /\ u_alpha u c = true).
Proof.
  intros u. eapply lang_weaken; [|apply lang_cat; [apply lang_set|apply lang_empty]]. intros t. unfold set_pred. cbn [existsb item_has xorb]. split.
  - intros (x & y & -> & (c & -> & H) & ->). exists c. split; [reflexivity|]. cbn in H. destruct (u_alpha u c); [reflexivity|discriminate].
  - intros (c & -> & H). exists [c], []. split; [reflexivity|]. split; [|reflexivity]. exists c. split; [reflexivity|]. rewrite H. reflexivity.
Qed.
Lemma sep_line : forall c, is_sep c = true -> line_end c.
Proof. intros c H. unfold is_sep in H. rewrite !orb_true_iff, !N.eqb_eq in H. unfold line_end. simpl. intuition auto. Qed.
Section M.
  Variable u : uni.
  Hypothesis WT : word_tables u.
  Notation r1 := (between RBol REol dig_re let_re).
  Notation r2 := (between RWordStart RWordEnd let_re dig_re).
  Lemma word_no_sep : forall c, u_word u c = true -> is_sep c = false.
  Proof. intros c H. destruct (is_sep c) eqn:E; [|reflexivity]. apply sep_line in E. destruct WT as (_ & _ & _ & K). rewrite (K c (or_introl E)) in H. discriminate. Qed.
  Lemma last_word : forall prev t a b, Forall (fun c => u_word u c = true) t -> t = a ++ b -> a <> [] -> exists p, m_prev (adv (mkM prev t []) a) = Some p /\ u_word u p = true.
  Proof.
    intros prev t a b F E N. unfold adv. cbn [m_prev]. destruct (rev a) as [|p q] eqn:R; [exfalso; apply N; rewrite <- (rev_involutive a), R; reflexivity|]. exists p. split; [reflexivity|].
    rewrite Forall_forall in F. apply F. rewrite E. apply in_app_iff. left. apply in_rev. rewrite R. left. reflexivity.
  Qed.
  Lemma r1_inv : forall prev t s, Forall (fun c => u_word u c = true) t -> In s (mt u false r1 (mkM prev t [])) ->
    at_bol (mkM prev t []) = true /\ exists a c, digits_letter u t a c /\ cap 1 s = a /\ cap 2 s = [c] /\ m_rest s = [].
  Proof.
    intros prev t s F H. destruct (between_inv u RBol REol at_bol at_eol dig_re let_re _ _ _ _ (fun _ => eq_refl) (fun _ => eq_refl) eq_refl eq_refl (lang_digits u) (lang_letter u) H)
      as (a & y & G1 & E & D & (c & -> & A) & C1 & C2 & G2 & _). split; [exact G1|]. cbn [m_rest] in E. exists a, c.
    assert (R : m_rest s = []). { destruct (m_rest s) as [|z q] eqn:R; [reflexivity|exfalso]. unfold at_eol in G2. rewrite R in G2. rewrite (word_no_sep z) in G2; [discriminate|].
      rewrite Forall_forall in F. apply F. rewrite E, !in_app_iff. right. right. left. reflexivity. }
    split; [|split; [exact C1|split; [exact C2|exact R]]]. split; [|split; assumption]. rewrite E, R. reflexivity.
  Qed.
  Lemma r2_inv : forall prev t s, In s (mt u false r2 (mkM prev t [])) ->
    at_word_start u (mkM prev t []) = true /\ exists c a, t = c :: a ++ m_rest s /\ u_alpha u c = true /\ digits u a /\ cap 1 s = [c] /\ cap 2 s = a /\ next_word u s = false.
  Proof.
    intros prev t s H. destruct (between_inv u RWordStart RWordEnd (at_word_start u) (at_word_end u) let_re dig_re _ _ _ _ (fun _ => eq_refl) (fun _ => eq_refl) eq_refl eq_refl (lang_letter u) (lang_digits u) H)
      as (x & a & G1 & E & (c & -> & A) & D & C1 & C2 & G2 & _). split; [exact G1|]. cbn [m_rest] in E. exists c, a. split; [exact E|].
    split; [exact A|]. split; [exact D|]. split; [exact C1|]. split; [exact C2|]. unfold at_word_end in G2. apply andb_true_iff in G2. destruct G2 as (_ & G2). apply negb_true_iff in G2. exact G2.
  Qed.
  Lemma none_in : forall A (l : list A), (forall y, ~ In y l) -> l = [].
  Proof. intros A [|y l] H; [reflexivity|]. exfalso. apply (H y). left. reflexivity. Qed.
  Lemma search_nil : forall r prev, two_part u r -> search_from u false r prev [] = None.
  Proof.
    intros r prev T. apply search_none. intros a b E. symmetry in E. apply app_eq_nil in E. destruct E as (-> & ->). apply none_in. intros y Hy. apply T in Hy. destruct Hy as (N & _ & E).
    cbn [m_rest] in E. symmetry in E. apply app_eq_nil in E. tauto.
  Qed.
  Lemma two1 : two_part u r1. Proof. exact (two_parts u RBol REol dig_re let_re guard_bol guard_eol eq_refl (digits_some u) (letter_some u)). Qed.
  Lemma two2 : two_part u r2. Proof. exact (two_parts u RWordStart RWordEnd let_re dig_re guard_ws guard_we eq_refl (letter_some u) (digits_some u)). Qed.
  Lemma replace_nil : forall f r prev, two_part u r -> replace_from f u r prev [] = [].
  Proof. intros [|f] r prev T; [reflexivity|]. cbn [replace_from]. rewrite search_nil by exact T. reflexivity. Qed.
  Lemma replace_same : forall f r prev t, search_from u false r prev t = None -> replace_from f u r prev t = t.
  Proof. intros [|f] r prev t H; [reflexivity|]. cbn [replace_from]. rewrite H. reflexivity. Qed.
  Lemma replace_one : forall f r t s, two_part u r -> search_from u false r None t = Some ([], s) -> m_rest s = [] -> replace_from (S f) u r None t = cap 1 s ++ [SP] ++ cap 2 s.
  Proof. intros f r t s T H R. cbn [replace_from]. rewrite H, R, replace_nil by exact T. rewrite app_nil_r. reflexivity. Qed.
  Lemma digit_not_letter : forall c, u_digit u c = true -> u_alpha u c = true -> False.
  Proof. intros c D A. destruct WT as (K & _). destruct (K c A) as (_ & Q). congruence. Qed.
  Lemma split_two : forall a b, ~ In SP a -> ~ In SP b -> b <> [] -> split_blanks (a ++ [SP] ++ b) = [a; b].
  Proof.
    intros a b Na Nb N. assert (B : split_blanks b = [b]).
    { clear N a Na. induction b as [|c b IH]; [reflexivity|]. cbn [split_blanks]. simpl in Nb. destruct (c =? SP) eqn:E; [apply N.eqb_eq in E; tauto|]. rewrite IH by tauto. reflexivity. }
    induction a as [|c a IH].
    - simpl app. cbn [split_blanks]. rewrite N.eqb_refl. destruct b as [|d b]; [congruence|]. destruct (d =? SP) eqn:E; [apply N.eqb_eq in E; simpl in Nb; tauto|]. rewrite B. reflexivity.
    - simpl app. cbn [split_blanks]. simpl in Na. destruct (c =? SP) eqn:E; [apply N.eqb_eq in E; tauto|]. change (a ++ SP :: b) with (a ++ [SP] ++ b). rewrite IH by tauto. reflexivity.
  Qed.
  Lemma split_whole : forall t, ~ In SP t -> split_blanks t = [t].
  Proof. induction t as [|c b IH]; intros H; [reflexivity|]. cbn [split_blanks]. simpl in H. destruct (c =? SP) eqn:E; [apply N.eqb_eq in E; tauto|]. rewrite IH by tauto. reflexivity. Qed.
  Lemma mixed_ok : forall t, t <> [] -> Forall (fun c => u_word u c = true) t -> mixed u t (mixed_words u t).
  Proof.
    intros t N F. unfold mixed_words, rreplace.
    replace (parse_re (s2t "^(\d+)([[:alpha:]\p{L}])$")) with (Some r1) by (vm_compute; reflexivity).
    replace (parse_re (s2t "\<([[:alpha:]\p{L}])(\d+)\>")) with (Some r2) by (vm_compute; reflexivity).
    assert (NB : ~ In SP t). { intros K. rewrite Forall_forall in F. apply F in K. destruct WT as (_ & _ & _ & Q). unfold SP in K. rewrite (Q 32 (or_intror eq_refl)) in K. discriminate. }
    assert (First : (exists a c, digits_letter u t a c) \/ forall a c, ~ digits_letter u t a c).
    { destruct (mt u false r1 (mkM None t [])) as [|s l] eqn:E.
      - right. intros a c (Et & D & A). destruct (between_make u RBol REol at_bol at_eol dig_re let_re _ _ (mkM None t []) a [c] [] (fun _ => eq_refl) (fun _ => eq_refl) (lang_digits u) (lang_letter u)) as (s' & H);
          [exact Et|exact D|exists c; auto|reflexivity|intros s' R _; unfold at_eol; rewrite R; reflexivity|]. rewrite E in H. destruct H.
      - left. destruct (r1_inv None t s F) as (_ & a & c & H & _); [rewrite E; left; reflexivity|]. exists a, c. exact H. }
    destruct First as [(a & c & Et & D & A)|No1].
    - assert (R1 : replace_from (S (List.length t)) u r1 None t = a ++ [SP] ++ [c]).
      { destruct (between_make u RBol REol at_bol at_eol dig_re let_re _ _ (mkM None t []) a [c] [] (fun _ => eq_refl) (fun _ => eq_refl) (lang_digits u) (lang_letter u)) as (s0 & H0);
          [exact Et|exact D|exists c; auto|reflexivity|intros s' R _; unfold at_eol; rewrite R; reflexivity|].
        destruct (search_first u r1 t None s0 H0) as (s & H & Es). destruct (r1_inv None t s F H) as (_ & a' & c' & (Et' & _) & C1 & C2 & R).
        rewrite (replace_one _ r1 t s two1 Es R). rewrite Et in Et'. apply app_inj_tail in Et'. destruct Et' as (<- & <-). rewrite C1, C2. reflexivity. }
      rewrite R1. rewrite replace_same.
      + rewrite split_two; [apply mx_digits; split; [exact Et|split; assumption]| | |discriminate].
        * intros K. apply NB. rewrite Et. apply in_app_iff. left. exact K.
        * intros K. apply NB. rewrite Et. apply in_app_iff. right. exact K.
      + apply search_none. intros p q E. apply none_in. intros s Hs. apply r2_inv in Hs. destruct Hs as (G & c' & a' & Eq & A' & D' & _).
        (* where the letter stands *)
        assert (Da : forall z, In z a -> u_digit u z = true). { destruct D as (_ & D). rewrite Forall_forall in D. exact D. }
        destruct (prefix_cases a ([SP] ++ [c]) p q E) as [(l & E1 & E2)|(l & E1 & E2)].
        * destruct l as [|z l].
          { simpl in E2. rewrite Eq in E2. injection E2 as K _. subst c'. destruct WT as (W1 & _ & _ & W4). destruct (W1 SP A') as (W5 & _). rewrite (W4 SP (or_intror eq_refl)) in W5. discriminate. }
          rewrite E2 in Eq. injection Eq as <- _. apply (digit_not_letter z); [|exact A']. apply Da. rewrite E1. apply in_app_iff. right. left. reflexivity.
        * destruct l as [|z l].
          { simpl in E2. rewrite Eq in E2. injection E2 as K _. subst c'. destruct WT as (W1 & _ & _ & W4). destruct (W1 SP A') as (W5 & _). rewrite (W4 SP (or_intror eq_refl)) in W5. discriminate. }
          injection E2 as _ E2. destruct D' as (N' & _). rewrite Eq in E2. apply (f_equal (@List.length _)) in E2. rewrite app_length in E2. cbn [List.length] in E2. rewrite app_length in E2. destruct a'; [congruence|simpl in E2; lia].
    - assert (R1 : replace_from (S (List.length t)) u r1 None t = t).
      { apply replace_same. apply search_none. intros p q E. apply none_in. intros s Hs. destruct p as [|p0 p].
        - apply (r1_inv None q s) in Hs; [|rewrite E in F; exact F]. destruct Hs as (_ & a & c & H & _). simpl in E. rewrite <- E in H. exact (No1 a c H).
        - apply r1_inv in Hs; [|rewrite E in F; apply Forall_app in F; apply F]. destruct Hs as (G & _).
          destruct (last_word None t (p0 :: p) q F E ltac:(discriminate)) as (z & Ez & Wz). unfold at_bol in G. cbn [m_prev] in G. rewrite Ez, (word_no_sep z Wz) in G. discriminate. }
      rewrite R1. assert (At0 : at_word_start u (mkM None t []) = true).
      { unfold at_word_start, next_word, prev_word. cbn [m_rest m_prev]. destruct t as [|z t']; [congruence|]. inversion F as [|? ? Wz _]; subst. rewrite Wz. reflexivity. }
      assert (Second : (exists c a, letter_digits u t c a) \/ forall c a, ~ letter_digits u t c a).
      { destruct (mt u false r2 (mkM None t [])) as [|s l] eqn:E.
        - right. intros c a (Et & A & D). destruct (between_make u RWordStart RWordEnd (at_word_start u) (at_word_end u) let_re dig_re _ _ (mkM None t []) [c] a [] (fun _ => eq_refl) (fun _ => eq_refl) (lang_letter u) (lang_digits u)) as (s' & H);
            [cbn [m_rest]; rewrite app_nil_r; exact Et|exists c; auto|exact D|exact At0| |rewrite E in H; destruct H].
          intros s' R P. unfold at_word_end, next_word, prev_word. rewrite R, P. cbn [negb]. destruct (last_word None t ([c] ++ a) [] F) as (z & Ez & Wz); [rewrite app_nil_r; exact Et|discriminate|]. rewrite Ez, Wz. reflexivity.
        - left. destruct (r2_inv None t s) as (_ & c & a & Et & A & D & _ & _ & Nx); [rewrite E; left; reflexivity|]. exists c, a. split; [|split; assumption].
          assert (R : m_rest s = []). { destruct (m_rest s) as [|z q] eqn:R; [reflexivity|exfalso]. unfold next_word in Nx. rewrite R in Nx. rewrite Forall_forall in F. rewrite (F z) in Nx; [discriminate|].
            rewrite Et. right. apply in_app_iff. right. left. reflexivity. } rewrite Et, R, app_nil_r. reflexivity. }
      destruct Second as [(c & a & Et & A & D)|No2].
      + destruct (between_make u RWordStart RWordEnd (at_word_start u) (at_word_end u) let_re dig_re _ _ (mkM None t []) [c] a [] (fun _ => eq_refl) (fun _ => eq_refl) (lang_letter u) (lang_digits u)) as (s0 & H0);
          [cbn [m_rest]; rewrite app_nil_r; exact Et|exists c; auto|exact D|exact At0| |].
        { intros s' R P. unfold at_word_end, next_word, prev_word. rewrite R, P. cbn [negb]. destruct (last_word None t ([c] ++ a) [] F) as (z & Ez & Wz); [rewrite app_nil_r; exact Et|discriminate|]. rewrite Ez, Wz. reflexivity. }
        destruct (search_first u r2 t None s0 H0) as (s & H & Es). destruct (r2_inv None t s H) as (_ & c' & a' & Et' & A' & D' & C1 & C2 & Nx).
        assert (R : m_rest s = []). { destruct (m_rest s) as [|z q] eqn:R; [reflexivity|exfalso]. unfold next_word in Nx. rewrite R in Nx. rewrite Forall_forall in F. rewrite (F z) in Nx; [discriminate|].
          rewrite Et'. right. apply in_app_iff. right. left. reflexivity. }
        rewrite (replace_one _ r2 t s two2 Es R). rewrite R, app_nil_r in Et'. rewrite Et in Et'. injection Et' as <- <-. rewrite C1, C2. rewrite split_two.
        * apply mx_letter. split; [exact Et|split; assumption].
        * intros [K|[]]. apply NB. rewrite Et, K. left. reflexivity.
        * intros K. apply NB. rewrite Et. right. exact K.
        * apply D.
      + rewrite replace_same; [rewrite split_whole by exact NB; apply mx_none; assumption|]. apply search_none. intros p q E. apply none_in. intros s Hs. destruct p as [|p0 p].
        * simpl in E. subst q. destruct (r2_inv None t s Hs) as (_ & c & a & Et & A & D & _ & _ & Nx). apply (No2 c a). split; [|split; assumption].
          assert (R : m_rest s = []). { destruct (m_rest s) as [|z q] eqn:R; [reflexivity|exfalso]. unfold next_word in Nx. rewrite R in Nx. rewrite Forall_forall in F. rewrite (F z) in Nx; [discriminate|].
            rewrite Et. right. apply in_app_iff. right. left. reflexivity. } rewrite Et, R, app_nil_r. reflexivity.
        * apply r2_inv in Hs. destruct Hs as (G & _). destruct (last_word None t (p0 :: p) q F E ltac:(discriminate)) as (z & Ez & Wz).
          unfold at_word_start, prev_word in G. cbn [m_prev] in G. rewrite Ez, Wz, andb_false_r in G. discriminate.
  Qed.
End M.

(** ** The tokens of a word *)
Lemma tables_blank : forall u, word_tables u -> plain_blank u.
Proof.
  intros u (_ & D & L & B). assert (W := B 32 (or_intror eq_refl)). split; [exact W|]. split.
  - destruct (u_digit u 32) eqn:E; [|reflexivity]. apply D in E. congruence.
  - intros K. apply L in K. congruence.
Qed.
Lemma mixed_word : forall u t, word_tables u -> postal_head u t \/ postal_tail u t \/ words u t -> Forall (fun c => u_word u c = true) t.
Proof.
  intros u t (_ & D & L & _) H. apply Forall_forall. intros z K. destruct H as [H|[H|H]].
  - destruct H as (a & b & c & -> & Ha & Hb & Hc & _). rewrite !in_app_iff in K. rewrite Forall_forall in *.
    destruct K as [K|[K|K]]; [apply L, Ha; exact K|apply D, Hb; exact K|apply L, Hc; exact K].
  - destruct H as (a & b & c & -> & Ha & Hb & Hc). destruct K as [->|[->|[->|[]]]]; [auto|auto|destruct Hc; auto].
  - destruct H as (_ & F). rewrite Forall_forall in F. auto.
Qed.
Lemma parts_many : forall u x k ws, is_in_class k I_MIXED = false -> split_parts u x k = Ok ws -> ws <> [t_text k].
Proof.
  intros u x k ws M H E. subst ws. unfold split_parts in H. rewrite M in H. destruct (two_groups u _ (t_text k)) as [(a & b)| |]; try discriminate. cbn [obind] in H.
  destruct (two_groups u _ (t_text k)) as [(c & d)| |]; try discriminate. cbn [obind] in H. destruct a as [|a0 a]; [destruct d; discriminate|].
  destruct (Nat.eqb (blen d) 0 || Nat.eqb (blen b) (blen d)); [discriminate|]. destruct (_ && _); [discriminate|]. destruct (_ && _); discriminate.
Qed.
Lemma inlex_unlisted : forall u x w, t_inlex (classify u x (plain_token w) I_WORD) = false -> unlisted x (plain_token w).
Proof.
  intros u x w H. split; [reflexivity|]. intros le Hle. destruct (le_type le) as [|c l] eqn:Q; [reflexivity|]. exfalso.
  destruct (classify_listed u x (plain_token w) I_WORD c) as (K & _); [right; exists le; split; [exact Hle|rewrite Q; left; reflexivity]|congruence].
Qed.
Lemma word_exact : forall u x w, built x -> simple_words x -> word_tables u -> ~ In TAB w -> exists ks, word_tokens u x w = Ok ks /\ exact_word u x w ks.
Proof.
  intros u x w B SW WT T. destruct w as [|c0 w0]; [exists []; split; [reflexivity|left; auto]|]. unfold word_tokens. remember (c0 :: w0) as w eqn:Ew.
  assert (Nw : w <> []) by (rewrite Ew; discriminate). clear Ew c0 w0. rewrite token_plain by exact T. cbv zeta.
  pose proof (classify_made u x w I_WORD) as Hm. set (k := classify u x (plain_token w) I_WORD) in *. destruct (t_inlex k) eqn:L.
  - exists [k]. split; [reflexivity|]. right. left. split; [exact Nw|]. split; [|eauto]. intros U. destruct (classify_unlisted u x (plain_token w) I_WORD U) as (K & _). fold k in K. congruence.
  - assert (U := inlex_unlisted u x w L). destruct (classify_unlisted u x (plain_token w) I_WORD U) as (_ & (cls & R & I) & _ & Same). fold k in I, Same. cbn [t_text plain_token] in *.
    assert (Ca : carries u x w (t_text k)) by apply Hm. assert (Tk := carries_tab _ _ _ _ Ca T). assert (Nk := carries_some _ _ _ _ Ca Nw).
    unfold split_token. destruct (is_in_class k I_MIXED) eqn:M.
    + assert (M' := M). unfold is_in_class in M'. apply iset_mem_in in M'. apply I in M'. destruct (mixed_row u w cls R M') as (ND & Sh).
      assert (Ek : t_text k = w) by (apply Same; tauto). assert (Fw := mixed_word u w WT Sh).
      assert (Mx := mixed_ok u WT w Nw Fw). unfold split_parts. rewrite M, Ek. cbn [obind].
      assert (Pt : parts w (mixed_words u w)) by (apply mixed_keeps; [exact Nw|apply (mixed_no_blank u); [apply tables_blank; exact WT|exact Sh]]).
      assert (Fm := parts_made u x _ (parts_no_tab _ _ Pt T)). destruct (mixed_words u w) as [|v vs] eqn:Ev; [destruct Pt as (Pt & _); simpl in Pt; congruence|].
      eexists. split; [reflexivity|]. right. right. split; [exact Nw|]. split; [exact U|]. exists cls, w, (v :: vs). split; [exact R|]. split; [rewrite Ek in Ca; exact Ca|].
      split; [left; auto|]. destruct vs as [|v2 vs].
      * left. destruct Pt as (Pt & _). simpl in Pt. rewrite app_nil_r in Pt. subst v. split; [reflexivity|]. simpl map. exists (part_token u x w). split; [reflexivity|]. inversion Fm; assumption.
      * right. split; [discriminate|exact Fm].
    + destruct (attached_ok u x k B SW M) as (ws & E & At). rewrite E. cbn [obind]. assert (Many := parts_many u x k ws M E).
      assert (NM : ~ In I_MIXED cls). { intros K. apply I in K. unfold is_in_class in M. apply iset_mem_in in K. congruence. }
      destruct (split_parts_ok u x k B Nk) as [E'|(ws' & E' & P)]; [rewrite M; discriminate|congruence|]. assert (ws' = ws) by congruence. subst ws'.
      destruct ws as [|v vs].
      * simpl map. exists [k]. split; [reflexivity|]. right. right. split; [exact Nw|]. split; [exact U|]. exists cls, (t_text k), [t_text k].
        split; [exact R|]. split; [exact Ca|]. split; [right; auto|]. left. split; [reflexivity|]. eauto.
      * destruct P as [P|P]; [discriminate|]. assert (Fm := parts_made u x _ (parts_no_tab _ _ P Tk)).
        eexists. split; [reflexivity|]. right. right. split; [exact Nw|]. split; [exact U|]. exists cls, (t_text k), (v :: vs).
        split; [exact R|]. split; [exact Ca|]. split; [right; auto|]. right. split; [exact Many|exact Fm].
Qed.
Lemma pieces_exact : forall u x ps left, built x -> simple_words x -> word_tables u -> tab_tables u -> tab_free x -> well_read u x ps left ->
  exists groups, piece_tokens u x ps = Ok (concat groups) /\ Forall2 (exact_tokens u x) ps groups.
Proof.
  intros u x ps left B SW WT TT TF. induction ps as [|p ps IH]; intros W; [exists []; split; [reflexivity|constructor]|]. cbn [piece_tokens]. cbn [well_read] in W.
  destruct W as (_ & _ & TK & Sp & W). destruct (word_exact u x (pc_tok p) B SW WT (token_no_tab _ _ _ TT TF TK)) as (ks & -> & Hk). cbn [obind].
  destruct (IH W) as (groups & -> & Hg). cbn [obind]. exists ((ks ++ sep_tokens u x (pc_sep p)) :: groups).
  split; [cbn [concat]; rewrite <- app_assoc; reflexivity|]. constructor; [|exact Hg]. eexists. eexists. split; [reflexivity|]. split; [exact Hk|]. exact (sep_any _ _ _ _ TT Sp).
Qed.
Lemma tokens_exact : forall e x str, built x -> simple_words x -> tab_free x -> word_tables (e_uni e) -> tab_tables (e_uni e) -> blank_lines (e_uni e) (search_text e x str) ->
  exists ps groups, get_pieces e x str = Ok ps /\ all_tokens e x str = Ok (concat groups) /\ Forall2 (exact_tokens (e_uni e) x) ps groups.
Proof.
  intros e x str B SW TF WT TT BL. unfold all_tokens. destruct (pieces_end e x str B BL) as [K|(ps & E & _)]; [destruct (simple_no_throw e x str B SW K)|]. rewrite E. cbn [obind].
  destruct (pieces_read e x str ps B SW BL E) as (left & _ & W & _).
  destruct (pieces_exact (e_uni e) x ps left B SW WT TT TF W) as (groups & Eg & Hg). exists ps, groups. auto.
Qed.

(** ** There is one way only *)
Lemma row_fun : forall rows t c c', row_applies rows t c -> row_applies rows t c' -> c = c'.
Proof.
  induction rows as [|r rows IH]; intros t c c' (p & ro & q & E & F & H & C) (p' & ro' & q' & E' & F' & H' & C').
  - destruct p; discriminate.
  - destruct p as [|p0 p], p' as [|p0' p']; simpl in E, E'.
    + congruence.
    + exfalso. injection E as -> _. injection E' as -> _. apply Forall_inv in F'. exact (F' H).
    + exfalso. injection E as -> _. injection E' as -> _. apply Forall_inv in F. exact (F H').
    + injection E as -> E. injection E' as _ E'. apply (IH t).
      * exists p, ro, q. split; [exact E|]. split; [exact (Forall_inv_tail F)|auto].
      * exists p', ro', q'. split; [exact E'|]. split; [exact (Forall_inv_tail F')|auto].
Qed.
Lemma carries_fun : forall u x w t t', carries u x w t -> carries u x w t' -> t = t'.
Proof.
  intros u x w t t' [(A & ->)|(A & a & b & E & Na & ->)] [(A' & ->)|(A' & a' & b' & E' & Na' & ->)]; try tauto.
  rewrite E in E'. clear E A A' u x w. revert a' Na' E'. induction a as [|c a IH]; intros [|c' a'] Na' E'; simpl in *.
  - congruence.
  - exfalso. injection E' as <- _. tauto.
  - exfalso. injection E' as -> _. tauto.
  - injection E' as -> E'. f_equal. apply IH; tauto.
Qed.
Lemma mixed_fun : forall u t ws ws', word_tables u -> mixed u t ws -> mixed u t ws' -> ws = ws'.
Proof.
  intros u t ws ws' (W & _) H H'.
  assert (X : forall a c c' a', digits_letter u t a c -> letter_digits u t c' a' -> False).
  { intros a c c' a' (E & (N1 & D) & _) (E' & A & _). destruct a as [|z a]; [congruence|]. rewrite E in E'. injection E' as -> _. apply Forall_inv in D. destruct (W c' A). congruence. }
  destruct H as [a c H|c a H|N1 N2], H' as [a' c' H'|c' a' H'|N1' N2'];
    [|destruct (X _ _ _ _ H H')|destruct (N1' _ _ H)|destruct (X _ _ _ _ H' H)| |destruct (N2' _ _ H)|destruct (N1 _ _ H')|destruct (N2 _ _ H')|reflexivity].
  - destruct H as (E & _), H' as (E' & _). rewrite E in E'. apply app_inj_tail in E'. destruct E' as (<- & <-). reflexivity.
  - destruct H as (E & _), H' as (E' & _). rewrite E in E'. injection E' as <- <-. reflexivity.
Qed.
Lemma made_same : forall u x d w k k', made_from u x d w k -> made_from u x d w k' -> same_token k k'.
Proof.
  intros u x d w k k' (C & _ & (L1 & L2) & S1 & O1 & A1) (C' & _ & (L1' & L2') & S1' & O1' & A1'). split; [exact (carries_fun _ _ _ _ _ C C')|].
  assert (Ds : unlisted x (plain_token w) \/ ~ unlisted x (plain_token w)).
  { unfold unlisted. cbn [t_in plain_token t_text]. destruct (existsb (fun le => match le_type le with [] => false | _ => true end) (lex_find x w)) eqn:Ex.
    - right. intros (_ & K). apply existsb_exists in Ex. destruct Ex as (le & I & Q). rewrite (K le I) in Q. discriminate.
    - left. split; [reflexivity|]. intros le I. destruct (le_type le) eqn:Q; [reflexivity|]. assert (K : existsb (fun le => match le_type le with [] => false | _ => true end) (lex_find x w) = true).
      { apply existsb_exists. exists le. rewrite Q. auto. } congruence. }
  destruct Ds as [U|U].
  - destruct (L2 U) as (E & cls & R & I), (L2' U) as (E' & cls' & R' & I'). rewrite (row_fun _ _ _ _ R' R) in I'. split; [intros c; rewrite I, I'; reflexivity|]. repeat (split; [congruence|]). congruence.
  - destruct (L1 U) as (E & I), (L1' U) as (E' & I'). split; [intros c; rewrite I, I'; reflexivity|]. repeat (split; [congruence|]). congruence.
Qed.
Lemma made_all : forall u x d ws ks ks', Forall2 (made_from u x d) ws ks -> Forall2 (made_from u x d) ws ks' -> Forall2 same_token ks ks'.
Proof.
  intros u x d ws ks ks' F. revert ks'. induction F as [|w k ws ks H F IH]; intros ks' F'; inversion F' as [|? k' ? ks2 H' F2]; subst; [constructor|].
  constructor; [exact (made_same _ _ _ _ _ _ H H')|apply IH; exact F2].
Qed.
Lemma word_one : forall u x w ks ks', word_tables u -> exact_word u x w ks -> exact_word u x w ks' -> Forall2 same_token ks ks'.
Proof.
  intros u x w ks ks' WT [(E & ->)|[(Nw & L & k & -> & M)|(Nw & U & cls & w1 & ws & R & C & S & H)]] [(E' & ->)|[(Nw' & L' & k' & -> & M')|(Nw' & U' & cls' & w1' & ws' & R' & C' & S' & H')]];
    try congruence; try tauto; try constructor.
  - exact (made_same _ _ _ _ _ _ M M').
  - constructor.
  - rewrite <- (row_fun _ _ _ _ R R') in *. rewrite <- (carries_fun _ _ _ _ _ C C') in *. clear cls' R' C' w1'.
    assert (ws = ws'). { destruct S as [(I & S)|(I & S)], S' as [(I' & S')|(I' & S')]; try tauto; [exact (mixed_fun _ _ _ _ WT S S')|exact (attached_fun _ _ _ _ _ S S')]. } subst ws'.
    destruct H as [(Ew & k & -> & M)|(Ew & M)], H' as [(Ew' & k' & -> & M')|(Ew' & M')]; try tauto.
    + constructor; [exact (made_same _ _ _ _ _ _ M M')|constructor].
    + exact (made_all _ _ _ _ _ _ M M').
Qed.
