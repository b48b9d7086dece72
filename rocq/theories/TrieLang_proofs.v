(** The texts read by the pattern of a trie, comparing characters with or without regard to case. *)
From Coq Require Import String List NArith Bool Lia Arith Sorting.Sorted.
From Verif Require Import Base_model Uni_model Regex_model Trie_model Trie_spec Search_proofs Trie_proofs TrieRegex_proofs TrieWords_proofs Match_proofs.
Import ListNotations.
Local Open Scope N_scope.

Section T.
Variables (u : uni) (ic : bool).
Definition same_text (a b : text) : Prop := Forall2 (fun c d => ceq u ic c d = true) a b.
Definition like_word (t : trie) (x : text) : Prop := exists w, is_word w t = true /\ same_text w x.
Definition like_kid (kids : list (N * trie)) (x : text) : Prop :=
  exists c k w d y, In (c, k) kids /\ is_word w k = true /\ x = d :: y /\ ceq u ic c d = true /\ same_text w y.
Lemma like_node : forall n e kids x, StronglySorted (fun a b : N * trie => fst a < fst b) kids ->
  (like_word (Node n e kids) x <-> like_kid kids x \/ (e = true /\ x = [])).
Proof.
  intros n e kids x Hs. split.
  - intros (w & Hw & S). destruct w as [|c w].
    + simpl in Hw. inversion S; subst. auto.
    + simpl in Hw. destruct (kid_find c kids) as [k|] eqn:F; [|discriminate]. inversion S as [|? d ? y Hd Hy]; subst.
      left. exists c, k, w, d, y. split; [apply kid_find_in; exact F|]. auto.
  - intros [(c & k & w & d & y & Hk & Hw & -> & Hd & Hy)|(-> & ->)].
    + exists (c :: w). split; [|constructor; assumption]. simpl.
      assert (F : kid_find c kids = Some k).
      { clear - Hs Hk. induction Hs as [|[a t] l Hl IH Ha]; [destruct Hk|]. simpl. destruct Hk as [Hk|Hk].
        - injection Hk as -> ->. rewrite N.eqb_refl. reflexivity.
        - rewrite Forall_forall in Ha. specialize (Ha _ Hk). simpl in Ha. replace (a =? c) with false by (symmetry; apply N.eqb_neq; lia).
          apply IH. exact Hk. }
      rewrite F. exact Hw.
    + exists []. split; [reflexivity|constructor].
Qed.
Definition node_lang (t : trie) (l : list (re * bool)) : Prop := parses (get_regexp t) l /\ rlang u ic (seq_re l) (like_word t).

Lemma lang_chr : forall c, rlang u ic (RChr c) (fun a => exists d, a = [d] /\ ceq u ic c d = true).
Proof.
  intros c. eapply lang_weaken; [|apply lang_set]. intros t. cbv beta. unfold set_pred. cbn [existsb item_has].
  split; intros (d & -> & H); exists d; (split; [reflexivity|]); rewrite orb_false_r in *; destruct (ceq u ic c d); auto.
Qed.
Lemma lang_one : forall a q P, rlang u ic a P -> rlang u ic (seq_re [(a, q)]) P.
Proof. intros a q P H s b. rewrite mt_one. apply H. Qed.
(** Alternatives, each with its own language. *)
Lemma lang_alts : forall (ls : list re) (Ps : list (text -> Prop)), Forall2 (rlang u ic) ls Ps -> ls <> [] ->
  rlang u ic (alt_of ls) (fun t => exists P, In P Ps /\ P t).
Proof.
  intros ls Ps H. induction H as [|r P ls Ps Hr Hls IH]; intros N; [congruence|].
  destruct ls as [|r2 ls].
  - inversion Hls; subst. simpl. eapply lang_weaken; [|exact Hr]. intros t. split; [intros K; exists P; simpl; auto|].
    intros (Q & [<-|[]] & K). exact K.
  - change (alt_of (r :: r2 :: ls)) with (RAlt r (alt_of (r2 :: ls))).
    eapply lang_weaken; [|apply lang_alt; [exact Hr|apply IH; discriminate]]. intros t. split.
    + intros [K|(Q & HQ & K)]; [exists P|exists Q]; split; simpl; auto.
    + intros (Q & [<-|HQ] & K); [left; exact K|right; exists Q; auto].
Qed.
Lemma lang_kid : forall c k l, rlang u ic (seq_re l) (like_word k) -> rlang u ic (seq_re ((RChr c, true) :: l)) (like_kid [(c, k)]).
Proof.
  intros c k l H. simpl seq_re. eapply lang_weaken; [|apply lang_cat; [apply lang_chr|exact H]]. intros t. split.
  - intros (x & y & -> & (d & -> & Hd) & w & Hw & Sw). exists c, k, w, d, y. simpl. auto.
  - intros (c' & k' & w & d & y & [E|[]] & Hw & -> & Hd & Sy). injection E as <- <-. exists [d], y. split; [reflexivity|].
    split; [exists d; auto|exists w; auto].
Qed.
Lemma leaf_lang : forall kids, Forall (fun ck => live (snd ck)) kids -> Forall (fun ck => leaf (snd ck) = true) kids ->
  rlang u ic (RSet false (map IChr (map fst kids))) (like_kid kids).
Proof.
  intros kids HL HF. eapply lang_weaken; [|apply lang_set]. intros t. cbv beta. unfold set_pred.
  assert (LW : forall k, live k -> leaf k = true -> forall w, is_word w k = true <-> w = []).
  { intros k L F w. rewrite leaf_spec in F by exact L. destruct L as [n e ks He HK]. simpl in F. destruct ks; [|discriminate].
    destruct He as [->|He]; [|congruence]. destruct w; simpl; split; congruence. }
  rewrite Forall_forall in HL, HF. split.
  - intros (d & -> & H). rewrite xorb_false_l in H. apply existsb_exists in H. destruct H as (i & Hi & H).
    apply in_map_iff in Hi. destruct Hi as (c & <- & Hi). apply in_map_iff in Hi. destruct Hi as ([c' k] & <- & Hk).
    exists c', k, [], d, []. split; [exact Hk|]. split; [apply (LW k); [apply (HL _ Hk)|apply (HF _ Hk)|reflexivity]|].
    split; [reflexivity|]. split; [exact H|constructor].
  - intros (c & k & w & d & y & Hk & Hw & -> & Hd & Sy). exists d.
    apply (LW k) in Hw; [|apply (HL _ Hk)|apply (HF _ Hk)]. subst w. inversion Sy; subst. split; [reflexivity|].
    rewrite xorb_false_l. apply existsb_exists. exists (IChr c). split; [|exact Hd]. apply in_map. apply in_map_iff. exists (c, k). auto.
Qed.

Lemma trie_lang : forall (P : N -> Prop) t, (forall c, P c -> plain_char c) -> wf t -> live t -> chars P t ->
  (t_fin t = true -> t_kids t <> []) ->
  exists l, node_lang t l.
Proof.
  intros P t HP. induction t as [n e kids IHk] using trie_ind'. intros W L C Hroot.
  inversion W as [? ? ? Hs Hw]; subst. inversion L as [? ? ? He Hl]; subst. inversion C as [? ? ? Hc]; subst. simpl in Hroot.
  assert (Hkids : kids <> []). { destruct He as [->|He]; auto. }
  assert (HPk : Forall (fun ck => P (fst ck)) kids). { eapply Forall_impl; [|exact Hc]. simpl. tauto. }
  assert (NL : exists ls, Forall2 (fun ck l => exists l', l = (RChr (fst ck), true) :: l' /\ node_lang (snd ck) l')
     (filter (fun ck => negb (leaf (snd ck))) kids) ls).
  { clear Hs Hkids Hroot He W L C. induction kids as [|[c k] kids IH]; [exists []; constructor|].
    inversion IHk; subst. inversion Hw; subst. inversion Hl; subst. inversion Hc; subst. inversion HPk; subst.
    destruct IH as (ls & Hls); try assumption.
    cbn [filter snd]. destruct (leaf k) eqn:F; cbn [negb]; [exists ls; exact Hls|].
    simpl in *. match goal with H : wf k -> _ |- _ => destruct H as (l & Hln) end; try tauto.
    { rewrite leaf_spec in F by assumption. destruct (t_kids k); [discriminate|discriminate]. }
    exists (((RChr c, true) :: l) :: ls). constructor; [|exact Hls]. exists l. split; [reflexivity|exact Hln]. }
  destruct NL as (ls & HNL).
  set (A := alts_of kids). set (Lv := leaves kids).
  assert (HPf : forall f, Forall (fun ck => P (fst ck)) (filter f kids)).
  { intros f. apply Forall_forall. intros x Hx. apply filter_In in Hx. rewrite Forall_forall in HPk. apply HPk. apply Hx. }
  assert (Hpl : Forall plain_char Lv).
  { unfold Lv, leaves. apply Forall_forall. intros c Hin. apply in_map_iff in Hin. destruct Hin as (ck & <- & Hin).
    apply HP. specialize (HPf (fun ck => leaf (snd ck))). rewrite Forall_forall in HPf. apply HPf. exact Hin. }
  assert (HA : Forall2 parses A ls).
  { unfold A, alts_of. specialize (HPf (fun ck => negb (leaf (snd ck)))). clear - HNL HPf HP. induction HNL as [|ck l kk ll (l' & -> & Hn & _) H IH].
    - constructor.
    - inversion HPf; subst. constructor; [|apply IH; assumption]. apply parses_quote_app; auto. }
  set (cc := map (fun c => quote_meta [c]) Lv).
  set (alt' := match cc with [] => A | [x] => A ++ [x] | _ => A ++ [s2t "[" ++ concat cc ++ s2t "]"] end).
  set (ls' := match Lv with [] => ls | _ => ls ++ [[(RSet false (map IChr Lv), true)]] end).
  assert (HA' : Forall2 parses alt' ls').
  { unfold alt', ls', cc. destruct Lv as [|c [|c2 Lv]]; cbn [map].
    - exact HA.
    - apply Forall2_app; [exact HA|]. constructor; [|constructor]. inversion Hpl; subst. apply parses_char; assumption.
    - apply Forall2_app; [exact HA|]. constructor; [|constructor].
      apply (parses_set (c :: c2 :: Lv)); [exact Hpl|discriminate]. }
  assert (Nalt : alt' <> []).
  { intros E. assert (Lv = [] /\ A = []) as (E1 & E2).
    { unfold alt', cc in E. destruct Lv as [|c [|c2 Lv']]; cbn [map] in E; [auto| |]; destruct A; discriminate. }
    unfold Lv, leaves in E1. unfold A, alts_of in E2. apply map_eq_nil in E1. apply map_eq_nil in E2.
    destruct kids as [|[c k] kids']; [congruence|]. simpl in E1, E2. destruct (leaf k); discriminate. }
  assert (Nls : ls' <> []). { intros E. rewrite E in HA'. inversion HA'; subst. congruence. }
  assert (SA' : rlang u ic (alt_of (map seq_re ls')) (like_kid kids)).
  { set (nk := filter (fun ck => negb (leaf (snd ck))) kids). set (lk := filter (fun ck => leaf (snd ck)) kids).
    assert (Q1 : Forall2 (rlang u ic) (map seq_re ls) (map (fun ck => like_kid [ck]) nk)).
    { fold nk in HNL. clear - HNL. induction HNL as [|[c k] l nk ls (l' & -> & _ & Hn) H IH]; [constructor|]. cbn [map]. constructor; [|exact IH].
      apply lang_kid. exact Hn. }
    assert (Q2 : rlang u ic (RSet false (map IChr Lv)) (like_kid lk)).
    { unfold Lv, leaves. apply leaf_lang; apply Forall_forall; intros ck Hck; apply filter_In in Hck.
      - rewrite Forall_forall in Hl. apply Hl. apply Hck.
      - apply Hck. }
    assert (SP : forall t, like_kid kids t <-> like_kid nk t \/ like_kid lk t).
    { intros t. unfold like_kid, nk, lk. split.
      - intros (c & k & w & d & y & Hk & R). destruct (leaf k) eqn:F; [right|left]; exists c, k, w, d, y; (split; [|exact R]);
          apply filter_In; simpl; rewrite F; auto.
      - intros [H|H]; destruct H as (c & k & w & d & y & Hk & R); exists c, k, w, d, y; (split; [|exact R]); apply filter_In in Hk; apply Hk. }
    assert (NK : forall t, (exists P0, In P0 (map (fun ck => like_kid [ck]) nk) /\ P0 t) <-> like_kid nk t).
    { intros t. split.
      - intros (Q & HQ & K). apply in_map_iff in HQ. destruct HQ as (ck & <- & HQ). destruct K as (c & k & w & d & y & [E|[]] & R). subst ck.
        exists c, k, w, d, y. auto.
      - intros (c & k & w & d & y & Hk & R). exists (like_kid [(c, k)]). split; [apply in_map_iff; exists (c, k); auto|].
        exists c, k, w, d, y. simpl. auto. }
    unfold ls' in *. destruct Lv as [|c0 Lv'] eqn:EL.
    - eapply lang_weaken; [|apply (lang_alts _ _ Q1); destruct ls; [congruence|discriminate]]. intros t. simpl. rewrite NK, SP.
      split; [auto|]. intros [K|K]; [exact K|]. destruct K as (c & k & w & d & y & Hk & _). exfalso.
      unfold Lv, leaves in EL. apply map_eq_nil in EL. fold lk in EL. rewrite EL in Hk. exact Hk.
    - rewrite map_app. eapply lang_weaken; [|apply (lang_alts _ (map (fun ck => like_kid [ck]) nk ++ [like_kid lk]))].
      + intros t. simpl. rewrite SP, <- NK. split.
        * intros (Q & HQ & K). apply in_app_iff in HQ. destruct HQ as [HQ|[<-|[]]]; [left; exists Q; auto|right; exact K].
        * intros [(Q & HQ & K)|K]; [exists Q|exists (like_kid lk)]; rewrite in_app_iff; simpl; auto.
      + apply Forall2_app; [exact Q1|]. constructor; [|constructor]. apply lang_one. exact Q2.
      + destruct ls; discriminate. }
  set (result := match alt' with [x] => x | _ => s2t "(?:" ++ join (s2t "|") alt' ++ s2t ")" end).
  assert (HR : exists lr, parses result lr /\ rlang u ic (seq_re lr) (like_kid kids) /\ (A = [] -> exists a, lr = [(a, true)])).
  { unfold result. destruct alt' as [|x [|y alt'']] eqn:EA; [congruence| |].
    - inversion HA' as [|? l1 ? ls1 Hx Hnil Ex El]. inversion Hnil; subst ls1. exists l1. split; [exact Hx|]. split.
      + rewrite <- El in SA'. exact SA'.
      + intros EA0. assert (ls = []). { rewrite EA0 in HA. inversion HA; reflexivity. } subst ls.
        unfold ls' in El. destruct Lv; [discriminate|]. simpl in El. injection El as El. rewrite El. eexists; reflexivity.
    - exists [(alt_of (map seq_re ls'), true)]. split; [apply parses_group; [exact HA'|discriminate]|]. split.
      + apply lang_one. exact SA'.
      + intros _. eexists; reflexivity. }
  destruct HR as (lr & HR1 & HR2 & HR3).
  assert (EQ : get_regexp (Node n e kids) = if e then (match A with [] => result ++ s2t "?" | _ => s2t "(?:" ++ result ++ s2t ")?" end) else result).
  { rewrite get_regexp_eq. replace (Nat.eqb (List.length kids) 0) with false by (destruct kids; [congruence|reflexivity]).
    rewrite andb_false_r. unfold finish_regexp. fold A. fold Lv. fold cc. fold alt'. fold result.
    replace (negb (Nat.eqb (List.length kids) 0)) with true by (destruct kids; [congruence|reflexivity]).
    rewrite andb_true_r. destruct e; [|reflexivity]. destruct A; reflexivity. }
  destruct e.
  - assert (OL : forall a, rlang u ic a (like_kid kids) -> rlang u ic (seq_re [(ROpt a, false)]) (like_word (Node n true kids))).
    { intros a Ha. apply lang_one. eapply lang_weaken; [|apply lang_opt; exact Ha]. intros t. simpl. rewrite like_node by exact Hs. tauto. }
    destruct A as [|a0 A'] eqn:EA.
    + destruct (HR3 eq_refl) as (a & ->). exists [(ROpt a, false)]. split.
      * rewrite EQ. apply parses_opt. exact HR1.
      * apply OL. intros s b. rewrite <- (mt_one u ic a true). apply HR2.
    + exists [(ROpt (seq_re lr), false)]. split.
      * rewrite EQ. replace (s2t "(?:" ++ result ++ s2t ")?") with ((s2t "(?:" ++ join (s2t "|") [result] ++ s2t ")") ++ s2t "?")
          by (simpl join; rewrite <- !app_assoc; reflexivity).
        apply parses_opt. apply (parses_group [result] [lr]); [constructor; [exact HR1|constructor]|discriminate].
      * apply OL. exact HR2.
  - exists lr. split; [rewrite EQ; exact HR1|]. eapply lang_weaken; [|exact HR2]. intros t. rewrite like_node by exact Hs.
    split; [auto|]. intros [K|(K & _)]; [exact K|discriminate].
Qed.
Lemma words_lang : forall (P : N -> Prop) ws, (forall c, P c -> plain_char c) -> all_words P ws -> (exists w, In w ws /\ w <> []) ->
  exists l, parses (get_regexp (trie_of ws)) l /\ rlang u ic (seq_re l) (fun x => exists w, w <> [] /\ In w ws /\ same_text w x).
Proof.
  intros P ws HP HW HE. destruct (trie_of_shape P ws HW) as (A1 & A2 & A3 & A4 & A5).
  destruct (trie_lang P (trie_of ws) HP A1 (A5 HE) A2) as (l & Hp & Hl); [rewrite A3; discriminate|].
  exists l. split; [exact Hp|]. eapply lang_weaken; [|exact Hl]. intros t. unfold like_word. split.
  - intros (w & Hw & S). apply (proj1 (trie_words ws)) in Hw. exists w. tauto.
  - intros (w & Hn & Hi & S). exists w. split; [apply (proj1 (trie_words ws)); tauto|exact S].
Qed.
End T.
