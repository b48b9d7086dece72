(** Tries filled with words: the pattern matches exactly the words. *)
From Coq Require Import String List NArith Bool Lia Sorting.Sorted.
From Verif Require Import Base_model Uni_model Regex_model Trie_model Trie_spec Search_proofs Trie_proofs TrieRegex_proofs.
Import ListNotations.
Local Open Scope N_scope.

Definition kids_live (t : trie) : Prop := Forall (fun ck => live (snd ck)) (t_kids t).
Lemma live_kids : forall t, live t -> kids_live t.
Proof. intros t H. inversion H; subst. assumption. Qed.
Lemma kid_set_nonempty : forall c k l, kid_set c k l <> [].
Proof. intros c k [|[d t] l]; simpl; [discriminate|]. destruct (c <? d); [discriminate|]. destruct (c =? d); discriminate. Qed.
Lemma live_add : forall w t, w <> [] -> kids_live t -> live (add_word w t).
Proof.
  induction w as [|c w IH]; intros t Hw HL; [congruence|]. destruct t as [n e kids]. unfold kids_live in HL. simpl in HL.
  cbn [add_word]. constructor; [right; apply kid_set_nonempty|].
  apply Forall_forall. intros x Hx. apply kid_set_in in Hx. rewrite Forall_forall in HL. destruct Hx as [->|Hx]; [|apply HL; exact Hx].
  cbn [snd]. destruct (kid_find c kids) as [[m e' ks]|] eqn:F.
  - apply kid_find_in in F. specialize (HL _ F). simpl in HL. inversion HL; subst. destruct w as [|d w].
    + constructor; auto.
    + apply IH; [discriminate|assumption].
  - destruct w as [|d w].
    + rewrite add_word_nil. constructor; auto.
    + apply IH; [discriminate|constructor].
Qed.
Lemma chars_add : forall P w t, Forall P w -> chars P t -> chars P (add_word w t).
Proof.
  intros P. induction w as [|c w IH]; intros t Hw HC; [rewrite add_word_nil; exact HC|]. inversion Hw; subst.
  destruct t as [n e kids]. inversion HC as [? ? ? HK]; subst. cbn [add_word]. constructor.
  apply Forall_forall. intros x Hx. apply kid_set_in in Hx. rewrite Forall_forall in HK. destruct Hx as [->|Hx]; [|apply HK; exact Hx].
  cbn [fst snd]. split; [assumption|]. destruct (kid_find c kids) as [[m e' ks]|] eqn:F.
  - apply kid_find_in in F. specialize (HK _ F). simpl in HK. destruct HK as (_ & HK). inversion HK; subst. destruct w as [|d w].
    + constructor; assumption.
    + apply IH; assumption.
  - apply IH; [assumption|constructor; constructor].
Qed.
Lemma fin_add : forall w t, t_fin (add_word w t) = t_fin t.
Proof. intros [|c w] [n e kids]; reflexivity. Qed.

Definition all_words (P : N -> Prop) (ws : list text) : Prop := forall w, In w ws -> forall c, In c w -> P c.
Lemma trie_of_shape : forall P ws, all_words P ws ->
  wf (trie_of ws) /\ chars P (trie_of ws) /\ t_fin (trie_of ws) = false /\ kids_live (trie_of ws) /\
  ((exists w, In w ws /\ w <> []) -> live (trie_of ws)).
Proof.
  intros P ws H.
  assert (G : forall ws t, all_words P ws -> wf t -> chars P t -> t_fin t = false -> kids_live t ->
    let t' := fold_left (fun t w => add_word w t) ws t in
    wf t' /\ chars P t' /\ t_fin t' = false /\ kids_live t' /\ (live t \/ (exists w, In w ws /\ w <> []) -> live t')).
  { clear. induction ws as [|w ws IH]; intros t H W C F K; simpl.
    - repeat split; auto. intros [L|(w & [] & _)]. exact L.
    - assert (Hw : Forall P w). { apply Forall_forall. intros c Hc. apply (H w); [left; reflexivity|exact Hc]. }
      assert (H' : all_words P ws). { intros x Hx. apply H. right. exact Hx. }
      assert (K' : kids_live (add_word w t)).
      { destruct w; [rewrite add_word_nil; exact K|]. apply live_kids, live_add; [discriminate|exact K]. }
      specialize (IH (add_word w t) H' (wf_add _ _ W) (chars_add _ _ _ Hw C) ltac:(rewrite fin_add; exact F) K').
      destruct IH as (A1 & A2 & A3 & A4 & A5). repeat split; auto.
      intros [L|(x & Hx & Hne)]; apply A5.
      + left. destruct w; [rewrite add_word_nil; exact L|]. apply live_add; [discriminate|exact K].
      + destruct Hx as [->|Hx]; [left; apply live_add; assumption|right; exists x; split; assumption]. }
  destruct (G ws (new_trie false) H (wf_new _)) as (A1 & A2 & A3 & A4 & A5); [constructor; constructor|reflexivity|constructor|].
  repeat split; auto.
Qed.

(** The pattern parses, and its ways of matching are the words that begin the text, longest first. *)
Lemma words_pattern : forall u ic (P : N -> Prop) ws, (forall c, P c -> plain_char c) -> all_words P ws -> (exists w, In w ws /\ w <> []) ->
  exists l, node_like u ic P (trie_of ws) l.
Proof.
  intros u ic P ws HP HW HE. destruct (trie_of_shape P ws HW) as (A1 & A2 & A3 & A4 & A5).
  apply trie_regexp; auto. rewrite A3. discriminate.
Qed.
Lemma words_regexp : forall u ic (P : N -> Prop) ws, (forall c, P c -> plain_char c) -> all_words P ws -> (exists w, In w ws /\ w <> []) ->
  exists l, node_ok u ic P (trie_of ws) l.
Proof. intros u ic P ws HP HW HE. destruct (words_pattern u ic P ws HP HW HE) as (l & H). exists l. apply like_ok. exact H. Qed.
Lemma hits_words : forall ws rest w, In w (hits (trie_of ws) rest) <-> w <> [] /\ In w ws /\ prefix_of w rest.
Proof. intros ws rest w. rewrite hits_in. rewrite (proj1 (trie_words ws)). tauto. Qed.

Lemma parses_top : forall t l, parses t l -> parse_re t = Some (seq_re l).
Proof.
  intros t l H. unfold parse_re. rewrite <- (app_nil_r t) at 1. rewrite H.
  unfold push_all. simpl. unfold p_finish. simpl. rewrite cat_of_rev. reflexivity.
Qed.

Lemma exact_sensitive : forall u P rest, exact_on u false P rest.
Proof. intros u P rest c d _ _ H. unfold ceq in H. apply N.eqb_eq in H. exact H. Qed.

Lemma trie_match : forall u ws s,
  (forall w, In w ws -> forall c, In c w -> c <> 94 /\ c <> 123 /\ c <> 125) -> (exists w, In w ws /\ w <> []) ->
  exists b, u32regex_match u false (get_regexp (trie_of ws)) s = Ok b /\ (b = true <-> s <> [] /\ In s ws).
Proof.
  intros u ws s HW HE. destruct (words_regexp u false plain_char ws ltac:(auto) HW HE) as (l & Hp & Hm).
  unfold u32regex_match. rewrite (parses_top _ _ Hp). eexists. split; [reflexivity|].
  unfold match_all. rewrite Hm by apply exact_sensitive. unfold m_start. cbn [m_rest].
  set (s0 := mkM None s []).
  destruct (find _ _) as [x|] eqn:F.
  - split; [intros _|reflexivity]. apply find_some in F. destruct F as (F1 & F2). apply in_map_iff in F1. destruct F1 as (w & <- & Hw).
    apply hits_words in Hw. destruct Hw as (Hw1 & Hw2 & r & Hr). simpl in F2.
    assert (E : skipn (List.length w) s = r). { rewrite Hr. clear. induction w; simpl; auto. }
    rewrite E in F2. destruct r; [|discriminate]. rewrite app_nil_r in Hr. subst s. auto.
  - split; [discriminate|]. intros (H1 & H2). exfalso.
    assert (Q : In (adv s0 s) (map (adv s0) (hits (trie_of ws) s))).
    { apply in_map. apply hits_words. repeat split; auto. exists []. rewrite app_nil_r. reflexivity. }
    assert (Z := find_none _ _ F _ Q). simpl in Z. rewrite skipn_all in Z. discriminate.
Qed.

Lemma word_literal : forall u w s, w <> [] -> (forall c, In c w -> c <> 94 /\ c <> 123 /\ c <> 125) ->
  exists b, u32regex_match u false (get_regexp (trie_of [w])) s = Ok b /\ (b = true <-> s = w).
Proof.
  intros u w s N H. destruct (trie_match u [w] s) as (b & E & Q).
  - intros w' [<-|[]]. exact H.
  - exists w. split; [left; reflexivity|exact N].
  - exists b. split; [exact E|]. rewrite Q. split; [intros (_ & [K|[]]); congruence|intros ->; split; [exact N|left; reflexivity]].
Qed.
Lemma trie_match_refuted : exists ws s,
  (forall w, In w ws -> w <> []) /\ ws <> [] /\ In s ws /\ forall u, u32regex_match u false (get_regexp (trie_of ws)) s = Ok false.
Proof.
  exists [s2t "A^B"], (s2t "A^B"). split; [intros w [<-|[]]; discriminate|]. split; [discriminate|]. split; [left; reflexivity|].
  intros u. vm_compute. reflexivity.
Qed.
(** A caret that comes first in a bracket set negates it: a string that is no word matches. *)
Lemma trie_extra_refuted : exists ws s, (forall w, In w ws -> w <> []) /\ (In s ws -> False) /\ forall u, u32regex_match u false (get_regexp (trie_of ws)) s = Ok true.
Proof.
  exists [s2t "^"; s2t "a"], (s2t "b"). split; [intros w [<-|[<-|[]]]; discriminate|]. split; [intros [H|[H|[]]]; discriminate|].
  intros u. vm_compute. reflexivity.
Qed.
