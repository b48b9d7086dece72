(** The trie over bytes. *)
From Coq Require Import String List NArith ZArith Bool Lia Sorting.Sorted.
From Verif Require Import Base_model Uni_model Regex_model Utf8_model Utf8_spec Grammar_model Trie_model ByteTrie_model TextOrder_spec Trie_spec LexDiag_spec
  ByteTrie_spec Search_proofs Utf8_proofs TextOrder_proofs Trie_proofs TrieRegex_proofs TrieWords_proofs LexDiag_proofs.
Import ListNotations.
Local Open Scope N_scope.

(** ** Children *)
Lemma b_find_set : forall c k l d, kid_find d (b_kid_set c k l) = if d =? c then Some k else kid_find d l.
Proof.
  induction l as [|[e u] l IH]; intros d; simpl.
  - rewrite (N.eqb_sym c d). reflexivity.
  - destruct (schar c <? schar e)%Z; [simpl; rewrite (N.eqb_sym c d); reflexivity|].
    destruct (N.eqb_spec c e) as [->|Hne].
    + simpl. rewrite (N.eqb_sym e d). destruct (d =? e); reflexivity.
    + simpl. destruct (N.eqb_spec e d) as [->|].
      * destruct (N.eqb_spec d c); [congruence|reflexivity].
      * apply IH.
Qed.
Lemma b_add_nil : forall t, b_add_word [] t = t.
Proof. destruct t; reflexivity. Qed.
Lemma b_word_add : forall w t x, b_is_word x (b_add_word w t) = b_is_word x t || (negb (teqb w []) && teqb x w).
Proof.
  induction w as [|c w IH]; intros t x.
  - rewrite b_add_nil. simpl. rewrite orb_false_r. reflexivity.
  - destruct t as [n e kids]. destruct x as [|d x]; [simpl; rewrite orb_false_r; reflexivity|].
    cbn [b_add_word b_is_word t_kids]. rewrite b_find_set.
    simpl teqb. destruct (N.eqb_spec d c) as [->|Hdc].
    + simpl. destruct (kid_find c kids) as [[m e' ks]|] eqn:E.
      * destruct w as [|c' w].
        -- destruct x as [|d' x]; simpl; [rewrite orb_true_r; reflexivity|rewrite orb_false_r; reflexivity].
        -- rewrite IH. reflexivity.
      * rewrite IH. destruct w as [|c' w].
        -- destruct x as [|d' x]; reflexivity.
        -- destruct x as [|d' x]; simpl; reflexivity.
    + simpl. rewrite orb_false_r. reflexivity.
Qed.
Lemma b_prefix_new : forall e p, b_is_prefix p (new_trie e) = match p with [] => true | _ => false end.
Proof. intros e [|c p]; reflexivity. Qed.
Lemma b_prefix_add : forall w t p, b_is_prefix p (b_add_word w t) = b_is_prefix p t || prefixb p w.
Proof.
  induction w as [|c w IH]; intros t p.
  - rewrite b_add_nil. destruct p; simpl; [reflexivity|rewrite orb_false_r; reflexivity].
  - destruct t as [n e kids]. destruct p as [|d p]; [reflexivity|].
    cbn [b_add_word b_is_prefix t_kids]. rewrite b_find_set. simpl prefixb.
    destruct (N.eqb_spec d c) as [->|Hdc].
    + destruct (kid_find c kids) as [[m e' ks]|] eqn:E.
      * destruct w as [|c' w].
        -- destruct p as [|d' p]; [reflexivity|]. simpl. rewrite orb_false_r. reflexivity.
        -- rewrite IH. reflexivity.
      * rewrite IH, b_prefix_new. destruct p; reflexivity.
    + simpl. rewrite orb_false_r. reflexivity.
Qed.

(** ** Well-formed tries: the keys are bytes in the order of the map *)
Definition kid_lt (a b : N * trie) : Prop := (schar (fst a) < schar (fst b))%Z.
Inductive bwf : trie -> Prop :=
| bwf_node : forall n e kids, StronglySorted kid_lt kids -> Forall (fun ck => fst ck < 256 /\ bwf (snd ck)) kids -> bwf (Node n e kids).
Lemma schar_inj : forall c d, c < 256 -> d < 256 -> schar c = schar d -> c = d.
Proof. intros c d Hc Hd. unfold schar. destruct (N.ltb_spec c 128), (N.ltb_spec d 128); lia. Qed.
Lemma schar_before : forall c d, c < 256 -> d < 256 -> ((schar c < schar d)%Z <-> char_before c d).
Proof. intros c d Hc Hd. unfold schar, char_before. destruct (N.ltb_spec c 128), (N.ltb_spec d 128); lia. Qed.
Lemma b_set_in : forall c k l x, In x (b_kid_set c k l) -> x = (c, k) \/ In x l.
Proof.
  induction l as [|[d u] l IH]; intros x; simpl.
  - intros [H|[]]; auto.
  - destruct (schar c <? schar d)%Z; [simpl; intuition|]. destruct (c =? d); simpl; [intuition|].
    intros [H|H]; [auto|]. apply IH in H. intuition.
Qed.
Lemma b_set_sorted : forall c k l, c < 256 -> Forall (fun ck => fst ck < 256) l -> StronglySorted kid_lt l -> StronglySorted kid_lt (b_kid_set c k l).
Proof.
  intros c k l Hc Hl H. induction H as [|[d u] l S IH Hd]; simpl; [repeat constructor|].
  inversion Hl as [|? ? Hb Hl']; subst. cbn [fst] in Hb. destruct (Z.ltb_spec (schar c) (schar d)) as [L|L].
  - constructor; [constructor; assumption|]. constructor; [exact L|].
    eapply Forall_impl; [|exact Hd]. unfold kid_lt. simpl. intros; lia.
  - destruct (N.eqb_spec c d) as [->|Hcd].
    + constructor; [assumption|]. exact Hd.
    + constructor; [exact (IH Hl')|]. apply Forall_forall. intros x Hx. apply b_set_in in Hx.
      rewrite Forall_forall in Hd. destruct Hx as [->|Hx]; [|apply Hd; exact Hx].
      unfold kid_lt. simpl. assert (schar c <> schar d) by (intros E; apply Hcd, schar_inj; assumption). lia.
Qed.
Lemma b_in_find : forall l, StronglySorted kid_lt l -> forall c k, In (c, k) l -> kid_find c l = Some k.
Proof.
  induction 1 as [|[d u] l S IH Hd]; intros c k Hin; [destruct Hin|]. simpl.
  destruct Hin as [E|Hin].
  - injection E as -> ->. rewrite N.eqb_refl. reflexivity.
  - rewrite Forall_forall in Hd. specialize (Hd _ Hin). unfold kid_lt in Hd. simpl in Hd.
    destruct (N.eqb_spec d c) as [->|]; [lia|]. apply IH; assumption.
Qed.
Lemma bwf_new : forall e, bwf (new_trie e).
Proof. intros e. constructor; constructor. Qed.
Lemma bwf_add : forall w t, byte_word w -> bwf t -> bwf (b_add_word w t).
Proof.
  induction w as [|c w IH]; intros t HB H; [rewrite b_add_nil; exact H|]. inversion HB as [|? ? Hc Hw]; subst.
  destruct t as [n e kids]. inversion H as [? ? ? S Hk]; subst. cbn [b_add_word].
  assert (Hb : Forall (fun ck => fst ck < 256) kids) by (eapply Forall_impl; [|exact Hk]; intros a (Ha & _); exact Ha).
  constructor; [apply b_set_sorted; assumption|].
  apply Forall_forall. intros [d k] Hin. apply b_set_in in Hin. rewrite Forall_forall in Hk.
  destruct Hin as [E|Hin]; [|apply (Hk _ Hin)]. injection E as -> ->. cbn [fst snd]. split; [exact Hc|].
  destruct (kid_find c kids) as [[m e' ks]|] eqn:F.
  - apply kid_find_in in F. specialize (Hk _ F). destruct Hk as (_ & Hk). cbn [snd] in Hk.
    destruct w; [inversion Hk; subst; constructor; assumption|apply IH; assumption].
  - apply IH; [exact Hw|apply bwf_new].
Qed.

(** ** All words *)
Lemma b_words_spec : forall t, bwf t -> forall sofar ws,
  (forall x, In x (b_get_words t sofar ws) <-> In x ws \/ exists w, b_is_word w t = true /\ x = sofar ++ w) /\
  (sorted_b ws -> sorted_b (b_get_words t sofar ws)).
Proof.
  induction t as [n e kids IHk] using trie_ind'. intros W sofar ws. inversion W as [? ? ? S Hk]; subst. cbn [b_get_words].
  assert (G : forall l, Forall (fun ck => forall sofar ws,
      (forall x, In x (b_get_words (snd ck) sofar ws) <-> In x ws \/ exists w, b_is_word w (snd ck) = true /\ x = sofar ++ w) /\
      (sorted_b ws -> sorted_b (b_get_words (snd ck) sofar ws))) l -> forall ws,
    let r := (fix go (l : list (N * trie)) (ws : list text) : list text :=
         match l with
         | [] => ws
         | (c, k) :: l' =>
             let tmp := sofar ++ [c] in
             go l' (b_get_words k tmp (if t_fin k then wset_insert tmp ws else ws))
         end) l ws in
    (forall x, In x r <-> In x ws \/ exists c k w, In (c, k) l /\ b_is_word w k = true /\ x = sofar ++ c :: w) /\
    (sorted_b ws -> sorted_b r)).
  { clear. induction l as [|[c k] l IH]; intros HA ws r; unfold r; clear r.
    - split; [|auto]. intros x. split; [auto|]. intros [H|(c & k & w & [] & _)]; exact H.
    - inversion HA as [|? ? HA1 HA2]; subst. simpl in HA1.
      set (ws1 := if t_fin k then wset_insert (sofar ++ [c]) ws else ws).
      destruct (HA1 (sofar ++ [c]) ws1) as (K1 & K2).
      destruct (IH HA2 (b_get_words k (sofar ++ [c]) ws1)) as (R1 & R2).
      assert (S1 : forall x, In x ws1 -> In x ws \/ (b_is_word [] k = true /\ x = sofar ++ [c])).
      { intros x. unfold ws1. simpl. destruct (t_fin k); [rewrite wset_insert_in|]; intuition. }
      split.
      + intros x. rewrite R1, K1. split.
        * intros [[H|(w & Hw & ->)]|(c' & k' & w & Hin & Hw & ->)].
          -- apply S1 in H. destruct H as [H|(H & ->)]; [auto|]. right. exists c, k, []. simpl; auto.
          -- right. exists c, k, w. rewrite <- app_assoc. simpl; auto.
          -- right. exists c', k', w. simpl; auto.
        * intros [H|(c' & k' & w & [E|Hin] & Hw & ->)].
          -- left. left. unfold ws1. destruct (t_fin k); [rewrite wset_insert_in|]; auto.
          -- injection E as -> ->. left. right. exists w. rewrite <- app_assoc. auto.
          -- right. exists c', k', w. auto.
      + intros H. apply R2, K2. unfold ws1. destruct (t_fin k); [apply wset_insert_sorted|]; exact H. }
  assert (HA : Forall (fun ck => forall sofar ws,
      (forall x, In x (b_get_words (snd ck) sofar ws) <-> In x ws \/ exists w, b_is_word w (snd ck) = true /\ x = sofar ++ w) /\
      (sorted_b ws -> sorted_b (b_get_words (snd ck) sofar ws))) kids).
  { apply Forall_forall. intros ck Hin. rewrite Forall_forall in IHk, Hk. apply (IHk _ Hin), (Hk _ Hin). }
  destruct (G kids HA (if e then wset_insert sofar ws else ws)) as (G1 & G2). split.
  - intros x. rewrite G1. split.
    + intros [H|(c & k & w & Hin & Hw & ->)].
      * destruct e; [rewrite wset_insert_in in H; destruct H as [->|H]|]; [|auto|auto].
        right. exists []. split; [reflexivity|rewrite app_nil_r; reflexivity].
      * right. exists (c :: w). split; [|reflexivity]. simpl. rewrite (b_in_find kids S c k Hin). exact Hw.
    + intros [H|(w & Hw & ->)].
      * left. destruct e; [rewrite wset_insert_in|]; auto.
      * destruct w as [|c w]; simpl in Hw.
        -- subst e. left. rewrite app_nil_r, wset_insert_in. auto.
        -- destruct (kid_find c kids) as [k|] eqn:F; [|discriminate]. right. exists c, k, w.
           split; [apply kid_find_in; exact F|auto].
  - intros H. apply G2. destruct e; [apply wset_insert_sorted|]; exact H.
Qed.
Lemma b_starting_spec : forall p t, bwf t -> forall sofar ws,
  (forall x, In x (b_get_words_starting p t ws sofar) <-> In x ws \/ exists w, b_is_word (p ++ w) t = true /\ x = sofar ++ p ++ w) /\
  (sorted_b ws -> sorted_b (b_get_words_starting p t ws sofar)).
Proof.
  induction p as [|c p IH]; intros t W sofar ws; [apply (b_words_spec t W)|]. simpl.
  destruct (kid_find c (t_kids t)) as [k|] eqn:F.
  - assert (Wk : bwf k). { destruct W as [n e kids S Hk]. simpl in F. apply kid_find_in in F. rewrite Forall_forall in Hk. apply (Hk _ F). }
    destruct (IH k Wk (sofar ++ [c]) ws) as (H1 & H2). split; [|exact H2].
    intros x. rewrite H1. split; (intros [H|(w & Hw & E)]; [auto|right; exists w; split; [exact Hw|]]); rewrite E, <- app_assoc; reflexivity.
  - split; [|auto]. intros x. split; [auto|]. intros [H|(w & Hw & _)]; [exact H|discriminate].
Qed.

(** ** A trie filled with words *)
Lemma b_gen : forall ws t,
  let t' := fold_left (fun t w => b_add_word w t) ws t in
  (Forall byte_word ws -> bwf t -> bwf t') /\ (forall x, b_is_word x t' = true <-> b_is_word x t = true \/ (x <> [] /\ In x ws)) /\
  (forall p, b_is_prefix p t' = true <-> b_is_prefix p t = true \/ exists w, In w ws /\ prefix_of p w) /\
  t_size t' = t_size t + N.of_nat (List.length (filter (fun w => match w with [] => false | _ => true end) ws)) /\
  t_fin t' = t_fin t.
Proof.
  induction ws as [|w ws IH]; intros t t'; unfold t'; clear t'.
  - simpl. split; [auto|]. split; [|split; [|split; [lia|reflexivity]]].
    + intros x. split; [auto|]. intros [H|(_ & [])]; exact H.
    + intros p. split; [auto|]. intros [H|(w & [] & _)]; exact H.
  - simpl fold_left. destruct (IH (b_add_word w t)) as (H1 & H2 & H3 & H4 & H5). clear IH.
    split; [|split; [|split; [|split]]].
    + intros B W. inversion B; subst. apply H1; [assumption|]. apply bwf_add; assumption.
    + intros x. rewrite H2, b_word_add, orb_true_iff, andb_true_iff, negb_true_iff, teqb_neq, teqb_eq. simpl.
      split; [intros [[H|(H & ->)]|(H & K)]; auto|]. intros [H|(H & [->|K])]; auto.
    + intros p. rewrite H3, b_prefix_add, orb_true_iff, prefixb_spec. simpl. split.
      * intros [[H|H]|(x & Hx & P)]; [auto|right; exists w; auto|right; exists x; auto].
      * intros [H|(x & [<-|Hx] & P)]; [auto|auto|right; exists x; auto].
    + rewrite H4. destruct w as [|c w]; simpl.
      * destruct t; reflexivity.
      * destruct t as [n e kids]. simpl. lia.
    + rewrite H5. destruct w as [|c w], t as [n e kids]; reflexivity.
Qed.
Lemma b_trie_words : forall ws,
  (forall x, b_is_word x (b_trie_of ws) = true <-> x <> [] /\ In x ws) /\
  (forall p, b_is_prefix p (b_trie_of ws) = true <-> p = [] \/ exists w, In w ws /\ prefix_of p w) /\
  t_size (b_trie_of ws) = N.of_nat (List.length (filter (fun w => match w with [] => false | _ => true end) ws)).
Proof.
  intros ws. destruct (b_gen ws (new_trie false)) as (_ & H2 & H3 & H4 & _). split; [|split].
  - intros x. unfold b_trie_of. rewrite H2. split; [intros [H|H]; [destruct x; discriminate|exact H]|auto].
  - intros p. unfold b_trie_of. rewrite H3. rewrite b_prefix_new. destruct p; intuition discriminate.
  - unfold b_trie_of. rewrite H4. simpl. lia.
Qed.
Lemma b_trie_wf : forall ws, Forall byte_word ws -> bwf (b_trie_of ws).
Proof. intros ws H. apply (b_gen ws (new_trie false)); [exact H|apply bwf_new]. Qed.
Lemma b_trie_listing : forall ws p, Forall byte_word ws ->
  let all := b_get_words (b_trie_of ws) [] [] in
  let some := b_get_words_starting p (b_trie_of ws) [] [] in
  sorted_words all /\ (forall x, In x all <-> x <> [] /\ In x ws) /\
  sorted_words some /\ (forall x, In x some <-> x <> [] /\ In x ws /\ prefix_of p x).
Proof.
  intros ws p B all some. assert (W := b_trie_wf ws B).
  destruct (b_trie_words ws) as (H & _ & _).
  destruct (b_words_spec _ W [] []) as (A1 & A2). destruct (b_starting_spec p _ W [] []) as (S1 & S2).
  split; [apply sorted_b_iff, A2; constructor|]. split; [|split; [apply sorted_b_iff, S2; constructor|]].
  - intros x. unfold all. rewrite A1, <- H. split.
    + intros [[]|(w & Hw & ->)]. exact Hw.
    + intros Hw. right. exists x. auto.
  - intros x. unfold some. rewrite S1. split.
    + intros [[]|(w & Hw & ->)]. simpl. apply H in Hw. destruct Hw as (Hw1 & Hw2). split; [exact Hw1|]. split; [exact Hw2|].
      exists w. reflexivity.
    + intros (Hx & Hin & w & ->). right. exists w. split; [apply H; auto|reflexivity].
Qed.
Lemma b_trie_collect : forall ws p held, Forall byte_word ws -> sorted_words held ->
  let all := b_get_words (b_trie_of ws) [] held in
  let some := b_get_words_starting p (b_trie_of ws) held [] in
  sorted_words all /\ (forall x, In x all <-> In x held \/ x <> [] /\ In x ws) /\
  sorted_words some /\ (forall x, In x some <-> In x held \/ x <> [] /\ In x ws /\ prefix_of p x).
Proof.
  intros ws p held B Hh all some. assert (W := b_trie_wf ws B). destruct (b_trie_words ws) as (H & _ & _).
  destruct (b_words_spec _ W [] held) as (A1 & A2). destruct (b_starting_spec p _ W [] held) as (S1 & S2). apply sorted_b_iff in Hh.
  split; [apply sorted_b_iff, A2, Hh|]. split; [|split; [apply sorted_b_iff, S2, Hh|]].
  - intros x. unfold all. rewrite A1, <- H. split.
    + intros [K|(w & Hw & ->)]; [left; exact K|right; exact Hw].
    + intros [K|Hw]; [left; exact K|]. right. exists x. auto.
  - intros x. unfold some. rewrite S1. split.
    + intros [K|(w & Hw & ->)]; [left; exact K|]. right. simpl. apply H in Hw. destruct Hw as (Hw1 & Hw2). split; [exact Hw1|]. split; [exact Hw2|].
      exists w. reflexivity.
    + intros [K|(Hx & Hin & w & ->)]; [left; exact K|]. right. exists w. split; [apply H; auto|reflexivity].
Qed.

(** ** Words in UTF-8 *)
Lemma prefix_bytes : forall x y, utf8_text x y -> forall w s, utf8_text w (y ++ s) -> exists s', w = x ++ s'.
Proof.
  induction 1 as [|c a cs b Ha Hb IH]; intros w s Hw.
  - exists w. reflexivity.
  - destruct w as [|d w].
    + inversion Hw as [E|]. destruct (utf8_nonempty c a Ha) as (h & r & ->). discriminate.
    + inversion Hw as [|? a' ? b' Hd Hb' E1 E2]; subst. rewrite <- app_assoc in E2.
      destruct (N.lt_trichotomy c d) as [L|[->|L]].
      * exfalso. apply (lt_irrefl (a' ++ b')). rewrite E2 at 1. exact (char_lt c d a a' Ha Hd L _ _).
      * assert (a' = a) as -> by exact (utf8_of_one d a' a Hd Ha). apply app_inv_head in E2. subst b'.
        destruct (IH w s Hb') as (s' & ->). exists s'. reflexivity.
      * exfalso. apply (lt_irrefl (a' ++ b')). rewrite E2 at 2. exact (char_lt d c a' a Hd Ha L _ _).
Qed.
Lemma utf8_text_app : forall a x, utf8_text a x -> forall b y, utf8_text b y -> utf8_text (a ++ b) (x ++ y).
Proof.
  induction 1 as [|c p cs q Hc Hcs IH]; intros b y H; [exact H|]. simpl. rewrite <- app_assoc. constructor; [exact Hc|]. apply IH. exact H.
Qed.
Lemma utf8_text_cut : forall a b z, utf8_text (a ++ b) z -> forall x, utf8_text a x -> exists y, z = x ++ y /\ utf8_text b y.
Proof.
  induction a as [|c a IH]; intros b z H x Hx.
  - inversion Hx; subst. exists z. split; [reflexivity|exact H].
  - inversion Hx as [|? p ? q Hp Hq]; subst. inversion H as [|? p' ? q' Hp' Hq']; subst.
    assert (p' = p) as -> by exact (utf8_of_one c p' p Hp' Hp). destruct (IH b q' Hq' q Hq) as (y & -> & Hy).
    exists y. rewrite app_assoc. split; [reflexivity|exact Hy].
Qed.
Lemma text_bytes_one : forall a x y, utf8_text a x -> utf8_text a y -> x = y.
Proof.
  induction a as [|c a IH]; intros x y Hx Hy; inversion Hx as [|? p ? q Hp Hq]; inversion Hy as [|? p' ? q' Hp' Hq']; subst; [reflexivity|].
  f_equal; [exact (utf8_of_one c p p' Hp Hp')|exact (IH _ _ Hq Hq')].
Qed.
Lemma bytes_text_one : forall a b x, utf8_text a x -> utf8_text b x -> a = b.
Proof.
  intros a b x Ha Hb. destruct (lt_total a b) as [L|[E|L]]; [|exact E|].
  - exfalso. apply (lt_irrefl x). exact (bytes_mono a x Ha b x Hb L).
  - exfalso. apply (lt_irrefl x). exact (bytes_mono b x Hb a x Ha L).
Qed.
Lemma utf8_of_bytes : forall c x, utf8_of c x -> byte_word x.
Proof. intros c x H. inversion H; subst; repeat constructor; lia. Qed.
Lemma utf8_text_bytes : forall a x, utf8_text a x -> byte_word x.
Proof. induction 1 as [|c p cs q Hc Hcs IH]; [constructor|]. apply Forall_app. split; [exact (utf8_of_bytes c p Hc)|exact IH]. Qed.
Lemma forall2_in_l : forall A B (R : A -> B -> Prop) l m, Forall2 R l m -> forall x, In x l -> exists y, In y m /\ R x y.
Proof.
  induction 1 as [|a b l m Hab H IH]; intros x Hx; [destruct Hx|]. destruct Hx as [->|Hx]; [exists b; simpl; auto|].
  destruct (IH x Hx) as (y & Hy & Hr). exists y. simpl. auto.
Qed.
Lemma forall2_in_r : forall A B (R : A -> B -> Prop) l m, Forall2 R l m -> forall y, In y m -> exists x, In x l /\ R x y.
Proof.
  induction 1 as [|a b l m Hab H IH]; intros y Hy; [destruct Hy|]. destruct Hy as [->|Hy]; [exists a; simpl; auto|].
  destruct (IH y Hy) as (x & Hx & Hr). exists x. simpl. auto.
Qed.
(** Lists in order with the same members up to the encoding. *)
Lemma sorted_match : forall l, sorted_words l -> forall m, sorted_words m ->
  (forall x, In x l -> exists y, In y m /\ utf8_text x y) -> (forall y, In y m -> exists x, In x l /\ utf8_text x y) -> Forall2 utf8_text l m.
Proof.
  induction 1 as [|a l S IH Ha]; intros m M H1 H2.
  - destruct m as [|b m]; [constructor|]. destruct (H2 b (or_introl eq_refl)) as (x & [] & _).
  - destruct M as [|b m M Hb]; [destruct (H1 a (or_introl eq_refl)) as (y & [] & _)|].
    rewrite Forall_forall in Ha, Hb.
    assert (AB : utf8_text a b).
    { destruct (H1 a (or_introl eq_refl)) as (y & [->|Hy] & R); [exact R|].
      destruct (H2 b (or_introl eq_refl)) as (x & [->|Hx] & R'); [exact R'|]. exfalso.
      apply (lt_asym b y); [exact (Hb y Hy)|]. exact (bytes_mono a y R x b R' (Ha x Hx)). }
    constructor; [exact AB|]. apply IH; [exact M| |].
    + intros x Hx. destruct (H1 x (or_intror Hx)) as (y & [<-|Hy] & R); [|exists y; auto].
      exfalso. assert (x = a) as -> by exact (bytes_text_one _ _ _ R AB). exact (lt_irrefl a (Ha a Hx)).
    + intros y Hy. destruct (H2 y (or_intror Hy)) as (x & [<-|Hx] & R); [|exists x; auto].
      exfalso. assert (y = b) as -> by exact (text_bytes_one _ _ _ R AB). exact (lt_irrefl b (Hb b Hy)).
Qed.
Lemma utf8_nil : forall x y, utf8_text x y -> (x = [] <-> y = []).
Proof.
  intros x y H. inversion H as [|c a cs b Ha Hb]; subst; [split; reflexivity|]. split; [discriminate|].
  intros E. destruct (utf8_nonempty c a Ha) as (h & r & ->). discriminate.
Qed.
Lemma b_as_utf8 : forall ws bs x y, Forall2 utf8_text ws bs -> utf8_text x y ->
  b_is_word y (b_trie_of bs) = is_word x (trie_of ws) /\ b_is_prefix y (b_trie_of bs) = is_prefix x (trie_of ws) /\
  t_size (b_trie_of bs) = t_size (trie_of ws) /\
  Forall2 utf8_text (get_words (trie_of ws) [] []) (b_get_words (b_trie_of bs) [] []) /\
  Forall2 utf8_text (get_words_starting x (trie_of ws) [] []) (b_get_words_starting y (b_trie_of bs) [] []).
Proof.
  intros ws bs x y R Hxy.
  assert (B : Forall byte_word bs).
  { apply Forall_forall. intros b Hb. destruct (forall2_in_r _ _ _ _ _ R b Hb) as (w & _ & E). exact (utf8_text_bytes w b E). }
  destruct (b_trie_words bs) as (B1 & B2 & B3). destruct (trie_words ws) as (T1 & T2 & T3).
  destruct (b_trie_listing bs y B) as (L1 & L2 & L3 & L4). destruct (trie_listing ws x) as (K1 & K2 & K3 & K4).
  assert (LR : forall v, v <> [] /\ In v ws -> exists z, (z <> [] /\ In z bs) /\ utf8_text v z).
  { intros v (N0 & Hv). destruct (forall2_in_l _ _ _ _ _ R v Hv) as (z & Hz & E). exists z. split; [split; [|exact Hz]|exact E].
    intros C. apply N0. apply (utf8_nil v z E). exact C. }
  assert (RL : forall z, z <> [] /\ In z bs -> exists v, (v <> [] /\ In v ws) /\ utf8_text v z).
  { intros z (N0 & Hz). destruct (forall2_in_r _ _ _ _ _ R z Hz) as (v & Hv & E). exists v. split; [split; [|exact Hv]|exact E].
    intros C. apply N0. apply (utf8_nil v z E). exact C. }
  assert (PR : forall v z, utf8_text v z -> (prefix_of x v <-> prefix_of y z)).
  { intros v z E. split; intros (s & ->).
    - destruct (utf8_text_cut _ _ _ E _ Hxy) as (q & -> & _). exists q. reflexivity.
    - destruct (prefix_bytes x y Hxy v s E) as (q & ->). exists q. reflexivity. }
  split; [|split; [|split; [|split]]].
  - apply eq_true_iff_eq. rewrite B1, T1. split.
    + intros H. destruct (RL y H) as (v & Hv & E). rewrite (bytes_text_one x v y Hxy E). exact Hv.
    + intros H. destruct (LR x H) as (z & Hz & E). rewrite (text_bytes_one x y z Hxy E). exact Hz.
  - apply eq_true_iff_eq. rewrite B2, T2. split.
    + intros [->|(z & Hz & P)]; [left; apply (utf8_nil x [] Hxy); reflexivity|right].
      destruct (forall2_in_r _ _ _ _ _ R z Hz) as (v & Hv & E). exists v. split; [exact Hv|]. apply (PR v z E). exact P.
    + intros [->|(v & Hv & P)]; [left; apply (utf8_nil [] y Hxy); reflexivity|right].
      destruct (forall2_in_l _ _ _ _ _ R v Hv) as (z & Hz & E). exists z. split; [exact Hz|]. apply (PR v z E). exact P.
  - rewrite B3, T3. f_equal. clear -R. induction R as [|v z ws bs E R IH]; [reflexivity|]. cbn [filter].
    destruct (utf8_nil v z E) as (E1 & E2). destruct v, z; cbn [List.length]; try (rewrite IH; reflexivity).
    + discriminate (E1 eq_refl).
    + discriminate (E2 eq_refl).
  - apply sorted_match; [exact K1|exact L1| |].
    + intros v Hv. apply K2 in Hv. destruct (LR v Hv) as (z & Hz & E). exists z. split; [apply L2; exact Hz|exact E].
    + intros z Hz. apply L2 in Hz. destruct (RL z Hz) as (v & Hv & E). exists v. split; [apply K2; exact Hv|exact E].
  - apply sorted_match; [exact K3|exact L3| |].
    + intros v Hv. apply K4 in Hv. destruct Hv as (V1 & V2 & V3). destruct (LR v (conj V1 V2)) as (z & (Z1 & Z2) & E). exists z.
      split; [apply L4; split; [exact Z1|split; [exact Z2|apply (PR v z E); exact V3]]|exact E].
    + intros z Hz. apply L4 in Hz. destruct Hz as (V1 & V2 & V3). destruct (RL z (conj V1 V2)) as (v & (Z1 & Z2) & E). exists v.
      split; [apply K4; split; [exact Z1|split; [exact Z2|apply (PR v z E); exact V3]]|exact E].
Qed.

(** ** The pattern *)
Definition is_sp (c : N) : bool := existsb (N.eqb c) b_special.
Lemma is_sp_iff : forall c, is_sp c = true <-> pattern_char c.
Proof.
  intros c. unfold is_sp, pattern_char. rewrite existsb_exists. split.
  - intros (d & Hd & E). apply N.eqb_eq in E. subst. exact Hd.
  - intros H. exists c. split; [exact H|apply N.eqb_refl].
Qed.
(** Some key on a path is special. *)
Definition bad_path (t : trie) : Prop := exists p c, b_is_prefix (p ++ [c]) t = true /\ is_sp c = true.
Lemma b_regexp_go : forall kids,
  Forall (fun ck => is_sp (fst ck) = false /\ b_get_regexp (snd ck) = Ok (get_regexp (snd ck))) kids -> forall alt cc,
  (fix go (l : list (N * trie)) (alt cc : list text) : outcome (list text * list text) :=
          match l with
          | [] => Ok (alt, cc)
          | (c, k) :: l' =>
              obind (quote_char c) (fun qchar =>
              obind (b_get_regexp k) (fun recurse =>
              match recurse with
              | [] => go l' alt (cc ++ [qchar])
              | _ => go l' (alt ++ [qchar ++ recurse]) cc
              end))
          end) kids alt cc =
  Ok ((fix go (l : list (N * trie)) (alt cc : list text) : list text * list text :=
          match l with
          | [] => (alt, cc)
          | (c, k) :: l' =>
              let qchar := quote_meta [c] in
              match get_regexp k with
              | [] => go l' alt (cc ++ [qchar])
              | r => go l' (alt ++ [qchar ++ r]) cc
              end
          end) kids alt cc).
Proof.
  intros kids H. induction H as [|[c k] l (Hc & Hk) H IH]; intros alt cc; [reflexivity|]. cbn [fst snd] in Hc, Hk.
  unfold quote_char. fold (is_sp c). rewrite Hc. cbn [obind]. rewrite Hk. cbn [obind].
  assert (Q : quote_meta [c] = [c]).
  { rewrite quote_one. change (is_special c) with (is_sp c). rewrite Hc. reflexivity. }
  rewrite Q. cbv zeta. destruct (get_regexp k) as [|r0 r]; apply IH.
Qed.
Lemma b_regexp_cases : forall t, bwf t ->
  (b_get_regexp t = UB /\ bad_path t) \/ (b_get_regexp t = Ok (get_regexp t) /\ ~ bad_path t).
Proof.
  induction t as [n e kids IHk] using trie_ind'. intros W. inversion W as [? ? ? S Hk]; subst.
  assert (HK : forall ck, In ck kids -> (b_get_regexp (snd ck) = UB /\ bad_path (snd ck)) \/
                                         (b_get_regexp (snd ck) = Ok (get_regexp (snd ck)) /\ ~ bad_path (snd ck))).
  { intros ck Hin. rewrite Forall_forall in IHk, Hk. apply (IHk _ Hin), (Hk _ Hin). }
  assert (D : (Forall (fun ck => is_sp (fst ck) = false /\ b_get_regexp (snd ck) = Ok (get_regexp (snd ck)) /\ ~ bad_path (snd ck)) kids) \/
              exists pre ck post, kids = pre ++ ck :: post /\
                Forall (fun ck => is_sp (fst ck) = false /\ b_get_regexp (snd ck) = Ok (get_regexp (snd ck))) pre /\
                (is_sp (fst ck) = true \/ (b_get_regexp (snd ck) = UB /\ bad_path (snd ck)))).
  { clear -HK. induction kids as [|ck l IH]; [left; constructor|].
    destruct (is_sp (fst ck)) eqn:E.
    - right. exists [], ck, l. repeat split; [constructor|auto].
    - destruct (HK ck (or_introl eq_refl)) as [(U & B)|(O & B)].
      + right. exists [], ck, l. repeat split; [constructor|auto].
      + destruct (IH (fun x Hx => HK x (or_intror Hx))) as [F|(pre & x & post & -> & F & X)].
        * left. constructor; auto.
        * right. exists (ck :: pre), x, post. repeat split; [constructor; auto|exact X]. }
  destruct D as [F|(pre & ck & post & -> & F & X)].
  - right. split.
    + cbn [b_get_regexp get_regexp]. destruct (e && Nat.eqb (List.length kids) 0); [reflexivity|].
      rewrite b_regexp_go.
      * cbn [obind]. match goal with |- context [let (_, _) := ?p in _] => destruct p as [a0 c0] end. reflexivity.
      * eapply Forall_impl; [|exact F]. intros a (Ha & Hb & _). auto.
    + intros (p & c & P & Sc). rewrite Forall_forall in F. destruct p as [|d p]; cbn [app b_is_prefix t_kids] in P.
      * destruct (kid_find c kids) as [k|] eqn:E; [|discriminate]. apply kid_find_in in E. destruct (F _ E) as (F1 & _). cbn [fst] in F1. congruence.
      * destruct (kid_find d kids) as [k|] eqn:E; [|discriminate]. apply kid_find_in in E. destruct (F _ E) as (_ & _ & F3). apply F3. exists p, c. auto.
  - left. split.
    + cbn [b_get_regexp].
      replace (e && Nat.eqb (List.length (pre ++ ck :: post)) 0) with false
        by (rewrite app_length; cbn [List.length]; rewrite Nat.add_succ_r; cbn [Nat.eqb]; rewrite andb_false_r; reflexivity).
      assert (G : forall alt cc, (fix go (l : list (N * trie)) (alt cc : list text) : outcome (list text * list text) :=
          match l with
          | [] => Ok (alt, cc)
          | (c, k) :: l' =>
              obind (quote_char c) (fun qchar =>
              obind (b_get_regexp k) (fun recurse =>
              match recurse with
              | [] => go l' alt (cc ++ [qchar])
              | _ => go l' (alt ++ [qchar ++ recurse]) cc
              end))
          end) (pre ++ ck :: post) alt cc = UB).
      { clear -F X. induction F as [|[c k] l (Hc & Hk) H IH]; intros alt cc; cbn [app].
        - destruct ck as [c k]. cbn [fst snd] in X. unfold quote_char. fold (is_sp c). destruct (is_sp c) eqn:E; [reflexivity|].
          destruct X as [X|(X & _)]; [discriminate|]. cbn [obind]. rewrite X. reflexivity.
        - cbn [fst snd] in Hc, Hk. unfold quote_char at 1. fold (is_sp c). rewrite Hc. cbn [obind]. rewrite Hk. cbn [obind].
          destruct (get_regexp k); apply IH. }
      rewrite G. reflexivity.
    + destruct ck as [c k]. cbn [fst snd] in X.
      assert (E : kid_find c (pre ++ (c, k) :: post) = Some k) by (apply b_in_find; [exact S|apply in_app_iff; right; left; reflexivity]).
      destruct X as [X|(_ & p & d & P & Sd)].
      * exists [], c. cbn [app b_is_prefix t_kids]. rewrite E. auto.
      * exists (c :: p), d. cbn [app b_is_prefix t_kids]. rewrite E. auto.
Qed.
Lemma b_bad_words : forall ws, bad_path (b_trie_of ws) <-> exists w c, In w ws /\ In c w /\ pattern_char c.
Proof.
  intros ws. destruct (b_trie_words ws) as (_ & P & _). split.
  - intros (p & c & H & Sc). apply P in H. destruct H as [H|(w & Hw & s & ->)]; [destruct p; discriminate|].
    exists ((p ++ [c]) ++ s), c. split; [exact Hw|]. split; [|apply is_sp_iff; exact Sc].
    rewrite !in_app_iff. left. right. left. reflexivity.
  - intros (w & c & Hw & Hc & Sc). apply in_split in Hc. destruct Hc as (p & s & ->). exists p, c. split; [|apply is_sp_iff; exact Sc].
    apply P. right. exists (p ++ c :: s). split; [exact Hw|]. exists s. rewrite <- app_assoc. reflexivity.
Qed.
Lemma b_regexp_ub : forall ws, Forall byte_word ws ->
  (b_get_regexp (b_trie_of ws) = UB <-> exists w c, In w ws /\ In c w /\ pattern_char c) /\
  (b_get_regexp (b_trie_of ws) = UB \/ exists r, b_get_regexp (b_trie_of ws) = Ok r).
Proof.
  intros ws B. rewrite <- b_bad_words. destruct (b_regexp_cases _ (b_trie_wf ws B)) as [(E & H)|(E & H)]; rewrite E; split;
    [split; auto|auto|split; [discriminate|intros C; contradiction]|right; eexists; reflexivity].
Qed.

(** ** ASCII words: the same trie, hence the same pattern *)
Inductive low : trie -> Prop :=
| low_node : forall n e kids, Forall (fun ck => fst ck < 128 /\ low (snd ck)) kids -> low (Node n e kids).
Lemma low_set : forall c k l, c < 128 -> Forall (fun ck : N * trie => fst ck < 128) l -> b_kid_set c k l = kid_set c k l.
Proof.
  intros c k l Hc H. induction H as [|[d u] l Hd H IH]; [reflexivity|]. cbn [fst] in Hd. cbn [b_kid_set kid_set]. rewrite IH.
  replace (schar c <? schar d)%Z with (c <? d); [reflexivity|]. unfold schar.
  replace (c <? 128) with true by (symmetry; apply N.ltb_lt; exact Hc). replace (d <? 128) with true by (symmetry; apply N.ltb_lt; exact Hd).
  apply eq_true_iff_eq. rewrite N.ltb_lt, Z.ltb_lt. lia.
Qed.
Lemma low_add : forall w t, Forall (fun c => c < 128) w -> low t -> b_add_word w t = add_word w t /\ low (add_word w t).
Proof.
  induction w as [|c w IH]; intros t HB H; [rewrite b_add_nil, add_word_nil; auto|]. inversion HB as [|? ? Hc Hw]; subst.
  destruct t as [n e kids]. inversion H as [? ? ? Hk]; subst. cbn [b_add_word add_word].
  assert (Hb : Forall (fun ck : N * trie => fst ck < 128) kids) by (eapply Forall_impl; [|exact Hk]; intros a (Ha & _); exact Ha).
  assert (K : forall b, (match kid_find c kids with
                   | Some (Node m e' ks) => match w with [] => Node m true ks | _ => b_add_word w (Node m e' ks) end
                   | None => b_add_word w (new_trie b)
                   end = match kid_find c kids with
                   | Some (Node m e' ks) => match w with [] => Node m true ks | _ => add_word w (Node m e' ks) end
                   | None => add_word w (new_trie b)
                   end) /\ low (match kid_find c kids with
                   | Some (Node m e' ks) => match w with [] => Node m true ks | _ => add_word w (Node m e' ks) end
                   | None => add_word w (new_trie b)
                   end)).
  { intros b. destruct (kid_find c kids) as [[m e' ks]|] eqn:F.
    - apply kid_find_in in F. rewrite Forall_forall in Hk. destruct (Hk _ F) as (_ & L). cbn [snd] in L.
      destruct w; [split; [reflexivity|inversion L; subst; constructor; assumption]|apply IH; assumption].
    - apply IH; [exact Hw|]. constructor. constructor. }
  destruct (K (match w with [] => true | _ => false end)) as (K1 & K2). cbv zeta. rewrite K1, low_set by assumption. split; [reflexivity|].
  constructor. apply Forall_forall. intros x Hx. apply kid_set_in in Hx. rewrite Forall_forall in Hk. destruct Hx as [->|Hx]; [|exact (Hk _ Hx)].
  cbn [fst snd]. auto.
Qed.
Lemma ascii_same : forall ws, Forall (Forall (fun c => c < 128)) ws -> b_trie_of ws = trie_of ws.
Proof.
  intros ws H. unfold b_trie_of, trie_of. assert (L : low (new_trie false)) by (constructor; constructor).
  revert L. generalize (new_trie false). induction H as [|w ws Hw H IH]; intros t L; [reflexivity|]. cbn [fold_left].
  destruct (low_add w t Hw L) as (-> & L'). apply IH. exact L'.
Qed.
Lemma ascii_pattern : forall ws, Forall (Forall (fun c => c < 128)) ws -> (forall w c, In w ws -> In c w -> ~ pattern_char c) ->
  b_get_regexp (b_trie_of ws) = Ok (get_regexp (trie_of ws)).
Proof.
  intros ws H P. assert (B : Forall byte_word ws).
  { eapply Forall_impl; [|exact H]. intros w Hw. eapply Forall_impl; [|exact Hw]. cbv beta. intros; lia. }
  destruct (b_regexp_cases _ (b_trie_wf ws B)) as [(_ & C)|(E & _)].
  - apply b_bad_words in C. destruct C as (w & c & Hw & Hc & Sc). exfalso. exact (P w c Hw Hc Sc).
  - rewrite E, ascii_same by exact H. reflexivity.
Qed.
Lemma ascii_matches : forall u ws s, Forall (Forall (fun c => c < 128)) ws ->
  (forall w c, In w ws -> In c w -> ~ pattern_char c /\ c <> 94 /\ c <> 123 /\ c <> 125) -> (exists w, In w ws /\ w <> []) ->
  exists r b, b_get_regexp (b_trie_of ws) = Ok r /\ u32regex_match u false r s = Ok b /\ (b = true <-> s <> [] /\ In s ws).
Proof.
  intros u ws s H P Hn. exists (get_regexp (trie_of ws)).
  destruct (trie_match u ws s) as (b & E & I); [|exact Hn|].
  - intros w Hw c Hc. apply (P w c Hw Hc).
  - exists b. split; [|split; assumption]. apply ascii_pattern; [exact H|]. intros w c Hw Hc. apply (P w c Hw Hc).
Qed.
(** Words in UTF-8: the pattern need not be UTF-8. *)
Lemma not_utf8 : forall t, ~ utf8_text t [0xC3; 91; 0x88; 0x89; 93].
Proof.
  intros t H. inversion H as [|c a cs b Ha Hb E1 E2]; subst.
  assert (X : nth 0 (a ++ b) 0 = 0xC3 /\ nth 1 (a ++ b) 0 = 91) by (rewrite E2; split; reflexivity). clear -Ha X.
  destruct X as (X0 & X1). inversion Ha; subst; cbn [app nth] in X0, X1; lia.
Qed.
Lemma split_pattern : exists ws bs r, Forall2 utf8_text ws bs /\ b_get_regexp (b_trie_of bs) = Ok r /\ forall t, ~ utf8_text t r.
Proof.
  exists [[0xC9]; [0xC8]], [[0xC3; 0x89]; [0xC3; 0x88]], [0xC3; 91; 0x88; 0x89; 93]. split; [|split; [vm_compute; reflexivity|exact not_utf8]].
  repeat constructor.
  - change [0xC3; 0x89] with ([0xC0 + 3; 0x80 + 9] ++ []). change 0xC9 with (64 * 3 + 9). constructor; [constructor; lia|constructor].
  - change [0xC3; 0x88] with ([0xC0 + 3; 0x80 + 8] ++ []). change 0xC8 with (64 * 3 + 8). constructor; [constructor; lia|constructor].
Qed.

(** ** Printing *)
Lemma b_print_spec : forall ws k, Forall byte_word ws -> decimal (t_size (b_trie_of ws)) k -> exists heads,
  b_print (b_trie_of ws) = s2t "0, " ++ k ++ s2t ", [" ++ first_chars heads ++ s2t "]" ++ [10] /\
  StronglySorted char_before heads /\ forall c, In c heads <-> exists w, In (c :: w) ws.
Proof.
  intros ws k B Hk. apply decimal_iff in Hk. subst k. assert (W := b_trie_wf ws B).
  destruct (b_gen ws (new_trie false)) as (_ & _ & P & _ & E). fold (b_trie_of ws) in P, E. destruct (b_trie_of ws) as [n e kids] eqn:T.
  cbn [t_fin new_trie] in E. subst e. exists (map fst kids). inversion W as [? ? ? S Hb]; subst. split; [|split].
  - unfold b_print, first_chars. cbn [t_fin t_size t_kids]. rewrite map_map. reflexivity.
  - clear -S Hb. induction S as [|a l S IH Ha]; [constructor|]. cbn [map]. inversion Hb as [|? ? (Ba & _) Bl]; subst. constructor; [exact (IH Bl)|].
    apply Forall_forall. intros d Hd. apply in_map_iff in Hd. destruct Hd as (x & <- & Hx). rewrite Forall_forall in Ha, Bl.
    apply schar_before; [exact Ba|apply (Bl _ Hx)|exact (Ha _ Hx)].
  - intros c. transitivity (b_is_prefix [c] (Node n false kids) = true).
    + cbn [b_is_prefix t_kids]. split.
      * intros Hc. apply in_map_iff in Hc. destruct Hc as ([d k] & <- & Hx). cbn [fst]. rewrite (b_in_find kids S d k Hx). reflexivity.
      * intros Hc. destruct (kid_find c kids) as [k|] eqn:F; [|discriminate]. apply kid_find_in in F. apply in_map_iff. exists (c, k). auto.
    + rewrite P. split.
      * intros [H|(w & Hw & s & ->)]; [discriminate|exists s; exact Hw].
      * intros (w & Hw). right. exists (c :: w). split; [exact Hw|]. exists w. reflexivity.
Qed.
Lemma top_fin : forall ws t, t_fin (fold_left (fun t w => add_word w t) ws t) = t_fin t.
Proof. induction ws as [|w ws IH]; intros t; [reflexivity|]. cbn [fold_left]. rewrite IH. destruct w, t; reflexivity. Qed.
Lemma print_spec : forall ws k, decimal (t_size (trie_of ws)) k -> exists heads,
  print_trie (trie_of ws) = s2t "0, " ++ k ++ s2t ", [" ++ first_chars heads ++ s2t "]" ++ [10] /\
  StronglySorted N.lt heads /\ forall c, In c heads <-> exists w, In (c :: w) ws.
Proof.
  intros ws k Hk. apply decimal_iff in Hk. subst k.
  destruct (trie_of_gen ws (new_trie false) (wf_new false)) as (W & _ & P & _). fold (trie_of ws) in W, P.
  assert (E := top_fin ws (new_trie false)). fold (trie_of ws) in E. destruct (trie_of ws) as [n e kids] eqn:T.
  cbn [t_fin new_trie] in E. subst e. exists (map fst kids). inversion W as [? ? ? S Hb]; subst. split; [|split].
  - unfold print_trie, first_chars. cbn [t_fin t_size t_kids]. rewrite map_map. reflexivity.
  - clear -S. induction S as [|a l S IH Ha]; [constructor|]. cbn [map]. constructor; [exact IH|].
    apply Forall_forall. intros d Hd. apply in_map_iff in Hd. destruct Hd as (x & <- & Hx). rewrite Forall_forall in Ha. exact (Ha _ Hx).
  - intros c. transitivity (is_prefix [c] (Node n false kids) = true).
    + cbn [is_prefix t_kids]. split.
      * intros Hc. apply in_map_iff in Hc. destruct Hc as ([d k] & <- & Hx). cbn [fst]. rewrite (kid_in_find kids S d k Hx). reflexivity.
      * intros Hc. destruct (kid_find c kids) as [k|] eqn:F; [|discriminate]. apply kid_find_in in F. apply in_map_iff. exists (c, k). auto.
    + rewrite P. split.
      * intros [H|(w & Hw & s & ->)]; [discriminate|exists s; exact Hw].
      * intros (w & Hw). right. exists (c :: w). split; [exact Hw|]. exists w. reflexivity.
Qed.
