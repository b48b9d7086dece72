(** The trie stores exactly the words added. *)
From Coq Require Import String List NArith Bool Lia Sorting.Sorted.
From Verif Require Import Base_model Trie_model TextOrder_spec Trie_spec Search_proofs TextOrder_proofs.
Import ListNotations.
Local Open Scope N_scope.

(** Induction over tries. *)
Fixpoint trie_ind' (P : trie -> Prop)
  (H : forall n e kids, Forall (fun ck => P (snd ck)) kids -> P (Node n e kids)) (t : trie) : P t :=
  match t with
  | Node n e kids =>
      H n e kids ((fix go (l : list (N * trie)) : Forall (fun ck => P (snd ck)) l :=
                     match l with
                     | [] => Forall_nil _
                     | (c, k) :: l' => Forall_cons (c, k) (trie_ind' P H k) (go l')
                     end) kids)
  end.

(** ** Text order *)
Lemma tltb_irrefl : forall a, tltb a a = false.
Proof. induction a as [|c a IH]; simpl; [reflexivity|]. rewrite N.ltb_irrefl. exact IH. Qed.
Lemma tltb_trans : forall a b c, tltb a b = true -> tltb b c = true -> tltb a c = true.
Proof.
  induction a as [|x a IH]; intros [|y b] [|z c] H1 H2; simpl in *; try discriminate; try reflexivity.
  destruct (N.ltb_spec x y); destruct (N.ltb_spec y z); destruct (N.ltb_spec x z);
    destruct (N.ltb_spec y x); destruct (N.ltb_spec z y); destruct (N.ltb_spec z x); try lia; try discriminate; try reflexivity.
  eapply IH; eassumption.
Qed.
Lemma tltb_total : forall a b, tltb a b = false -> tltb b a = false -> a = b.
Proof.
  induction a as [|x a IH]; intros [|y b] H1 H2; simpl in *; try discriminate; try reflexivity.
  destruct (N.ltb_spec x y); destruct (N.ltb_spec y x); try discriminate; try lia.
  f_equal; [lia|apply IH; assumption].
Qed.
Lemma wset_insert_in : forall w s x, In x (wset_insert w s) <-> x = w \/ In x s.
Proof.
  induction s as [|y s IH]; intros x; simpl.
  - split; intros [H|H]; auto; contradiction.
  - destruct (tltb w y) eqn:E1; [simpl; split; intuition|].
    destruct (tltb y w) eqn:E2.
    + simpl. rewrite IH. split; intuition.
    + assert (w = y) by (apply tltb_total; assumption). subst. simpl. split; intuition.
Qed.
Definition sorted_b (l : list text) : Prop := StronglySorted (fun a b => tltb a b = true) l.
Lemma sorted_ext : forall A (P Q : A -> A -> Prop) l, (forall a b, P a b <-> Q a b) -> (StronglySorted P l <-> StronglySorted Q l).
Proof.
  intros A P Q l H. split; intros K; induction K as [|a l K IH F]; constructor; try exact IH; eapply Forall_impl; try exact F; intros b; apply H.
Qed.
Lemma sorted_b_iff : forall l, sorted_b l <-> sorted_words l.
Proof. intros l. apply sorted_ext. exact tltb_lt. Qed.
Lemma wset_insert_sorted : forall w s, sorted_b s -> sorted_b (wset_insert w s).
Proof.
  intros w s H. induction H as [|y s Hs IH Hy]; simpl; [repeat constructor|].
  destruct (tltb w y) eqn:E1.
  - constructor; [constructor; assumption|]. constructor; [exact E1|].
    eapply Forall_impl; [|exact Hy]. intros z Hz. eapply tltb_trans; eassumption.
  - destruct (tltb y w) eqn:E2; [|constructor; assumption].
    constructor; [exact IH|]. apply Forall_forall. intros z Hz. apply wset_insert_in in Hz.
    destruct Hz as [->|Hz]; [exact E2|]. rewrite Forall_forall in Hy. auto.
Qed.

(** ** Children *)
Lemma kid_find_set : forall c k l d, kid_find d (kid_set c k l) = if d =? c then Some k else kid_find d l.
Proof.
  induction l as [|[e u] l IH]; intros d; simpl.
  - rewrite (N.eqb_sym c d). reflexivity.
  - destruct (N.ltb_spec c e); [simpl; rewrite (N.eqb_sym c d); reflexivity|].
    destruct (N.eqb_spec c e) as [->|Hne].
    + simpl. rewrite (N.eqb_sym e d). destruct (d =? e); reflexivity.
    + simpl. destruct (N.eqb_spec e d) as [->|].
      * destruct (N.eqb_spec d c); [congruence|reflexivity].
      * apply IH.
Qed.
Lemma add_word_nil : forall t, add_word [] t = t.
Proof. destruct t; reflexivity. Qed.

Lemma is_word_add : forall w t x, is_word x (add_word w t) = is_word x t || (negb (teqb w []) && teqb x w).
Proof.
  induction w as [|c w IH]; intros t x.
  - rewrite add_word_nil. simpl. rewrite orb_false_r. reflexivity.
  - destruct t as [n e kids]. destruct x as [|d x]; [simpl; rewrite orb_false_r; reflexivity|].
    cbn [add_word is_word t_kids]. rewrite kid_find_set.
    simpl teqb. destruct (N.eqb_spec d c) as [->|Hdc].
    + simpl. destruct (kid_find c kids) as [[m e' ks]|] eqn:E.
      * destruct w as [|c' w].
        -- destruct x as [|d' x]; simpl; [rewrite orb_true_r; reflexivity|rewrite orb_false_r; reflexivity].
        -- rewrite IH. reflexivity.
      * rewrite IH. destruct w as [|c' w].
        -- destruct x as [|d' x]; reflexivity.
        -- destruct x as [|d' x]; simpl; reflexivity.
    + simpl. rewrite orb_false_r. reflexivity.
Qed.
Fixpoint prefixb (p w : text) : bool :=
  match p, w with
  | [], _ => true
  | _ :: _, [] => false
  | c :: p', d :: w' => (c =? d) && prefixb p' w'
  end.
Lemma prefixb_spec : forall p w, prefixb p w = true <-> prefix_of p w.
Proof.
  induction p as [|c p IH]; intros w; simpl.
  - split; [intros _; exists w; reflexivity|reflexivity].
  - destruct w as [|d w]; [split; [discriminate|intros (s & E); discriminate]|].
    rewrite andb_true_iff, N.eqb_eq, IH. split.
    + intros (-> & s & ->). exists s. reflexivity.
    + intros (s & E). injection E as -> ->. split; [reflexivity|exists s; reflexivity].
Qed.
Lemma is_prefix_new : forall e p, is_prefix p (new_trie e) = match p with [] => true | _ => false end.
Proof. intros e [|c p]; reflexivity. Qed.
Lemma is_prefix_add : forall w t p, is_prefix p (add_word w t) = is_prefix p t || prefixb p w.
Proof.
  induction w as [|c w IH]; intros t p.
  - rewrite add_word_nil. destruct p; simpl; [reflexivity|rewrite orb_false_r; reflexivity].
  - destruct t as [n e kids]. destruct p as [|d p]; [reflexivity|].
    cbn [add_word is_prefix t_kids]. rewrite kid_find_set. simpl prefixb.
    destruct (N.eqb_spec d c) as [->|Hdc].
    + destruct (kid_find c kids) as [[m e' ks]|] eqn:E.
      * destruct w as [|c' w].
        -- destruct p as [|d' p]; [reflexivity|]. simpl. rewrite orb_false_r. reflexivity.
        -- rewrite IH. reflexivity.
      * rewrite IH, is_prefix_new. destruct p; reflexivity.
    + simpl. rewrite orb_false_r. reflexivity.
Qed.

(** ** Well-formed tries *)
Inductive wf : trie -> Prop :=
| wf_node : forall n e kids, StronglySorted (fun a b => fst a < fst b) kids -> Forall (fun ck => wf (snd ck)) kids ->
    wf (Node n e kids).
Lemma kid_set_in : forall c k l x, In x (kid_set c k l) -> x = (c, k) \/ In x l.
Proof.
  induction l as [|[d u] l IH]; intros x; simpl.
  - intros [H|[]]; auto.
  - destruct (c <? d); [simpl; intuition|]. destruct (c =? d); simpl; [intuition|].
    intros [H|H]; [auto|]. apply IH in H. intuition.
Qed.
Lemma kid_set_sorted : forall c k l, StronglySorted (fun a b : N * trie => fst a < fst b) l ->
  StronglySorted (fun a b : N * trie => fst a < fst b) (kid_set c k l).
Proof.
  intros c k l H. induction H as [|[d u] l Hl IH Hd]; simpl; [repeat constructor|].
  destruct (N.ltb_spec c d).
  - constructor; [constructor; assumption|]. constructor; [simpl; assumption|].
    eapply Forall_impl; [|exact Hd]. simpl. intros; lia.
  - destruct (N.eqb_spec c d) as [->|Hcd].
    + constructor; [assumption|]. exact Hd.
    + constructor; [exact IH|]. apply Forall_forall. intros x Hx. apply kid_set_in in Hx.
      rewrite Forall_forall in Hd. destruct Hx as [->|Hx]; [simpl; lia|apply Hd; exact Hx].
Qed.
Lemma kid_find_in : forall c l k, kid_find c l = Some k -> In (c, k) l.
Proof.
  induction l as [|[d u] l IH]; intros k H; simpl in *; [discriminate|].
  destruct (N.eqb_spec d c) as [->|]; [injection H as ->; auto|right; auto].
Qed.
Lemma kid_in_find : forall l, StronglySorted (fun a b : N * trie => fst a < fst b) l ->
  forall c k, In (c, k) l -> kid_find c l = Some k.
Proof.
  induction 1 as [|[d u] l Hl IH Hd]; intros c k Hin; [destruct Hin|]. simpl.
  destruct Hin as [E|Hin].
  - injection E as -> ->. rewrite N.eqb_refl. reflexivity.
  - rewrite Forall_forall in Hd. specialize (Hd _ Hin). simpl in Hd.
    destruct (N.eqb_spec d c); [lia|]. apply IH; assumption.
Qed.
Lemma wf_new : forall e, wf (new_trie e).
Proof. intros e. constructor; constructor. Qed.
Lemma wf_fin : forall n e kids n' e', wf (Node n e kids) -> wf (Node n' e' kids).
Proof. intros n e kids n' e' H. inversion H; subst. constructor; assumption. Qed.
Lemma wf_add : forall w t, wf t -> wf (add_word w t).
Proof.
  induction w as [|c w IH]; intros t H; [rewrite add_word_nil; exact H|].
  destruct t as [n e kids]. inversion H as [? ? ? Hs Hk]; subst. cbn [add_word]. constructor.
  - apply kid_set_sorted; exact Hs.
  - apply Forall_forall. intros [d k] Hin. simpl. apply kid_set_in in Hin. rewrite Forall_forall in Hk.
    destruct Hin as [E|Hin]; [|apply (Hk _ Hin)]. injection E as -> ->.
    destruct (kid_find c kids) as [[m e' ks]|] eqn:F.
    + apply kid_find_in in F. specialize (Hk _ F). simpl in Hk.
      destruct w; [eapply wf_fin; exact Hk|apply IH; exact Hk].
    + apply IH, wf_new.
Qed.

(** ** All words *)
Lemma get_words_spec : forall t, wf t -> forall sofar ws,
  (forall x, In x (get_words t sofar ws) <-> In x ws \/ exists w, is_word w t = true /\ x = sofar ++ w) /\
  (sorted_b ws -> sorted_b (get_words t sofar ws)).
Proof.
  induction t as [n e kids IHk] using trie_ind'. intros W sofar ws. inversion W as [? ? ? Hs Hk]; subst. cbn [get_words].
  assert (G : forall l, Forall (fun ck => forall sofar ws, wf (snd ck) ->
      (forall x, In x (get_words (snd ck) sofar ws) <-> In x ws \/ exists w, is_word w (snd ck) = true /\ x = sofar ++ w) /\
      (sorted_b ws -> sorted_b (get_words (snd ck) sofar ws))) l ->
    Forall (fun ck => wf (snd ck)) l -> forall ws,
    let r := (fix go (l : list (N * trie)) (ws : list text) : list text :=
         match l with
         | [] => ws
         | (c, k) :: l' =>
             let tmp := sofar ++ [c] in
             go l' (get_words k tmp (if t_fin k then wset_insert tmp ws else ws))
         end) l ws in
    (forall x, In x r <-> In x ws \/ exists c k w, In (c, k) l /\ is_word w k = true /\ x = sofar ++ c :: w) /\
    (sorted_b ws -> sorted_b r)).
  { clear. induction l as [|[c k] l IH]; intros HA HB ws r; unfold r; clear r.
    - split; [|auto]. intros x. split; [auto|]. intros [H|(c & k & w & [] & _)]; exact H.
    - inversion HA as [|? ? HA1 HA2]; subst. inversion HB as [|? ? HB1 HB2]; subst. simpl in HA1, HB1.
      set (ws1 := if t_fin k then wset_insert (sofar ++ [c]) ws else ws).
      destruct (HA1 (sofar ++ [c]) ws1 HB1) as (K1 & K2).
      destruct (IH HA2 HB2 (get_words k (sofar ++ [c]) ws1)) as (R1 & R2).
      assert (S1 : forall x, In x ws1 -> In x ws \/ (is_word [] k = true /\ x = sofar ++ [c])).
      { intros x. unfold ws1. simpl. destruct (t_fin k); [rewrite wset_insert_in|]; intuition. }
      split.
      + intros x. rewrite R1, K1. split.
        * intros [[H|(w & Hw & ->)]|(c' & k' & w & Hin & Hw & ->)].
          -- apply S1 in H. destruct H as [H|(H & ->)]; [auto|]. right. exists c, k, []. simpl; auto.
          -- right. exists c, k, w. rewrite <- app_assoc. simpl; auto.
          -- right. exists c', k', w. simpl; auto.
        * intros [H|(c' & k' & w & [E|Hin] & Hw & ->)].
          -- left. left. unfold ws1. destruct (t_fin k); [rewrite wset_insert_in|]; auto.
          -- injection E as -> ->. left. right. exists w. rewrite <- app_assoc. auto.
          -- right. exists c', k', w. auto.
      + intros H. apply R2, K2. unfold ws1. destruct (t_fin k); [apply wset_insert_sorted|]; exact H. }
  assert (HA : Forall (fun ck => forall sofar ws, wf (snd ck) ->
      (forall x, In x (get_words (snd ck) sofar ws) <-> In x ws \/ exists w, is_word w (snd ck) = true /\ x = sofar ++ w) /\
      (sorted_b ws -> sorted_b (get_words (snd ck) sofar ws))) kids).
  { eapply Forall_impl; [|exact IHk]. intros ck H s w Hw. apply H. exact Hw. }
  destruct (G kids HA Hk (if e then wset_insert sofar ws else ws)) as (G1 & G2). split.
  - intros x. rewrite G1. split.
    + intros [H|(c & k & w & Hin & Hw & ->)].
      * destruct e; [rewrite wset_insert_in in H; destruct H as [->|H]|]; [|auto|auto].
        right. exists []. split; [reflexivity|rewrite app_nil_r; reflexivity].
      * right. exists (c :: w). split; [|reflexivity]. simpl. rewrite (kid_in_find kids Hs c k Hin). exact Hw.
    + intros [H|(w & Hw & ->)].
      * left. destruct e; [rewrite wset_insert_in|]; auto.
      * destruct w as [|c w]; simpl in Hw.
        -- subst e. left. rewrite app_nil_r, wset_insert_in. auto.
        -- destruct (kid_find c kids) as [k|] eqn:F; [|discriminate]. right. exists c, k, w.
           split; [apply kid_find_in; exact F|auto].
  - intros H. apply G2. destruct e; [apply wset_insert_sorted|]; exact H.
Qed.
Lemma starting_spec : forall p t, wf t -> forall sofar ws,
  (forall x, In x (get_words_starting p t ws sofar) <-> In x ws \/ exists w, is_word (p ++ w) t = true /\ x = sofar ++ p ++ w) /\
  (sorted_b ws -> sorted_b (get_words_starting p t ws sofar)).
Proof.
  induction p as [|c p IH]; intros t W sofar ws; [apply (get_words_spec t W)|]. simpl.
  destruct (kid_find c (t_kids t)) as [k|] eqn:F.
  - assert (Wk : wf k). { destruct W as [n e kids Hs Hk]. simpl in F. apply kid_find_in in F. rewrite Forall_forall in Hk. apply (Hk _ F). }
    destruct (IH k Wk (sofar ++ [c]) ws) as (H1 & H2). split; [|exact H2].
    intros x. rewrite H1. split; (intros [H|(w & Hw & E)]; [auto|right; exists w; split; [exact Hw|]]); rewrite E, <- app_assoc; reflexivity.
  - split; [|auto]. intros x. split; [auto|]. intros [H|(w & Hw & _)]; [exact H|discriminate].
Qed.

(** ** A trie filled with words *)
Lemma trie_of_gen : forall ws t, wf t ->
  let t' := fold_left (fun t w => add_word w t) ws t in
  wf t' /\ (forall x, is_word x t' = true <-> is_word x t = true \/ (x <> [] /\ In x ws)) /\
  (forall p, is_prefix p t' = true <-> is_prefix p t = true \/ exists w, In w ws /\ prefix_of p w) /\
  t_size t' = t_size t + N.of_nat (List.length (filter (fun w => match w with [] => false | _ => true end) ws)).
Proof.
  induction ws as [|w ws IH]; intros t W t'; unfold t'; clear t'.
  - simpl. split; [exact W|]. split; [|split; [|lia]].
    + intros x. split; [auto|]. intros [H|(_ & [])]; exact H.
    + intros p. split; [auto|]. intros [H|(w & [] & _)]; exact H.
  - simpl fold_left. destruct (IH (add_word w t) (wf_add w t W)) as (H1 & H2 & H3 & H4). clear IH.
    split; [exact H1|]. split; [|split].
    + intros x. rewrite H2, is_word_add, orb_true_iff, andb_true_iff, negb_true_iff, teqb_neq, teqb_eq. simpl.
      split; [intros [[H|(H & ->)]|(H & K)]; auto|]. intros [H|(H & [->|K])]; auto.
    + intros p. rewrite H3, is_prefix_add, orb_true_iff, prefixb_spec. simpl. split.
      * intros [[H|H]|(x & Hx & P)]; [auto|right; exists w; auto|right; exists x; auto].
      * intros [H|(x & [<-|Hx] & P)]; [auto|auto|right; exists x; auto].
    + rewrite H4. destruct w as [|c w]; simpl.
      * destruct t; reflexivity.
      * destruct t as [n e kids]. simpl. lia.
Qed.
Lemma trie_words : forall ws,
  (forall x, is_word x (trie_of ws) = true <-> x <> [] /\ In x ws) /\
  (forall p, is_prefix p (trie_of ws) = true <-> p = [] \/ exists w, In w ws /\ prefix_of p w) /\
  t_size (trie_of ws) = N.of_nat (List.length (filter (fun w => match w with [] => false | _ => true end) ws)).
Proof.
  intros ws. destruct (trie_of_gen ws (new_trie false) (wf_new false)) as (_ & H2 & H3 & H4). split; [|split].
  - intros x. unfold trie_of. rewrite H2. split; [intros [H|H]; [destruct x; discriminate|exact H]|auto].
  - intros p. unfold trie_of. rewrite H3. rewrite is_prefix_new. destruct p; intuition discriminate.
  - unfold trie_of. rewrite H4. simpl. lia.
Qed.
Lemma trie_listing : forall ws p,
  let all := get_words (trie_of ws) [] [] in
  let some := get_words_starting p (trie_of ws) [] [] in
  sorted_words all /\ (forall x, In x all <-> x <> [] /\ In x ws) /\
  sorted_words some /\ (forall x, In x some <-> x <> [] /\ In x ws /\ prefix_of p x).
Proof.
  intros ws p all some. destruct (trie_of_gen ws (new_trie false) (wf_new false)) as (W & _). fold (trie_of ws) in W.
  destruct (trie_words ws) as (H & _ & _).
  destruct (get_words_spec _ W [] []) as (A1 & A2). destruct (starting_spec p _ W [] []) as (S1 & S2).
  split; [apply sorted_b_iff, A2; constructor|]. split; [|split; [apply sorted_b_iff, S2; constructor|]].
  - intros x. unfold all. rewrite A1, <- H. split.
    + intros [[]|(w & Hw & ->)]. exact Hw.
    + intros Hw. right. exists x. auto.
  - intros x. unfold some. rewrite S1. split.
    + intros [[]|(w & Hw & ->)]. simpl. apply H in Hw. destruct Hw as (Hw1 & Hw2). split; [exact Hw1|]. split; [exact Hw2|].
      exists w. reflexivity.
    + intros (Hx & Hin & w & ->). right. exists w. split; [apply H; auto|reflexivity].
Qed.
Lemma trie_collect : forall ws p held, sorted_words held ->
  let all := get_words (trie_of ws) [] held in
  let some := get_words_starting p (trie_of ws) held [] in
  sorted_words all /\ (forall x, In x all <-> In x held \/ x <> [] /\ In x ws) /\
  sorted_words some /\ (forall x, In x some <-> In x held \/ x <> [] /\ In x ws /\ prefix_of p x).
Proof.
  intros ws p held Hh all some. destruct (trie_of_gen ws (new_trie false) (wf_new false)) as (W & _). fold (trie_of ws) in W.
  destruct (trie_words ws) as (H & _ & _).
  destruct (get_words_spec _ W [] held) as (A1 & A2). destruct (starting_spec p _ W [] held) as (S1 & S2). apply sorted_b_iff in Hh.
  split; [apply sorted_b_iff, A2, Hh|]. split; [|split; [apply sorted_b_iff, S2, Hh|]].
  - intros x. unfold all. rewrite A1, <- H. split.
    + intros [K|(w & Hw & ->)]; [left; exact K|right; exact Hw].
    + intros [K|Hw]; [left; exact K|]. right. exists x. auto.
  - intros x. unfold some. rewrite S1. split.
    + intros [K|(w & Hw & ->)]; [left; exact K|]. right. simpl. apply H in Hw. destruct Hw as (Hw1 & Hw2). split; [exact Hw1|]. split; [exact Hw2|].
      exists w. reflexivity.
    + intros [K|(Hx & Hin & w & ->)]; [left; exact K|]. right. exists w. split; [apply H; auto|reflexivity].
Qed.
