(** The pattern produced by the trie matches exactly the words, longest first. *)
From Coq Require Import String List NArith Bool Lia Arith Sorting.Sorted.
From Verif Require Import Base_model Uni_model Regex_model Trie_model Trie_spec Search_proofs Trie_proofs.
Import ListNotations.
Local Open Scope N_scope.

(** ** Parsing *)
Definition push_all (l : list (re * bool)) (s : pst) : pst := mkP (rev l ++ p_cur s) (p_alts s) (p_stack s) (p_n s).
(** A piece of pattern that contributes the given atoms to the current sequence. *)
Definition parses (t : text) (l : list (re * bool)) : Prop :=
  forall rest s, parse_go 0 MNormal (t ++ rest) s = parse_go 0 MNormal rest (push_all l s).
Lemma parses_nil : parses [] [].
Proof. intros rest [cur alts st n]. reflexivity. Qed.
Lemma parses_app : forall a b la lb, parses a la -> parses b lb -> parses (a ++ b) (la ++ lb).
Proof.
  intros a b la lb Ha Hb rest s. rewrite <- app_assoc, Ha, Hb. f_equal. unfold push_all. simpl.
  rewrite rev_app_distr, app_assoc. reflexivity.
Qed.
(** Characters without special meaning once quoted. *)
Definition plain_char (c : N) : Prop := c <> 94 /\ c <> 123 /\ c <> 125.
Definition is_special (c : N) : bool := existsb (N.eqb c) special_chars.
Lemma quote_one : forall c, quote_meta [c] = if is_special c then [92; c] else [c].
Proof. intros c. unfold quote_meta. cbn [map concat]. rewrite app_nil_r. reflexivity. Qed.
Lemma special_in : forall c, is_special c = true ->
  c = 45 \/ c = 46 \/ c = 43 \/ c = 42 \/ c = 126 \/ c = 36 \/ c = 40 \/ c = 41 \/ c = 91 \/ c = 93 \/ c = 92 \/ c = 124 \/ c = 63.
Proof.
  intros c H. unfold is_special in H. apply existsb_exists in H. destruct H as (d & Hd & E). apply N.eqb_eq in E. subst d.
  simpl in Hd. intuition.
Qed.
Lemma not_special : forall c, is_special c = false ->
  c <> 45 /\ c <> 46 /\ c <> 43 /\ c <> 42 /\ c <> 126 /\ c <> 36 /\ c <> 40 /\ c <> 41 /\ c <> 91 /\ c <> 93 /\ c <> 92 /\ c <> 124 /\ c <> 63.
Proof.
  intros c H. unfold is_special in H. simpl in H. rewrite !orb_false_iff, !N.eqb_neq in H. tauto.
Qed.
Lemma parses_char : forall c, plain_char c -> parses (quote_meta [c]) [(RChr c, true)].
Proof.
  intros c (P1 & P2 & P3) rest s. rewrite quote_one. destruct (is_special c) eqn:E.
  - assert (H := special_in c E). destruct s as [cur alts st n].
    repeat (destruct H as [->|H]; [reflexivity|]). subst c. reflexivity.
  - apply not_special in E. destruct E as (E1 & E2 & E3 & E4 & E5 & E6 & E7 & E8 & E9 & E10 & E11 & E12 & E13).
    cbn [app parse_go].
    repeat match goal with |- context [c =? ?k] => replace (c =? k) with false by (symmetry; apply N.eqb_neq; assumption) end.
    reflexivity.
Qed.
(** Sets. *)
Lemma set_chars : forall cs, Forall plain_char cs -> forall l rest s,
  parse_go 0 (MSet false l) (concat (map (fun c => quote_meta [c]) cs) ++ rest) s =
  parse_go 0 (MSet false (l ++ map IChr cs)) rest s.
Proof.
  induction 1 as [|c cs (P1 & P2 & P3) Hcs IH]; intros l rest s; [simpl; rewrite app_nil_r; reflexivity|].
  cbn [map concat]. rewrite <- app_assoc. rewrite quote_one.
  replace (l ++ IChr c :: map IChr cs) with ((l ++ [IChr c]) ++ map IChr cs) by (rewrite <- app_assoc; reflexivity).
  rewrite <- IH. destruct (is_special c) eqn:E.
  - assert (H := special_in c E). repeat (destruct H as [->|H]; [reflexivity|]). subst c. reflexivity.
  - apply not_special in E. destruct E as (E1 & E2 & E3 & E4 & E5 & E6 & E7 & E8 & E9 & E10 & E11 & E12 & E13).
    cbn [app parse_go].
    repeat match goal with |- context [c =? ?k] => replace (c =? k) with false by (symmetry; apply N.eqb_neq; assumption) end.
    reflexivity.
Qed.
Lemma quote_head : forall c, plain_char c -> exists d r, quote_meta [c] = d :: r /\ d <> 94.
Proof.
  intros c (P & _). rewrite quote_one. destruct (is_special c); eexists; eexists; split; try reflexivity; [discriminate|exact P].
Qed.
Lemma parses_set : forall cs, Forall plain_char cs -> cs <> [] ->
  parses (s2t "[" ++ concat (map (fun c => quote_meta [c]) cs) ++ s2t "]") [(RSet false (map IChr cs), true)].
Proof.
  intros cs H Hne rest s. destruct cs as [|c cs]; [congruence|].
  assert (HH := H). inversion H as [|? ? Hc Hcs]; subst. destruct (quote_head c Hc) as (d & r & E & Hd).
  set (body := concat (map (fun c => quote_meta [c]) (c :: cs))).
  assert (B : exists r', body = d :: r'). { unfold body. simpl concat. rewrite E. simpl. eexists; reflexivity. }
  destruct B as (r' & B).
  assert (O : parse_go 0 MNormal ((s2t "[" ++ body ++ s2t "]") ++ rest) s = parse_go 0 (MSet false []) (body ++ s2t "]" ++ rest) s).
  { rewrite <- app_assoc. rewrite <- app_assoc. rewrite B. change (s2t "[") with [91]. cbn [app]. cbn [parse_go]. change (91 =? 92) with false. change (91 =? 40) with false. change (91 =? 41) with false.
    change (91 =? 124) with false. change (91 =? 91) with true. cbv iota.
    replace (d =? 94) with false by (symmetry; apply N.eqb_neq; exact Hd). reflexivity. }
  rewrite O. unfold body. rewrite (set_chars _ HH). reflexivity.
Qed.
(** Repeats and groups. *)
Lemma parses_opt : forall t a, parses t [(a, true)] -> parses (t ++ s2t "?") [(ROpt a, false)].
Proof. intros t a H rest s. rewrite <- app_assoc, H. destruct s; reflexivity. Qed.
Lemma cat_of_rev : forall l, cat_of (rev l ++ []) = fold_right (fun a r => RCat (fst a) r) REmpty l.
Proof. intros l. unfold cat_of. rewrite app_nil_r, rev_involutive. reflexivity. Qed.
Definition seq_re (l : list (re * bool)) : re := fold_right (fun a r => RCat (fst a) r) REmpty l.
Definition bar_pst (cur : list (re * bool)) (alts : list re) st n : pst := mkP cur alts st n.
Lemma group_body : forall ts ls, Forall2 parses ts ls -> ts <> [] -> forall rest alts st n,
  parse_go 0 MNormal (join (s2t "|") ts ++ s2t ")" ++ rest) (mkP [] alts st n) =
  parse_go 0 MNormal (s2t ")" ++ rest) (mkP (rev (last ls [])) (rev (map seq_re (removelast ls)) ++ alts) st n).
Proof.
  induction 1 as [|t l ts ls Ht Hts IH]; intros Hne rest alts st n; [congruence|].
  destruct ts as [|t2 ts].
  - inversion Hts; subst. cbn [join removelast map rev last app].
    rewrite (Ht _ _). unfold push_all. cbn [p_cur p_alts p_stack p_n]. rewrite app_nil_r. reflexivity.
  - inversion Hts as [|? l2 ? ls2 Ht2 Hts2]; subst.
    change (join (s2t "|") (t :: t2 :: ts)) with (t ++ s2t "|" ++ join (s2t "|") (t2 :: ts)).
    rewrite <- !app_assoc. rewrite Ht. unfold push_all. cbn [p_cur p_alts p_stack p_n].
    change (parse_go 0 MNormal (s2t "|" ++ ?x) ?s) with (parse_go 0 MNormal x (p_bar s)).
    unfold p_bar. cbn [p_cur p_alts p_stack p_n]. rewrite cat_of_rev.
    rewrite (IH ltac:(discriminate)).
    f_equal. f_equal.
    change (removelast (l :: l2 :: ls2)) with (l :: removelast (l2 :: ls2)). cbn [map rev].
    rewrite <- app_assoc. reflexivity.
Qed.
Lemma parses_group : forall ts ls, Forall2 parses ts ls -> ts <> [] ->
  parses (s2t "(?:" ++ join (s2t "|") ts ++ s2t ")") [(alt_of (map seq_re ls), true)].
Proof.
  intros ts ls H Hne rest s. destruct s as [cur alts st n].
  replace ((s2t "(?:" ++ join (s2t "|") ts ++ s2t ")") ++ rest) with (s2t "(?:" ++ (join (s2t "|") ts ++ s2t ")" ++ rest))
    by (rewrite <- !app_assoc; reflexivity).
  change (parse_go 0 MNormal (s2t "(?:" ++ ?x) (mkP cur alts st n)) with (parse_go 0 MNormal x (mkP [] [] ((GPlain, cur, alts) :: st) n)).
  rewrite (group_body ts ls H Hne).
  change (parse_go 0 MNormal (s2t ")" ++ ?x) ?s) with (match p_close s with Some s' => parse_go 0 MNormal x s' | None => None end).
  unfold p_close, p_finish. cbn [p_stack p_cur p_alts p_n]. unfold push_all. cbn [p_cur p_alts p_stack p_n rev app].
  f_equal. f_equal. f_equal. f_equal. f_equal.
  assert (N : ls <> []). { inversion H; subst; [congruence|discriminate]. }
  rewrite app_nil_r, rev_involutive. pose proof (cat_of_rev (last ls [])) as C. rewrite app_nil_r in C. rewrite C.
  rewrite (app_removelast_last [] N) at 3. rewrite map_app. reflexivity.
Qed.

(** ** Matching *)
Lemma mt_seq_app : forall u ic a b s, mt u ic (seq_re (a ++ b)) s = flat_map (mt u ic (seq_re b)) (mt u ic (seq_re a) s).
Proof.
  induction a as [|x a IH]; intros b s; simpl.
  - rewrite app_nil_r. reflexivity.
  - induction (mt u ic (fst x) s) as [|s' l IHl]; simpl; [reflexivity|]. rewrite flat_map_app, IH, IHl. reflexivity.
Qed.
Lemma mt_alt : forall u ic l s, l <> [] -> mt u ic (alt_of l) s = flat_map (fun r => mt u ic r s) l.
Proof.
  induction l as [|x l IH]; intros s H; [congruence|]. destruct l as [|y l].
  - simpl. rewrite app_nil_r. reflexivity.
  - change (alt_of (x :: y :: l)) with (RAlt x (alt_of (y :: l))). cbn [mt]. rewrite IH by discriminate. reflexivity.
Qed.
(** State after reading a text. *)
Definition adv (s : mst) (w : text) : mst :=
  mkM (match rev w with [] => m_prev s | c :: _ => Some c end) (skipn (List.length w) (m_rest s)) (m_caps s).
Lemma adv_nil : forall s, adv s [] = s.
Proof. intros [p r c]; reflexivity. Qed.
Lemma adv_cons : forall s c r w, m_rest s = c :: r -> adv (m_step s c r) w = adv s (c :: w).
Proof.
  intros s c r w E. unfold adv. simpl. rewrite E. simpl. f_equal.
  destruct (rev w) as [|d l] eqn:F; simpl; [|reflexivity].
  reflexivity.
Qed.
(** The words of a trie that begin a text, longest first. *)
Fixpoint hits (t : trie) (rest : text) : list text :=
  match rest with
  | c :: r => match kid_find c (t_kids t) with Some k => map (cons c) (hits k r) | None => [] end
  | [] => []
  end ++ (if t_fin t then [[]] else []).
Lemma hits_in : forall rest t w, In w (hits t rest) <-> is_word w t = true /\ prefix_of w rest.
Proof.
  induction rest as [|c r IH]; intros t w; cbn [hits].
  - simpl. split.
    + destruct (t_fin t) eqn:E; [|intros []]. intros [<-|[]]. split; [exact E|exists []; reflexivity].
    + intros (H & s & E). destruct w as [|d w]; [|discriminate]. simpl in H. rewrite H. left; reflexivity.
  - rewrite in_app_iff. split.
    + intros [H|H].
      * destruct (kid_find c (t_kids t)) as [k|] eqn:F; [|destruct H]. apply in_map_iff in H.
        destruct H as (x & <- & Hx). apply IH in Hx. destruct Hx as (Hx & s & ->). simpl. rewrite F.
        split; [exact Hx|]. exists s. reflexivity.
      * destruct (t_fin t) eqn:E; [|destruct H]. destruct H as [<-|[]]. split; [exact E|exists (c :: r); reflexivity].
    + intros (H & s & E). destruct w as [|d w].
      * right. simpl in H. rewrite H. left; reflexivity.
      * injection E as -> ->. left. simpl in H. destruct (kid_find d (t_kids t)) as [k|]; [|discriminate].
        apply in_map. apply IH. split; [exact H|exists s; reflexivity].
Qed.
Lemma hits_sorted : forall rest t, StronglySorted (fun a b : text => (List.length b < List.length a)%nat) (hits t rest).
Proof.
  assert (A : forall (l m : list text), StronglySorted (fun a b : text => (List.length b < List.length a)%nat) l ->
    (m = [] \/ (m = [[]] /\ Forall (fun a => a <> []) l)) -> StronglySorted (fun a b : text => (List.length b < List.length a)%nat) (l ++ m)).
  { intros l m H [->|(-> & K)]; [rewrite app_nil_r; exact H|]. induction H as [|a l Hl IH Ha]; simpl; [repeat constructor|].
    inversion K; subst. constructor; [apply IH; assumption|]. apply Forall_app. split; [exact Ha|].
    constructor; [destruct a; [congruence|simpl; lia]|constructor]. }
  induction rest as [|c r IH]; intros t; cbn [hits].
  - apply A; [constructor|]. destruct (t_fin t); auto.
  - destruct (kid_find c (t_kids t)) as [k|].
    + apply A.
      * specialize (IH k). induction IH as [|a l Hl IHl Ha]; simpl; [constructor|]. constructor; [exact IHl|].
        apply Forall_forall. intros x Hx. apply in_map_iff in Hx. destruct Hx as (y & <- & Hy).
        rewrite Forall_forall in Ha. specialize (Ha _ Hy). simpl. lia.
      * destruct (t_fin t); [right|auto]. split; [reflexivity|]. apply Forall_forall. intros x Hx. apply in_map_iff in Hx.
        destruct Hx as (y & <- & _). discriminate.
    + apply A; [constructor|]. destruct (t_fin t); auto.
Qed.

(** ** Tries that come from words *)
(** Every node below the root ends a word or continues. *)
Inductive live : trie -> Prop :=
| live_node : forall n e kids, (e = true \/ kids <> []) -> Forall (fun ck => live (snd ck)) kids -> live (Node n e kids).
Inductive chars (P : N -> Prop) : trie -> Prop :=
| chars_node : forall n e kids, Forall (fun ck => P (fst ck) /\ chars P (snd ck)) kids -> chars P (Node n e kids).
(** Comparison is exact between the characters of the trie and those of the text. *)
Definition exact_on (u : uni) (ic : bool) (P : N -> Prop) (rest : text) : Prop :=
  forall c d, P c -> In d rest -> ceq u ic c d = true -> c = d.
Lemma ceq_refl : forall u ic c, ceq u ic c c = true.
Proof. intros u ic c. unfold ceq. destruct ic; apply N.eqb_refl. Qed.
Lemma ceq_exact : forall u ic (P : N -> Prop) rest c d, exact_on u ic P rest -> P c -> In d rest -> ceq u ic c d = (d =? c).
Proof.
  intros u ic P rest c d H Hc Hd. destruct (N.eqb_spec d c) as [->|N].
  - apply ceq_refl.
  - destruct (ceq u ic c d) eqn:E; [|reflexivity]. exfalso. apply N. symmetry. eapply H; eassumption.
Qed.

(** The alternatives and single characters collected by getRegexp. *)
Definition leaf (k : trie) : bool := match get_regexp k with [] => true | _ => false end.
Definition alts_of (kids : list (N * trie)) : list text :=
  map (fun ck => quote_meta [fst ck] ++ get_regexp (snd ck)) (filter (fun ck => negb (leaf (snd ck))) kids).
Definition leaves (kids : list (N * trie)) : list N := map fst (filter (fun ck => leaf (snd ck)) kids).
Lemma get_regexp_eq : forall n e kids, get_regexp (Node n e kids) =
  if e && Nat.eqb (List.length kids) 0 then []
  else finish_regexp e (alts_of kids) (map (fun c => quote_meta [c]) (leaves kids)) (List.length kids).
Proof.
  intros n e kids. cbn [get_regexp]. destruct (e && Nat.eqb (List.length kids) 0); [reflexivity|].
  match goal with |- context [(fix go l alt cc {struct l} := _) kids [] []] => idtac end.
  assert (G : forall l alt cc,
    (fix go (l : list (N * trie)) (alt cc : list text) {struct l} : list text * list text :=
       match l with
       | [] => (alt, cc)
       | (c, k) :: l' =>
           let qchar := quote_meta [c] in
           match get_regexp k with
           | [] => go l' alt (cc ++ [qchar])
           | r => go l' (alt ++ [qchar ++ r]) cc
           end
       end) l alt cc = (alt ++ alts_of l, cc ++ map (fun c => quote_meta [c]) (leaves l))).
  { induction l as [|[c k] l IH]; intros alt cc; [unfold alts_of, leaves; simpl; rewrite !app_nil_r; reflexivity|].
    unfold alts_of, leaves, leaf in *. cbn [filter snd fst map]. 
    destruct (get_regexp k) as [|x r] eqn:E; rewrite IH; cbn [negb map fst snd]; rewrite <- app_assoc; simpl; rewrite ?E; reflexivity. }
  rewrite G. reflexivity.
Qed.
Lemma finish_nonempty : forall e (alt cc : list text) n, (alt <> [] \/ cc <> []) -> Forall (fun x : text => x <> []) alt -> Forall (fun x : text => x <> []) cc ->
  finish_regexp e alt cc n <> [].
Proof.
  intros e alt cc n H Ha Hc. unfold finish_regexp.
  set (alt' := match cc with [] => alt | [x] => alt ++ [x] | _ => alt ++ [s2t "[" ++ concat cc ++ s2t "]"] end).
  assert (A : alt' <> [] /\ Forall (fun x : text => x <> []) alt').
  { unfold alt'. destruct cc as [|x [|y cc]].
    - destruct H as [H|H]; [auto|congruence].
    - inversion Hc; subst. split; [destruct alt; discriminate|]. apply Forall_app; auto.
    - split; [destruct alt; discriminate|]. apply Forall_app. split; [exact Ha|]. constructor; [discriminate|constructor]. }
  destruct A as (A1 & A2). destruct alt' as [|x [|y l]]; [congruence| |].
  - apply Forall_inv in A2. destruct (e && _); [|exact A2]. destruct alt; [|discriminate]. destruct x; [congruence|discriminate].
  - destruct (e && _); [destruct alt|]; discriminate.
Qed.
Lemma quote_nonempty : forall c, quote_meta [c] <> [].
Proof. intros c. rewrite quote_one. destruct (is_special c); discriminate. Qed.
Lemma leaf_spec : forall k, live k -> leaf k = match t_kids k with [] => true | _ => false end.
Proof.
  intros k L. unfold leaf. destruct L as [n e kids H HF]. rewrite get_regexp_eq. simpl t_kids.
  destruct kids as [|[c k] kids].
  - destruct H as [->|H]; [reflexivity|congruence].
  - replace (e && Nat.eqb (List.length ((c, k) :: kids)) 0) with false by (destruct e; reflexivity).
    destruct (finish_regexp _ _ _ _) eqn:E; [|reflexivity]. exfalso. revert E. apply finish_nonempty.
    + unfold alts_of, leaves. cbn [filter snd]. destruct (leaf k); simpl; [right|left]; discriminate.
    + apply Forall_forall. intros x Hx. unfold alts_of in Hx. apply in_map_iff in Hx. destruct Hx as ([d k'] & <- & _).
      intros E. apply app_eq_nil in E. destruct E as (E & _). exact (quote_nonempty _ E).
    + apply Forall_forall. intros x Hx. apply in_map_iff in Hx. destruct Hx as (d & <- & _). apply quote_nonempty.
Qed.

(** One kid at most begins with a given character. *)
Lemma pick_kid : forall A (X : trie -> list A) c kids, StronglySorted (fun a b : N * trie => fst a < fst b) kids ->
  flat_map (fun ck => if c =? fst ck then X (snd ck) else []) kids =
  match kid_find c kids with Some k => X k | None => [] end.
Proof.
  intros A X c kids H. induction H as [|[d k] kids Hs IH Hd]; [reflexivity|]. simpl. rewrite (N.eqb_sym d c).
  destruct (N.eqb_spec c d) as [->|N].
  - rewrite IH. destruct (kid_find d kids) as [k'|] eqn:F; [|rewrite app_nil_r; reflexivity].
    apply kid_find_in in F. rewrite Forall_forall in Hd. specialize (Hd _ F). simpl in Hd. lia.
  - exact IH.
Qed.
Lemma filter_sorted : forall A (R : A -> A -> Prop) f l, StronglySorted R l -> StronglySorted R (filter f l).
Proof.
  intros A R f l H. induction H as [|a l Hl IH Ha]; simpl; [constructor|]. destruct (f a); [|exact IH].
  constructor; [exact IH|]. apply Forall_forall. intros x Hx. apply filter_In in Hx. rewrite Forall_forall in Ha. apply Ha. apply Hx.
Qed.
Lemma kid_find_filter : forall f c kids, StronglySorted (fun a b : N * trie => fst a < fst b) kids ->
  kid_find c (filter (fun ck => f (snd ck)) kids) =
  match kid_find c kids with Some k => if f k then Some k else None | None => None end.
Proof.
  intros f c kids H. induction H as [|[d k] kids Hs IH Hd]; [reflexivity|]. simpl.
  destruct (N.eqb_spec d c) as [->|N].
  - destruct (f k) eqn:F; [simpl; rewrite N.eqb_refl; reflexivity|]. rewrite IH.
    destruct (kid_find c kids) as [k'|] eqn:G; [|reflexivity]. apply kid_find_in in G.
    rewrite Forall_forall in Hd. specialize (Hd _ G). simpl in Hd. lia.
  - destruct (f k); [simpl; apply N.eqb_neq in N; rewrite N|]; exact IH.
Qed.

(** ** Main induction *)
(** [k] has, at every place, the only character of the trie that compares equal to the one of [rest], if there is one. *)
Definition agrees (u : uni) (ic : bool) (P : N -> Prop) (k rest : text) : Prop :=
  Forall2 (fun a d => forall c, P c -> ceq u ic c d = (a =? c)) k rest.
(** State after reading as many characters as [w] has. *)
Definition over (s : mst) (w : text) : mst := adv s (firstn (List.length w) (m_rest s)).
Lemma over_nil : forall s, over s [] = s.
Proof. intros s. apply adv_nil. Qed.
Lemma over_cons : forall s a c r w, m_rest s = c :: r -> over (m_step s c r) w = over s (a :: w).
Proof. intros s a c r w E. unfold over. rewrite E. cbn [List.length firstn]. rewrite <- (adv_cons s c r _ E). reflexivity. Qed.
Definition node_like (u : uni) (ic : bool) (P : N -> Prop) (t : trie) (l : list (re * bool)) : Prop :=
  parses (get_regexp t) l /\
  forall s k, agrees u ic P k (m_rest s) -> mt u ic (seq_re l) s = map (over s) (hits t k).
Lemma mt_one : forall u ic a q s, mt u ic (seq_re [(a, q)]) s = mt u ic a s.
Proof. intros. simpl. induction (mt u ic a s) as [|x l IH]; simpl; [reflexivity|]. rewrite IH. reflexivity. Qed.
Lemma mt_cons : forall u ic a q l s, mt u ic (seq_re ((a, q) :: l)) s = flat_map (mt u ic (seq_re l)) (mt u ic a s).
Proof. reflexivity. Qed.
Lemma map_flat : forall A B (f : A -> B) l, flat_map (fun x => [f x]) l = map f l.
Proof. induction l; simpl; congruence. Qed.

(** Words read through the children only. *)
Definition kid_hits (kids : list (N * trie)) (rest : text) : list text :=
  match rest with
  | c :: r => match kid_find c kids with Some k => map (cons c) (hits k r) | None => [] end
  | [] => []
  end.
Lemma hits_node : forall n e kids rest, hits (Node n e kids) rest = kid_hits kids rest ++ (if e then [[]] else []).
Proof. intros. destruct rest; reflexivity. Qed.
Lemma leaf_hits : forall k r, live k -> leaf k = true -> hits k r = [[]].
Proof.
  intros k r L H. rewrite leaf_spec in H by exact L. destruct L as [n e kids He HF]. simpl in H.
  destruct kids; [|discriminate]. destruct He as [->|He]; [|congruence]. rewrite hits_node. destruct r; reflexivity.
Qed.

Lemma leaves_match : forall u ic (P : N -> Prop) kids s k, StronglySorted (fun a b : N * trie => fst a < fst b) kids ->
  Forall (fun ck => live (snd ck)) kids -> Forall (fun ck => P (fst ck)) kids ->
  agrees u ic P k (m_rest s) ->
  mt u ic (RSet false (map IChr (leaves kids))) s =
  map (over s) (kid_hits (filter (fun ck => leaf (snd ck)) kids) k).
Proof.
  intros u ic P kids s k0 Hs HL HP HX. cbn [mt]. unfold one_char, kid_hits.
  destruct (m_rest s) as [|c r] eqn:E; inversion HX as [|a ? k1 ? Ha HX' E1]; subst k0; [reflexivity|].
  assert (HE : existsb (item_has u ic c) (map IChr (leaves kids)) =
    match kid_find a (filter (fun ck => leaf (snd ck)) kids) with Some _ => true | None => false end).
  { unfold leaves. assert (HP' : Forall (fun ck : N * trie => P (fst ck)) (filter (fun ck => leaf (snd ck)) kids)).
    { apply Forall_forall. intros x Hx. apply filter_In in Hx. rewrite Forall_forall in HP. apply HP. apply Hx. }
    clear HL HP Hs. induction HP' as [|[d k] l Hd Hl IH]; [reflexivity|]. simpl.
    rewrite (Ha d Hd). rewrite (N.eqb_sym d a).
    destruct (a =? d); [reflexivity|]. exact IH. }
  cbn [xorb]. replace (xorb false (existsb (item_has u ic c) (map IChr (leaves kids)))) with
    (existsb (item_has u ic c) (map IChr (leaves kids))) by (destruct (existsb _ _); reflexivity).
  rewrite HE. destruct (kid_find a (filter _ kids)) as [k|] eqn:F; [|reflexivity].
  apply kid_find_in in F. apply filter_In in F. destruct F as (F1 & F2). simpl in F2.
  rewrite Forall_forall in HL. rewrite (leaf_hits k k1 (HL _ F1) F2). cbn [map].
  rewrite <- (over_cons s a c r [] E), over_nil. reflexivity.
Qed.
Lemma char_match : forall u ic (P : N -> Prop) c s k, P c -> agrees u ic P k (m_rest s) ->
  mt u ic (RChr c) s = match k, m_rest s with a :: _, d :: r => if a =? c then [m_step s d r] else [] | _, _ => [] end.
Proof.
  intros u ic P c s k Hc HX. unfold RChr. cbn [mt]. unfold one_char. destruct (m_rest s) as [|d r] eqn:E; inversion HX as [|a ? k1 ? Ha HX' E1]; subst k; [reflexivity|].
  cbn [existsb item_has]. rewrite (Ha c Hc). rewrite orb_false_r. destruct (a =? c); reflexivity.
Qed.
Lemma flat_map_nil : forall A B (l : list A), flat_map (fun _ => @nil B) l = [].
Proof. induction l; simpl; auto. Qed.

Lemma alts_match : forall u ic (P : N -> Prop) kids (ls : list (list (re * bool))) s k,
  Forall (fun ck => P (fst ck)) kids -> StronglySorted (fun a b : N * trie => fst a < fst b) kids ->
  Forall2 (fun ck l => exists l', l = (RChr (fst ck), true) :: l' /\ node_like u ic P (snd ck) l') kids ls ->
  agrees u ic P k (m_rest s) ->
  flat_map (fun r => mt u ic r s) (map seq_re ls) = map (over s) (kid_hits kids k).
Proof.
  intros u ic P kids ls s k HP Hs H HX. unfold kid_hits. destruct k as [|a k].
  - simpl. clear Hs. induction H as [|ck l kids ls (l' & -> & _) H IH]; [reflexivity|]. inversion HP; subst. cbn [map flat_map].
    rewrite IH by assumption. rewrite mt_cons, (char_match u ic P _ _ [] ltac:(eassumption) HX). reflexivity.
  - inversion HX as [|? c ? r Ha HX' E1 E]. symmetry in E.
    transitivity (map (over s) (flat_map (fun ck => if a =? fst ck then map (cons a) (hits (snd ck) k) else []) kids));
      [|f_equal; apply (pick_kid _ (fun t => map (cons a) (hits t k))); exact Hs].
    clear Hs. induction H as [|ck l9 kids ls (l' & -> & Hp & Hm) H IH]; [reflexivity|]. inversion HP; subst. cbn [map flat_map].
    rewrite IH by assumption. rewrite map_app. f_equal.
    rewrite mt_cons, (char_match u ic P _ _ (a :: k) ltac:(eassumption) HX). rewrite E.
    destruct (a =? fst ck); [|reflexivity]. cbn [flat_map]. rewrite app_nil_r, (Hm _ k) by (simpl; exact HX').
    rewrite map_map. apply map_ext. intros w. apply over_cons. exact E.
Qed.
Lemma kid_hits_split : forall (c : N) (k : list (N * trie)) f s rest, c = c -> StronglySorted (fun a b : N * trie => fst a < fst b) k ->
  map (over s) (kid_hits (filter (fun ck => negb (f (snd ck))) k) rest) ++ map (over s) (kid_hits (filter (fun ck => f (snd ck)) k) rest) =
  map (over s) (kid_hits k rest).
Proof.
  intros _c k f s rest _ Hs. unfold kid_hits. destruct rest as [|c r]; [reflexivity|].
  rewrite (kid_find_filter (fun t => negb (f t)) c k Hs), (kid_find_filter f c k Hs).
  destruct (kid_find c k) as [t|]; [|reflexivity]. destruct (f t); simpl; [reflexivity|rewrite app_nil_r; reflexivity].
Qed.
Lemma parses_quote_app : forall c t l, plain_char c -> parses t l -> parses (quote_meta [c] ++ t) ((RChr c, true) :: l).
Proof. intros c t l Hc Ht. apply (parses_app _ _ [(RChr c, true)] l); [apply parses_char; exact Hc|exact Ht]. Qed.

Lemma trie_regexp : forall u ic (P : N -> Prop) t, (forall c, P c -> plain_char c) -> wf t -> live t -> chars P t ->
  (t_fin t = true -> t_kids t <> []) ->
  exists l, node_like u ic P t l.
Proof.
  intros u ic P t HP. induction t as [n e kids IHk] using trie_ind'. intros W L C Hroot.
  inversion W as [? ? ? Hs Hw]; subst. inversion L as [? ? ? He Hl]; subst. inversion C as [? ? ? Hc]; subst. simpl in Hroot.
  assert (Hkids : kids <> []). { destruct He as [->|He]; auto. }
  assert (HPk : Forall (fun ck => P (fst ck)) kids). { eapply Forall_impl; [|exact Hc]. simpl. tauto. }
  (* atoms of the non-leaf kids *)
  assert (NL : exists ls, Forall2 (fun ck l => exists l', l = (RChr (fst ck), true) :: l' /\ node_like u ic P (snd ck) l')
     (filter (fun ck => negb (leaf (snd ck))) kids) ls).
  { clear Hs Hkids Hroot He W L C. induction kids as [|[c k] kids IH]; [exists []; constructor|].
    inversion IHk; subst. inversion Hw; subst. inversion Hl; subst. inversion Hc; subst. inversion HPk; subst.
    destruct IH as (ls & Hls); try assumption.
    cbn [filter snd]. destruct (leaf k) eqn:F; cbn [negb]; [exists ls; exact Hls|].
    simpl in *. match goal with H : wf k -> _ |- _ => destruct H as (l & Hln) end; try tauto.
    { rewrite leaf_spec in F by assumption. destruct (t_kids k); [discriminate|discriminate]. }
    exists (((RChr c, true) :: l) :: ls). constructor; [|exact Hls]. exists l. split; [reflexivity|exact Hln]. }
  destruct NL as (ls & HNL).
  set (A := alts_of kids). set (Lv := leaves kids).
  assert (HPf : forall f, Forall (fun ck => P (fst ck)) (filter f kids)).
  { intros f. apply Forall_forall. intros x Hx. apply filter_In in Hx. rewrite Forall_forall in HPk. apply HPk. apply Hx. }
  assert (Hpl : Forall plain_char Lv).
  { unfold Lv, leaves. apply Forall_forall. intros c Hin. apply in_map_iff in Hin. destruct Hin as (ck & <- & Hin).
    apply HP. specialize (HPf (fun ck => leaf (snd ck))). rewrite Forall_forall in HPf. apply HPf. exact Hin. }
  assert (HA : Forall2 parses A ls).
  { unfold A, alts_of. specialize (HPf (fun ck => negb (leaf (snd ck)))). clear - HNL HPf HP. induction HNL as [|ck l kk ll (l' & -> & Hn & _) H IH].
    - constructor.
    - inversion HPf; subst. constructor; [|apply IH; assumption]. apply parses_quote_app; auto. }
  assert (SA : forall s k, agrees u ic P k (m_rest s) -> flat_map (fun r => mt u ic r s) (map seq_re ls) =
     map (over s) (kid_hits (filter (fun ck => negb (leaf (snd ck))) kids) k)).
  { intros s k HX. apply (alts_match u ic P); try assumption. apply (HPf (fun ck => negb (leaf (snd ck)))). apply filter_sorted; exact Hs. }
  assert (SL : forall s k, agrees u ic P k (m_rest s) -> mt u ic (RSet false (map IChr Lv)) s =
     map (over s) (kid_hits (filter (fun ck => leaf (snd ck)) kids) k)).
  { intros s k HX. apply (leaves_match u ic P); assumption. }
  (* the alternatives after the single characters are added *)
  set (cc := map (fun c => quote_meta [c]) Lv).
  set (alt' := match cc with [] => A | [x] => A ++ [x] | _ => A ++ [s2t "[" ++ concat cc ++ s2t "]"] end).
  set (ls' := match Lv with [] => ls | _ => ls ++ [[(RSet false (map IChr Lv), true)]] end).
  assert (HA' : Forall2 parses alt' ls').
  { unfold alt', ls', cc. destruct Lv as [|c [|c2 Lv]]; cbn [map].
    - exact HA.
    - apply Forall2_app; [exact HA|]. constructor; [|constructor]. inversion Hpl; subst. apply parses_char; assumption.
    - apply Forall2_app; [exact HA|]. constructor; [|constructor].
      apply (parses_set (c :: c2 :: Lv)); [exact Hpl|discriminate]. }
  assert (SA' : forall s k, agrees u ic P k (m_rest s) -> flat_map (fun r => mt u ic r s) (map seq_re ls') =
     map (over s) (kid_hits kids k)).
  { intros s k HX. rewrite <- (kid_hits_split 0 kids leaf s k eq_refl Hs). rewrite <- (SA s k HX), <- (SL s k HX).
    unfold ls'. destruct Lv as [|c Lv'] eqn:EL.
    - simpl. unfold one_char. destruct (m_rest s); simpl; rewrite app_nil_r; reflexivity.
    - rewrite map_app, flat_map_app. f_equal. cbn [map flat_map]. rewrite app_nil_r. apply mt_one. }
  assert (Nalt : alt' <> []).
  { intros E. assert (Lv = [] /\ A = []) as (E1 & E2).
    { unfold alt', cc in E. destruct Lv as [|c [|c2 Lv']]; cbn [map] in E; [auto| |]; destruct A; discriminate. }
    unfold Lv, leaves in E1. unfold A, alts_of in E2. apply map_eq_nil in E1. apply map_eq_nil in E2.
    destruct kids as [|[c k] kids']; [congruence|]. simpl in E1, E2. destruct (leaf k); discriminate. }
  assert (Nls : ls' <> []). { intros E. rewrite E in HA'. inversion HA'; subst. congruence. }
  (* the result without the optional part *)
  set (result := match alt' with [x] => x | _ => s2t "(?:" ++ join (s2t "|") alt' ++ s2t ")" end).
  assert (HR : exists lr, parses result lr /\ (forall s k, agrees u ic P k (m_rest s) -> mt u ic (seq_re lr) s = map (over s) (kid_hits kids k))
     /\ (A = [] -> exists a, lr = [(a, true)])).
  { unfold result. destruct alt' as [|x [|y alt'']] eqn:EA; [congruence| |].
    - inversion HA' as [|? l1 ? ls1 Hx Hnil Ex El]. inversion Hnil; subst ls1. exists l1. split; [exact Hx|]. split.
      + intros s k HX. rewrite <- (SA' s k HX). rewrite <- El. cbn [map flat_map]. rewrite app_nil_r. reflexivity.
      + intros EA0. assert (ls = []). { rewrite EA0 in HA. inversion HA; reflexivity. } subst ls.
        unfold ls' in El. destruct Lv; [discriminate|]. simpl in El. injection El as El. rewrite El. eexists; reflexivity.
    - exists [(alt_of (map seq_re ls'), true)]. split; [apply parses_group; [exact HA'|discriminate]|]. split.
      + intros s k HX. rewrite mt_one, mt_alt, (SA' s k HX) by (destruct ls'; [congruence|discriminate]). reflexivity.
      + intros _. eexists; reflexivity. }
  destruct HR as (lr & HR1 & HR2 & HR3).
  assert (EQ : get_regexp (Node n e kids) = if e then (match A with [] => result ++ s2t "?" | _ => s2t "(?:" ++ result ++ s2t ")?" end) else result).
  { rewrite get_regexp_eq. replace (Nat.eqb (List.length kids) 0) with false by (destruct kids; [congruence|reflexivity]).
    rewrite andb_false_r. unfold finish_regexp. fold A. fold Lv. fold cc. fold alt'. fold result.
    replace (negb (Nat.eqb (List.length kids) 0)) with true by (destruct kids; [congruence|reflexivity]).
    rewrite andb_true_r. destruct e; [|reflexivity]. destruct A; reflexivity. }
  destruct e.
  - destruct A as [|a0 A'] eqn:EA.
    + destruct (HR3 eq_refl) as (a & ->). exists [(ROpt a, false)]. split.
      * rewrite EQ. apply parses_opt. exact HR1.
      * intros s k HX. rewrite mt_one. cbn [mt]. rewrite <- (mt_one u ic a true), (HR2 s k HX). rewrite hits_node, map_app. cbn [map].
        rewrite over_nil. reflexivity.
    + exists [(ROpt (seq_re lr), false)]. split.
      * rewrite EQ. replace (s2t "(?:" ++ result ++ s2t ")?") with ((s2t "(?:" ++ join (s2t "|") [result] ++ s2t ")") ++ s2t "?")
          by (simpl join; rewrite <- !app_assoc; reflexivity).
        apply parses_opt. apply (parses_group [result] [lr]); [constructor; [exact HR1|constructor]|discriminate].
      * intros s k HX. rewrite mt_one. cbn [mt]. rewrite (HR2 s k HX). rewrite hits_node, map_app. cbn [map]. rewrite over_nil. reflexivity.
  - exists lr. split; [rewrite EQ; exact HR1|]. intros s k HX. rewrite (HR2 s k HX). rewrite hits_node, app_nil_r. reflexivity.
Qed.

(** With exact comparison. *)
Definition node_ok (u : uni) (ic : bool) (P : N -> Prop) (t : trie) (l : list (re * bool)) : Prop :=
  parses (get_regexp t) l /\
  forall s, exact_on u ic P (m_rest s) -> mt u ic (seq_re l) s = map (adv s) (hits t (m_rest s)).
Lemma exact_agrees : forall u ic P rest, exact_on u ic P rest -> agrees u ic P rest rest.
Proof.
  intros u ic P rest H. assert (G : forall l, (forall d, In d l -> In d rest) -> agrees u ic P l l).
  { induction l as [|d l IH]; intros K; constructor; [|apply IH; intros e He; apply K; right; exact He]. intros c Hc. apply (ceq_exact u ic P rest c d H Hc). apply K. left. reflexivity. }
  apply G. auto.
Qed.
Lemma over_adv : forall s w, prefix_of w (m_rest s) -> over s w = adv s w.
Proof.
  intros s w (r & E). unfold over. rewrite E. f_equal. rewrite firstn_app, Nat.sub_diag, firstn_all. cbn [firstn]. apply app_nil_r.
Qed.
Lemma like_ok : forall u ic P t l, node_like u ic P t l -> node_ok u ic P t l.
Proof.
  intros u ic P t l (H & M). split; [exact H|]. intros s HX. rewrite (M s (m_rest s) (exact_agrees _ _ _ _ HX)). apply map_ext_in. intros w Hw.
  apply hits_in in Hw. apply over_adv, Hw.
Qed.
