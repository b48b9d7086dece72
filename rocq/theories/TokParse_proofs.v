(** Shape of the patterns built from lexicon words, whatever the words contain. *)
From Coq Require Import String List NArith Bool Lia Arith.
From Verif Require Import Base_model Uni_model Regex_model Trie_model Trie_spec Trie_proofs TrieRegex_proofs.
Import ListNotations.
Local Open Scope N_scope.

(** Characters that may stand in the bounds of a repeat. *)
Definition bchar (c : N) : bool := a_digit c || (c =? 44) || (c =? 125).
Definition bpre (k : nat) (t : text) : Prop := exists a b, t = a ++ b /\ List.length a = k /\ Forall (fun c => bchar c = true) a.
Lemma bpre0 : forall t, bpre 0 t.
Proof. intros t. exists [], t. repeat split; constructor. Qed.
Lemma bpre_S : forall k c t, bpre (S k) (c :: t) -> bchar c = true /\ bpre k t.
Proof.
  intros k c t (a & b & E & L & F). destruct a as [|d a]; [discriminate|]. injection E as -> ->. inversion F; subst.
  split; [assumption|]. exists a, b. repeat split; [|assumption]. simpl in L. lia.
Qed.
Lemma bpre_head : forall k c t, bchar c = false -> bpre k (c :: t) -> k = O.
Proof. intros [|k] c t H B; [reflexivity|]. apply bpre_S in B. destruct B; congruence. Qed.
Lemma bounds_pre : forall t n m k, bounds t = Some (n, m, k) -> bpre k t.
Proof.
  intros t n m k H. unfold bounds in H. destruct t as [|d [|c t]]; try discriminate.
  destruct (a_digit d) eqn:D; [|discriminate]. cbn [negb] in H. destruct (N.eqb_spec c 125) as [->|N].
  - injection H as <- <- <-. exists [d; 125], t. split; [reflexivity|]. split; [reflexivity|].
    repeat constructor. unfold bchar. rewrite D. reflexivity.
  - destruct t as [|e [|f t]]; try discriminate.
    destruct ((c =? 44) && a_digit e && (f =? 125) && (d <=? e)) eqn:X; [|discriminate]. injection H as <- <- <-.
    rewrite !andb_true_iff in X. destruct X as (((X1 & X2) & X3) & _). apply N.eqb_eq in X1, X3. subst c f.
    exists [d; 44; e; 125], t. split; [reflexivity|]. split; [reflexivity|].
    repeat constructor; unfold bchar; rewrite ?D, ?X2; reflexivity.
Qed.

(** No capturing groups inside. *)
Fixpoint no_cap (r : re) : bool :=
  match r with
  | RCap _ _ => false
  | RCat a b | RAlt a b => no_cap a && no_cap b
  | ROpt a | RStar a | RPlus a => no_cap a
  | _ => true
  end.
Definition nc (cur : list (re * bool)) : Prop := Forall (fun a => no_cap (fst a) = true) cur.
Lemma nc_cat : forall cur, nc cur -> no_cap (cat_of cur) = true.
Proof.
  intros cur H. unfold cat_of. assert (G : Forall (fun a => no_cap (fst a) = true) (rev cur)) by (apply Forall_rev; exact H).
  induction G as [|a l Ha Hl IH]; [reflexivity|]. simpl. rewrite Ha. exact IH.
Qed.
Lemma nc_alt : forall l, Forall (fun r => no_cap r = true) l -> no_cap (alt_of l) = true.
Proof.
  intros l H. induction H as [|a l Ha Hl IH]; [reflexivity|]. destruct l as [|b l]; [exact Ha|].
  change (alt_of (a :: b :: l)) with (RAlt a (alt_of (b :: l))). cbn [no_cap]. rewrite Ha. exact IH.
Qed.
Lemma nc_rep : forall n k a, no_cap a = true -> no_cap (rep n k a) = true.
Proof.
  intros n k a H. assert (G : forall k, no_cap (rep_opt k a) = true) by (induction k0 as [|k0 IH]; [reflexivity|simpl; rewrite H; exact IH]).
  induction n as [|n IH]; simpl; [apply G|rewrite H; exact IH].
Qed.

(** A piece of pattern that fails to parse or only changes the current sequence. *)
Definition keeps (t : text) : Prop :=
  forall k rest cur alts st n, nc cur -> bpre k (t ++ rest) ->
    parse_go k MNormal (t ++ rest) (mkP cur alts st n) = None \/
    exists k' cur', nc cur' /\ bpre k' rest /\
      parse_go k MNormal (t ++ rest) (mkP cur alts st n) = parse_go k' MNormal rest (mkP cur' alts st n).
Lemma keeps_nil : keeps [].
Proof. intros k rest cur alts st n C B. right. exists k, cur. split; [exact C|]. split; [exact B|reflexivity]. Qed.
Lemma keeps_app : forall a b, keeps a -> keeps b -> keeps (a ++ b).
Proof.
  intros a b Ha Hb k rest cur alts st n C B. rewrite <- app_assoc in *. destruct (Ha k _ cur alts st n C B) as [->|(k1 & cur1 & C1 & B1 & ->)]; [left; reflexivity|].
  destruct (Hb k1 _ cur1 alts st n C1 B1) as [->|(k2 & cur2 & C2 & B2 & ->)]; [left; reflexivity|]. right. exists k2, cur2. auto.
Qed.
Lemma keeps_push : forall t rest cur alts st n, nc cur ->
  (exists a q, no_cap a = true /\ parse_go 0 MNormal (t ++ rest) (mkP cur alts st n) = parse_go 0 MNormal rest (mkP ((a, q) :: cur) alts st n)) ->
  exists k' cur', nc cur' /\ bpre k' rest /\ parse_go 0 MNormal (t ++ rest) (mkP cur alts st n) = parse_go k' MNormal rest (mkP cur' alts st n).
Proof. intros t rest cur alts st n C (a & q & Ca & H). exists 0%nat, ((a, q) :: cur). split; [constructor; assumption|]. split; [apply bpre0|exact H]. Qed.
Lemma repeat_cases : forall cur alts st n f, nc cur -> (forall a, no_cap a = true -> no_cap (f a) = true) ->
  p_repeat (mkP cur alts st n) f = None \/ exists cur', nc cur' /\ p_repeat (mkP cur alts st n) f = Some (mkP cur' alts st n).
Proof.
  intros cur alts st n f C F. unfold p_repeat. cbn [p_cur p_alts p_stack p_n]. destruct cur as [|(a & []) cur]; auto.
  right. inversion C; subst. eexists; split; [|reflexivity]. constructor; [apply F; assumption|assumption].
Qed.
Lemma keeps_char : forall c, keeps (quote_meta [c]).
Proof.
  intros c k rest cur alts st n C B. rewrite quote_one in *. destruct (is_special c) eqn:E.
  - cbn [app] in B. apply bpre_head in B; [|reflexivity]. subst k. right. apply (keeps_push [92; c]); [exact C|].
    exists (RChr c), true. split; [reflexivity|]. assert (H := special_in c E). repeat (destruct H as [->|H]; [reflexivity|]). subst c. reflexivity.
  - destruct k as [|k].
    2:{ cbn [app] in B. apply bpre_S in B. right. exists k, cur. split; [exact C|]. split; [apply B|reflexivity]. }
    apply not_special in E. destruct E as (E1 & E2 & E3 & E4 & E5 & E6 & E7 & E8 & E9 & E10 & E11 & E12 & E13).
    destruct (N.eqb_spec c 94) as [->|N1]; [right; apply (keeps_push [94]); [exact C|]; exists RBol, false; split; reflexivity|].
    destruct (N.eqb_spec c 125) as [->|N2]; [left; reflexivity|].
    destruct (N.eqb_spec c 123) as [->|N3].
    + change (parse_go 0 MNormal ([123] ++ rest) (mkP cur alts st n)) with
        (match bounds rest with
         | Some (n', m, k) => match p_repeat (mkP cur alts st n) (rep n' (m - n')) with Some s' => parse_go k MNormal rest s' | None => None end
         | None => None end).
      destruct (bounds rest) as [[[a b] k]|] eqn:Bd; [|left; reflexivity].
      destruct (repeat_cases cur alts st n (rep a (b - a)) C) as [->|(cur' & C' & ->)]; [intros; apply nc_rep; assumption|left; reflexivity|].
      right. exists k, cur'. split; [exact C'|]. split; [eapply bounds_pre; exact Bd|reflexivity].
    + right. apply (keeps_push [c]); [exact C|]. exists (RChr c), true. split; [reflexivity|]. cbn [app parse_go].
      repeat match goal with |- context [c =? ?k] => replace (c =? k) with false by (symmetry; apply N.eqb_neq; assumption) end.
      reflexivity.
Qed.
Lemma keeps_opt : keeps (s2t "?").
Proof.
  intros k rest cur alts st n C B. apply (bpre_head k 63 rest) in B; [|reflexivity]. subst k.
  change (parse_go 0 MNormal (s2t "?" ++ rest) (mkP cur alts st n)) with
    (match p_repeat (mkP cur alts st n) ROpt with Some s' => parse_go 0 MNormal rest s' | None => None end).
  destruct (repeat_cases cur alts st n ROpt C) as [->|(cur' & C' & ->)]; [intros a H; exact H|left; reflexivity|].
  right. exists 0%nat, cur'. split; [exact C'|]. split; [apply bpre0|reflexivity].
Qed.
Lemma keeps_within : keeps (s2t "\B").
Proof.
  intros k rest cur alts st n C B. apply (bpre_head k 92) in B; [|reflexivity]. subst k.
  right. apply keeps_push; [exact C|]. exists RWithin, false. split; reflexivity.
Qed.
Lemma set_any : forall cs neg l rest s,
  parse_go 0 (MSet neg l) (concat (map (fun c => quote_meta [c]) cs) ++ rest) s =
  parse_go 0 (MSet neg (l ++ map IChr cs)) rest s.
Proof.
  induction cs as [|c cs IH]; intros neg l rest s; [simpl; rewrite app_nil_r; reflexivity|].
  cbn [map concat]. rewrite <- app_assoc. rewrite quote_one.
  replace (l ++ IChr c :: map IChr cs) with ((l ++ [IChr c]) ++ map IChr cs) by (rewrite <- app_assoc; reflexivity).
  rewrite <- IH. destruct (is_special c) eqn:E.
  - assert (H := special_in c E). repeat (destruct H as [->|H]; [reflexivity|]). subst c. reflexivity.
  - apply not_special in E. destruct E as (E1 & E2 & E3 & E4 & E5 & E6 & E7 & E8 & E9 & E10 & E11 & E12 & E13).
    cbn [app parse_go].
    repeat match goal with |- context [c =? ?k] => replace (c =? k) with false by (symmetry; apply N.eqb_neq; assumption) end.
    reflexivity.
Qed.
Lemma set_end : forall neg l rest s, parse_go 0 (MSet neg l) (s2t "]" ++ rest) s = None \/
  parse_go 0 (MSet neg l) (s2t "]" ++ rest) s = parse_go 0 MNormal rest (p_push s (RSet neg l) true).
Proof. intros neg l rest s. destruct l as [|i l]; [left|right]; reflexivity. Qed.
Lemma keeps_set : forall cs, keeps (s2t "[" ++ concat (map (fun c => quote_meta [c]) cs) ++ s2t "]").
Proof.
  intros cs k rest cur alts st n C B. apply (bpre_head k 91) in B; [|reflexivity]. subst k.
  rewrite <- !app_assoc.
  assert (D : forall t, parse_go 0 MNormal (s2t "[" ++ t) (mkP cur alts st n) =
     match t with d :: t' => if d =? 94 then parse_go 1 (MSet true []) t (mkP cur alts st n) else parse_go 0 (MSet false []) t (mkP cur alts st n) | [] => None end)
    by (intros t; reflexivity).
  rewrite D.
  assert (F : forall neg l, parse_go 0 (MSet neg l) (s2t "]" ++ rest) (mkP cur alts st n) = None \/
     exists k' cur', nc cur' /\ bpre k' rest /\ parse_go 0 (MSet neg l) (s2t "]" ++ rest) (mkP cur alts st n) = parse_go k' MNormal rest (mkP cur' alts st n)).
  { intros neg l. destruct (set_end neg l rest (mkP cur alts st n)) as [->| ->]; [left; reflexivity|].
    right. exists 0%nat, ((RSet neg l, true) :: cur). split; [constructor; [reflexivity|exact C]|]. split; [apply bpre0|reflexivity]. }
  destruct cs as [|c cs]; [left; reflexivity|].
  destruct (N.eqb_spec c 94) as [->|N].
  - change (concat (map (fun c => quote_meta [c]) (94 :: cs)) ++ s2t "]" ++ rest) with (94 :: concat (map (fun c => quote_meta [c]) cs) ++ s2t "]" ++ rest).
    change (94 =? 94) with true. cbv iota.
    change (parse_go 1 (MSet true []) (94 :: ?t) ?s) with (parse_go 0 (MSet true []) t s). rewrite set_any. apply F.
  - assert (Q : exists d r, concat (map (fun c => quote_meta [c]) (c :: cs)) = d :: r /\ d <> 94).
    { cbn [map concat]. rewrite quote_one. destruct (is_special c); eexists; eexists; split; try reflexivity; [discriminate|exact N]. }
    destruct Q as (d & r & Q & Nd).
    assert (G : match concat (map (fun c => quote_meta [c]) (c :: cs)) ++ s2t "]" ++ rest with
      | [] => None
      | d :: _ => if d =? 94 then parse_go 1 (MSet true []) (concat (map (fun c => quote_meta [c]) (c :: cs)) ++ s2t "]" ++ rest) (mkP cur alts st n)
                  else parse_go 0 (MSet false []) (concat (map (fun c => quote_meta [c]) (c :: cs)) ++ s2t "]" ++ rest) (mkP cur alts st n) end
      = parse_go 0 (MSet false []) (concat (map (fun c => quote_meta [c]) (c :: cs)) ++ s2t "]" ++ rest) (mkP cur alts st n)).
    { rewrite Q. cbn [app]. replace (d =? 94) with false by (symmetry; apply N.eqb_neq; exact Nd). reflexivity. }
    rewrite G, set_any. apply F.
Qed.
(** Groups. *)
Lemma body_keeps : forall ts, Forall keeps ts -> forall k rest cur alts st n, nc cur -> Forall (fun r => no_cap r = true) alts ->
  bpre k (join (s2t "|") ts ++ s2t ")" ++ rest) ->
  parse_go k MNormal (join (s2t "|") ts ++ s2t ")" ++ rest) (mkP cur alts st n) = None \/
  exists cur' alts', nc cur' /\ Forall (fun r => no_cap r = true) alts' /\
    parse_go k MNormal (join (s2t "|") ts ++ s2t ")" ++ rest) (mkP cur alts st n) =
    parse_go 0 MNormal (s2t ")" ++ rest) (mkP cur' alts' st n).
Proof.
  intros ts H. induction H as [|t ts Ht Hts IH]; intros k rest cur alts st n C D B.
  - apply (bpre_head k 41) in B; [|reflexivity]. subst k. right. exists cur, alts. auto.
  - destruct ts as [|t2 ts].
    + cbn [join] in *. destruct (Ht k _ cur alts st n C B) as [->|(k' & cur' & C' & B' & ->)]; [left; reflexivity|].
      apply (bpre_head k' 41) in B'; [|reflexivity]. subst k'. right. exists cur', alts. auto.
    + change (join (s2t "|") (t :: t2 :: ts)) with (t ++ s2t "|" ++ join (s2t "|") (t2 :: ts)) in *. rewrite <- !app_assoc in *.
      destruct (Ht k _ cur alts st n C B) as [->|(k' & cur' & C' & B' & ->)]; [left; reflexivity|].
      apply (bpre_head k' 124) in B'; [|reflexivity]. subst k'.
      change (parse_go 0 MNormal (s2t "|" ++ ?x) ?s) with (parse_go 0 MNormal x (p_bar s)). unfold p_bar. cbn [p_cur p_alts p_stack p_n].
      apply IH; [constructor| |apply bpre0]. constructor; [apply nc_cat; exact C'|exact D].
Qed.
Lemma keeps_group : forall ts, Forall keeps ts -> keeps (s2t "(?:" ++ join (s2t "|") ts ++ s2t ")").
Proof.
  intros ts H k rest cur alts st n C B. apply (bpre_head k 40) in B; [|reflexivity]. subst k.
  replace ((s2t "(?:" ++ join (s2t "|") ts ++ s2t ")") ++ rest) with (s2t "(?:" ++ (join (s2t "|") ts ++ s2t ")" ++ rest))
    by (rewrite <- !app_assoc; reflexivity).
  change (parse_go 0 MNormal (s2t "(?:" ++ ?x) (mkP cur alts st n)) with (parse_go 0 MNormal x (mkP [] [] ((GPlain, cur, alts) :: st) n)).
  destruct (body_keeps ts H 0 rest [] [] ((GPlain, cur, alts) :: st) n ltac:(constructor) ltac:(constructor) (bpre0 _)) as [->|(cur' & alts' & C' & D' & ->)]; [left; reflexivity|].
  right. exists 0%nat, ((p_finish (mkP cur' alts' ((GPlain, cur, alts) :: st) n), true) :: cur). split; [|split; [apply bpre0|reflexivity]].
  constructor; [|exact C]. cbn [fst]. unfold p_finish. cbn [p_cur p_alts]. apply nc_alt. apply Forall_rev. constructor; [apply nc_cat; exact C'|exact D'].
Qed.
Lemma keeps_finish : forall e alt cs n, Forall keeps alt -> keeps (finish_regexp e alt (map (fun c => quote_meta [c]) cs) n).
Proof.
  intros e alt cs n H. unfold finish_regexp.
  set (alt' := match map (fun c => quote_meta [c]) cs with [] => alt | [x] => alt ++ [x] | _ => alt ++ [s2t "[" ++ concat (map (fun c => quote_meta [c]) cs) ++ s2t "]"] end).
  assert (A : Forall keeps alt').
  { unfold alt'. destruct cs as [|c [|c2 cs]]; cbn [map]; [exact H| |]; apply Forall_app; (split; [exact H|]); (apply Forall_cons; [|apply Forall_nil]).
    - apply keeps_char.
    - apply (keeps_set (c :: c2 :: cs)). }
  assert (R : keeps (match alt' with [x] => x | _ => s2t "(?:" ++ join (s2t "|") alt' ++ s2t ")" end)).
  { destruct alt' as [|x [|y l]]; [apply keeps_group; exact A|inversion A; assumption|apply keeps_group; exact A]. }
  destruct (e && _); [|exact R]. destruct alt; [apply keeps_app; [exact R|apply keeps_opt]|].
  rewrite 2 app_assoc. change (s2t ")?") with (s2t ")" ++ s2t "?"). 
  rewrite <- !app_assoc. rewrite (app_assoc _ (s2t ")") (s2t "?")), (app_assoc (s2t "(?:")).
  apply keeps_app; [|apply keeps_opt].
  apply (keeps_group [match alt' with [x] => x | _ => s2t "(?:" ++ join (s2t "|") alt' ++ s2t ")" end]). constructor; [exact R|constructor].
Qed.
Lemma keeps_trie : forall t, keeps (get_regexp t).
Proof.
  induction t as [n e kids IH] using trie_ind'. rewrite get_regexp_eq. destruct (e && _); [apply keeps_nil|].
  apply keeps_finish. unfold alts_of. apply Forall_forall. intros x Hx. apply in_map_iff in Hx. destruct Hx as (ck & <- & Hx).
  apply filter_In in Hx. rewrite Forall_forall in IH. apply keeps_app; [apply keeps_char|apply IH; apply Hx].
Qed.
(** The pattern of a trie does not begin with a question mark. *)
Definition no_mark (t : text) : Prop := match t with c :: _ => c <> 63 | [] => True end.
Lemma mark_app : forall a b, no_mark a -> a <> [] -> no_mark (a ++ b).
Proof. intros [|c a] b H N; [congruence|exact H]. Qed.
Lemma mark_quote : forall c, no_mark (quote_meta [c]).
Proof.
  intros c. rewrite quote_one. destruct (is_special c) eqn:E; [discriminate|]. apply not_special in E. simpl. tauto.
Qed.
Lemma finish_mark : forall e alt cs n, Forall (fun t : text => no_mark t /\ t <> []) alt -> no_mark (finish_regexp e alt (map (fun c => quote_meta [c]) cs) n).
Proof.
  intros e alt cs n H. unfold finish_regexp.
  set (alt' := match map (fun c => quote_meta [c]) cs with [] => alt | [x] => alt ++ [x] | _ => alt ++ [s2t "[" ++ concat (map (fun c => quote_meta [c]) cs) ++ s2t "]"] end).
  assert (A : Forall (fun t : text => no_mark t /\ t <> []) alt').
  { unfold alt'. destruct cs as [|c [|c2 cs]]; cbn [map]; [exact H| |]; apply Forall_app; (split; [exact H|]); (apply Forall_cons; [|apply Forall_nil]).
    - split; [apply mark_quote|apply quote_nonempty].
    - split; discriminate. }
  destruct alt' as [|x [|y l]].
  - destruct (e && _); [destruct alt|]; discriminate.
  - apply Forall_inv in A. destruct A as (A1 & A2). destruct (e && _); [|exact A1]. destruct alt; [apply mark_app; assumption|discriminate].
  - destruct (e && _); [destruct alt|]; discriminate.
Qed.
Lemma trie_mark : forall t, no_mark (get_regexp t).
Proof.
  intros [n e kids]. rewrite get_regexp_eq. destruct (e && _); [exact I|].
  apply finish_mark. unfold alts_of. apply Forall_forall. intros x Hx. apply in_map_iff in Hx. destruct Hx as (ck & <- & Hx).
  split; [apply mark_app; [apply mark_quote|apply quote_nonempty]|]. intros K. apply app_eq_nil in K. destruct K as (K & _). exact (quote_nonempty _ K).
Qed.
