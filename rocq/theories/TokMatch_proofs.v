(** The pattern for tokens: its shape and the first way it matches. *)
From Coq Require Import String List NArith Bool Lia Arith.
From Verif Require Import Base_model Class_model Uni_model Token_model Regex_model Trie_model Trie_spec Lexicon_model Tokenizer_model
  Search_proofs Trie_proofs TrieRegex_proofs TokParse_proofs Match_proofs.
Import ListNotations.
Local Open Scope N_scope.

(** ** Shapes *)
Definition pair_re (g h : re) : re := RCat (RCap 1 g) (RCat (RCap 2 h) REmpty).
Definition digit_re : re := RPlus (RSet false [IDigit]).
Definition alnum_re : re := RPlus (RSet false [IAlpha; IDigit]).
Definition number_re : re := RCat digit_re (RCat (RSet false [IChr 47; IChr 44; IChr 46]) (RCat digit_re REmpty)).
Definition alpha_re : re := RCat RWordStart (RCat (RPlus (RSet false [IAlpha])) (RCat RWordEnd REmpty)).
Definition shape_re : re :=
  RAlt number_re (RAlt (RCat digit_re REmpty) (RAlt alpha_re (RAlt (RCat alnum_re REmpty) (RCat alnum_re REmpty)))).
Definition sep_items : list item := [IChr 45; IChr 38; ISpace; IChr 124; IPunct].
Definition sep_re : re :=
  RAlt (RCat (RPlus (RSet false sep_items)) REmpty) (RAlt (RCat (RSet false [IChr EMDASH]) REmpty) (RCat REol REmpty)).
Definition blanks_re : re := RStar (RSet false [ISpace]).
Definition dash_re : re := RCat (RPlus (RCat (RSet false [IChr EMDASH]) REmpty)) REmpty.
Definition token_re (g : re) : re := RCat RBol (RCat blanks_re (RCat (RNotAhead dash_re) (pair_re g sep_re))).

Definition front_atoms : list (re * bool) := [(RNotAhead dash_re, false); (blanks_re, false); (RBol, false)].
Lemma token_front : forall t, no_mark t ->
  parse_go 0 MNormal (s2t "^\s*(?!(?:" ++ [EMDASH] ++ s2t ")+)(" ++ t) p_start =
  parse_go 0 MNormal t (mkP [] [] [(GCap 1, front_atoms, [])] 1).
Proof.
  intros t H. change (parse_go 0 MNormal (s2t "^\s*(?!(?:" ++ [EMDASH] ++ s2t ")+)(" ++ t) p_start) with
    (match starts_with (s2t "?:") t, starts_with (s2t "?!") t, starts_with (s2t "?") t with
     | Some _, _, _ => parse_go 2 MNormal t (mkP [] [] [(GPlain, front_atoms, [])] 0)
     | _, Some _, _ => parse_go 2 MNormal t (mkP [] [] [(GNot, front_atoms, [])] 0)
     | _, _, Some _ => None
     | None, None, None => parse_go 0 MNormal t (mkP [] [] [(GCap 1, front_atoms, [])] 1)
     end).
  destruct t as [|c t]; [reflexivity|]. simpl in H.
  assert (S : forall p, starts_with (63 :: p) (c :: t) = None).
  { intros p. cbn [starts_with]. replace (63 =? c) with false by (symmetry; apply N.eqb_neq; congruence). reflexivity. }
  change (s2t "?:") with (63 :: [58]). change (s2t "?!") with (63 :: [33]). change (s2t "?") with (63 :: []). rewrite !S. reflexivity.
Qed.
Definition token_back : text :=
  s2t "|\d+[/,\.]\d+|\d+|\<[[:alpha:]]+\>|[\p{L}\p{Nd}]+|[[:alpha:]\d]+)([-&\s\|[:punct:]]+|" ++ [EMDASH] ++ s2t "|$)".
Lemma token_back_parse : forall cur,
  parse_go 0 MNormal token_back (mkP cur [] [(GCap 1, front_atoms, [])] 1) = Some (token_re (RAlt (cat_of cur) shape_re)).
Proof. intros cur. reflexivity. Qed.
Lemma token_pattern_eq : forall t, token_pattern (t ++ s2t "|") = s2t "^\s*(?!(?:" ++ [EMDASH] ++ s2t ")+)(" ++ t ++ token_back.
Proof. intros t. unfold token_pattern. rewrite <- (app_assoc t). reflexivity. Qed.
Lemma mark_app2 : forall a b, no_mark a -> no_mark b -> no_mark (a ++ b).
Proof. intros [|c a] b Ha Hb; assumption. Qed.
Lemma token_parse : forall T, parse_re (token_pattern (get_regexp T ++ s2t "|")) = None \/
  exists g, no_cap g = true /\ parse_re (token_pattern (get_regexp T ++ s2t "|")) = Some (token_re g).
Proof.
  intros T. rewrite token_pattern_eq. unfold parse_re. rewrite token_front by (apply mark_app2; [apply trie_mark|discriminate]).
  destruct (keeps_trie T 0%nat token_back [] [] [(GCap 1, front_atoms, [])] 1%nat) as [->|(k & cur & C & B & ->)];
    [constructor|apply bpre0|left; reflexivity|].
  apply (bpre_head k 124) in B; [|reflexivity]. subst k. right. rewrite token_back_parse. eexists. split; [|reflexivity].
  cbn [no_cap]. rewrite nc_cat by exact C. reflexivity.
Qed.
Lemma token_parse_words : forall T l, parses (get_regexp T) l ->
  parse_re (token_pattern (get_regexp T ++ s2t "|")) = Some (token_re (RAlt (seq_re l) shape_re)).
Proof.
  intros T l H. rewrite token_pattern_eq. unfold parse_re. rewrite token_front by (apply mark_app2; [apply trie_mark|discriminate]).
  rewrite H. unfold push_all. cbn [p_cur p_alts p_stack p_n]. rewrite token_back_parse, cat_of_rev. reflexivity.
Qed.
(** Attached words. *)
Definition rest_re : re := RCat (RPlus RDot) REmpty.
Lemma pre_parse : forall T, let pat := s2t "(" ++ (s2t "^" ++ get_regexp T ++ s2t "\B") ++ s2t ")(.+)" in
  parse_re pat = None \/ exists g, no_cap g = true /\ parse_re pat = Some (pair_re g rest_re).
Proof.
  intros T pat. unfold pat, parse_re.
  change (parse_go 0 MNormal (s2t "(" ++ (s2t "^" ++ get_regexp T ++ s2t "\B") ++ s2t ")(.+)") p_start) with
    (parse_go 0 MNormal ((s2t "^" ++ get_regexp T ++ s2t "\B") ++ s2t ")(.+)") (mkP [] [] [(GCap 1, [], [])] 1)).
  assert (K : keeps (s2t "^" ++ get_regexp T ++ s2t "\B")).
  { apply keeps_app; [exact (keeps_char 94)|]. apply keeps_app; [apply keeps_trie|apply keeps_within]. }
  destruct (K 0%nat (s2t ")(.+)") [] [] [(GCap 1, [], [])] 1%nat) as [->|(k & cur & C & B & ->)]; [constructor|apply bpre0|left; reflexivity|].
  apply (bpre_head k 41) in B; [|reflexivity]. subst k. right. exists (cat_of cur). split; [apply nc_cat; exact C|reflexivity].
Qed.
Lemma suf_parse : forall T, let pat := s2t "(.+)(" ++ get_regexp T ++ s2t ")" in
  parse_re pat = None \/ exists g, no_cap g = true /\ parse_re pat = Some (pair_re rest_re g).
Proof.
  intros T pat. unfold pat, parse_re.
  assert (F : forall t, no_mark t -> parse_go 0 MNormal (s2t "(.+)(" ++ t) p_start =
    parse_go 0 MNormal t (mkP [] [] [(GCap 2, [(RCap 1 rest_re, true)], [])] 2)).
  { intros t H. change (parse_go 0 MNormal (s2t "(.+)(" ++ t) p_start) with
      (match starts_with (s2t "?:") t, starts_with (s2t "?!") t, starts_with (s2t "?") t with
       | Some _, _, _ => parse_go 2 MNormal t (mkP [] [] [(GPlain, [(RCap 1 rest_re, true)], [])] 1)
       | _, Some _, _ => parse_go 2 MNormal t (mkP [] [] [(GNot, [(RCap 1 rest_re, true)], [])] 1)
       | _, _, Some _ => None
       | None, None, None => parse_go 0 MNormal t (mkP [] [] [(GCap 2, [(RCap 1 rest_re, true)], [])] 2)
       end).
    destruct t as [|c t]; [reflexivity|]. simpl in H.
    assert (S : forall p, starts_with (63 :: p) (c :: t) = None).
    { intros p. cbn [starts_with]. replace (63 =? c) with false by (symmetry; apply N.eqb_neq; congruence). reflexivity. }
    change (s2t "?:") with (63 :: [58]). change (s2t "?!") with (63 :: [33]). change (s2t "?") with (63 :: []). rewrite !S. reflexivity. }
  rewrite F by (apply mark_app2; [apply trie_mark|discriminate]).
  destruct (keeps_trie T 0%nat (s2t ")") [] [] [(GCap 2, [(RCap 1 rest_re, true)], [])] 2%nat) as [->|(k & cur & C & B & ->)];
    [constructor|apply bpre0|left; reflexivity|].
  apply (bpre_head k 41) in B; [|reflexivity]. subst k. right. exists (cat_of cur). split; [apply nc_cat; exact C|reflexivity].
Qed.

(** ** Matching in general *)
Lemma skipn_app_len : forall (a b : text), skipn (List.length a) (a ++ b) = b.
Proof. induction a; simpl; auto. Qed.
Lemma skipn_skipn : forall a b (t : text), skipn a (skipn b t) = skipn (b + a) t.
Proof. intros a b t. revert t. induction b as [|b IH]; intros t; [reflexivity|]. destruct t; [simpl; destruct a; reflexivity|]. apply IH. Qed.
Lemma adv_app : forall s a b, adv (adv s a) b = adv s (a ++ b).
Proof.
  intros s a b. unfold adv. cbn [m_prev m_rest m_caps]. f_equal.
  - rewrite rev_app_distr. destruct (rev b); reflexivity.
  - rewrite skipn_skipn, app_length. reflexivity.
Qed.
Lemma adv_rest : forall s w r, m_rest s = w ++ r -> m_rest (adv s w) = r.
Proof. intros s w r E. unfold adv. cbn [m_rest]. rewrite E. apply skipn_app_len. Qed.
(** Apart from the groups, a way is a text read off the front. *)
Definition reads (s s' : mst) (w : text) : Prop := m_rest s = w ++ m_rest s' /\ m_prev s' = m_prev (adv s w).
Lemma reads_nil : forall s, reads s s [].
Proof. intros s. split; reflexivity. Qed.
Lemma reads_trans : forall s1 s2 s3 a b, reads s1 s2 a -> reads s2 s3 b -> reads s1 s3 (a ++ b).
Proof.
  intros s1 s2 s3 a b (E1 & P1) (E2 & P2). split; [rewrite E1, E2, app_assoc; reflexivity|].
  rewrite P2. unfold adv in *. cbn [m_prev] in *. rewrite rev_app_distr. destruct (rev b); [exact P1|reflexivity].
Qed.
Lemma one_reads : forall p s s', In s' (one_char p s) -> exists c, p c = true /\ reads s s' [c] /\ m_caps s' = m_caps s.
Proof. intros p s s' H. apply one_char_in in H. destruct H as (c & t & E & Hp & ->). exists c. repeat split; auto. Qed.
Lemma star_reads : forall f, (forall s s', In s' (f s) -> exists w, reads s s' w) ->
  forall n s s', In s' (star_of f n s) -> exists w, reads s s' w.
Proof.
  intros f Hf. induction n as [|n IH]; intros s s' H.
  - destruct H as [<-|[]]. exists []. apply reads_nil.
  - cbn [star_of] in H. apply in_app_iff in H. destruct H as [H|[<-|[]]]; [|exists []; apply reads_nil].
    apply in_flat_map in H. destruct H as (s1 & H1 & H2). destruct (Nat.ltb _ _); [|destruct H2].
    destruct (Hf _ _ H1) as (a & Ra). destruct (IH _ _ H2) as (b & Rb). exists (a ++ b). eapply reads_trans; eassumption.
Qed.
Lemma star_caps : forall f, (forall s s', In s' (f s) -> m_caps s' = m_caps s) ->
  forall n s s', In s' (star_of f n s) -> m_caps s' = m_caps s.
Proof.
  intros f Hf. induction n as [|n IH]; intros s s' H.
  - destruct H as [<-|[]]. reflexivity.
  - cbn [star_of] in H. apply in_app_iff in H. destruct H as [H|[<-|[]]]; [|reflexivity].
    apply in_flat_map in H. destruct H as (s1 & H1 & H2). destruct (Nat.ltb _ _); [|destruct H2].
    rewrite (IH _ _ H2). apply Hf. exact H1.
Qed.
Lemma guard_in : forall b s s', In s' (guard b s) -> b = true /\ s' = s.
Proof. intros [] s s' H; [|destruct H]. destruct H as [<-|[]]. auto. Qed.
Lemma mt_reads : forall u ic r s s', In s' (mt u ic r s) -> exists w, reads s s' w.
Proof.
  intros u ic. induction r as [|neg l| |a IHa b IHb|a IHa b IHb|a IHa|a IHa|a IHa|k a IHa|a IHa| | | | |]; intros s s' H; cbn [mt] in H.
  - destruct H as [<-|[]]. exists []. apply reads_nil.
  - apply one_reads in H. destruct H as (c & _ & H & _). exists [c]. exact H.
  - apply one_reads in H. destruct H as (c & _ & H & _). exists [c]. exact H.
  - apply in_flat_map in H. destruct H as (s1 & H1 & H2). destruct (IHa _ _ H1) as (x & Rx). destruct (IHb _ _ H2) as (y & Ry).
    exists (x ++ y). eapply reads_trans; eassumption.
  - apply in_app_iff in H. destruct H as [H|H]; [apply IHa|apply IHb]; exact H.
  - apply in_app_iff in H. destruct H as [H|[<-|[]]]; [apply IHa; exact H|exists []; apply reads_nil].
  - eapply star_reads; [|exact H]. exact IHa.
  - apply in_flat_map in H. destruct H as (s1 & H1 & H2). destruct (IHa _ _ H1) as (x & Rx). destruct (star_reads _ IHa _ _ _ H2) as (y & Ry).
    exists (x ++ y). eapply reads_trans; eassumption.
  - apply in_map_iff in H. destruct H as (s1 & <- & H1). apply IHa in H1. exact H1.
  - destruct (mt u ic a s); [|destruct H]. destruct H as [<-|[]]. exists []. apply reads_nil.
  - apply guard_in in H. destruct H as (_ & ->). exists []. apply reads_nil.
  - apply guard_in in H. destruct H as (_ & ->). exists []. apply reads_nil.
  - apply guard_in in H. destruct H as (_ & ->). exists []. apply reads_nil.
  - apply guard_in in H. destruct H as (_ & ->). exists []. apply reads_nil.
  - apply guard_in in H. destruct H as (_ & ->). exists []. apply reads_nil.
Qed.
Lemma mt_caps : forall u ic r, no_cap r = true -> forall s s', In s' (mt u ic r s) -> m_caps s' = m_caps s.
Proof.
  intros u ic. induction r as [|neg l| |a IHa b IHb|a IHa b IHb|a IHa|a IHa|a IHa|k a IHa|a IHa| | | | |]; intros N s s' H; cbn [mt no_cap] in *.
  - destruct H as [<-|[]]. reflexivity.
  - apply one_reads in H. destruct H as (c & _ & _ & H). exact H.
  - apply one_reads in H. destruct H as (c & _ & _ & H). exact H.
  - apply andb_true_iff in N. destruct N as (N1 & N2).
    apply in_flat_map in H. destruct H as (s1 & H1 & H2). rewrite (IHb N2 _ _ H2). apply IHa; assumption.
  - apply andb_true_iff in N. destruct N as (N1 & N2). apply in_app_iff in H. destruct H as [H|H]; [apply IHa|apply IHb]; assumption.
  - apply in_app_iff in H. destruct H as [H|[<-|[]]]; [apply IHa; assumption|reflexivity].
  - eapply star_caps; [|exact H]. intros; apply IHa; assumption.
  - apply in_flat_map in H. destruct H as (s1 & H1 & H2). rewrite (star_caps _ (fun s s' => IHa N s s') _ _ _ H2). apply IHa; assumption.
  - discriminate.
  - destruct (mt u ic a s); [|destruct H]. destruct H as [<-|[]]. reflexivity.
  - apply guard_in in H. destruct H as (_ & ->). reflexivity.
  - apply guard_in in H. destruct H as (_ & ->). reflexivity.
  - apply guard_in in H. destruct H as (_ & ->). reflexivity.
  - apply guard_in in H. destruct H as (_ & ->). reflexivity.
  - apply guard_in in H. destruct H as (_ & ->). reflexivity.
Qed.
Lemma consumed_reads : forall s s' w, reads s s' w -> consumed s s' = w.
Proof.
  intros s s' w (E & _). unfold consumed. rewrite E, app_length.
  replace (List.length w + List.length (m_rest s') - List.length (m_rest s'))%nat with (List.length w) by lia.
  rewrite firstn_app, Nat.sub_diag, firstn_O, app_nil_r. apply firstn_all.
Qed.
(** The groups of a way of [pair_re]. *)
Lemma pair_ways : forall u ic g h s, mt u ic (pair_re g h) s =
  flat_map (fun s1 => map (fun s2 => mkM (m_prev s2) (m_rest s2) ((2%nat, consumed (mkM (m_prev s1) (m_rest s1) ((1%nat, consumed s s1) :: m_caps s1)) s2) :: m_caps s2))
    (mt u ic h (mkM (m_prev s1) (m_rest s1) ((1%nat, consumed s s1) :: m_caps s1)))) (mt u ic g s).
Proof.
  intros u ic g h s. unfold pair_re. cbn [mt]. induction (mt u ic g s) as [|s1 l IH]; [reflexivity|]. cbn [map flat_map]. rewrite IH. f_equal.
  clear IH. set (s1' := mkM _ _ _). induction (mt u ic h s1') as [|s2 l2 IH]; [reflexivity|]. cbn [map flat_map app]. f_equal. exact IH.
Qed.
Lemma pair_in : forall u ic g h s s', no_cap h = true -> In s' (mt u ic (pair_re g h) s) ->
  exists s1 s2 a b, In s1 (mt u ic g s) /\ In s2 (mt u ic h (mkM (m_prev s1) (m_rest s1) ((1%nat, a) :: m_caps s1))) /\
    m_rest s = a ++ b ++ m_rest s' /\ reads s s1 a /\ reads s1 s' b /\ cap 1 s' = a /\ cap 2 s' = b /\ m_rest s' = m_rest s2.
Proof.
  intros u ic g h s s' N H. rewrite pair_ways in H. apply in_flat_map in H. destruct H as (s1 & H1 & H2).
  apply in_map_iff in H2. destruct H2 as (s2 & <- & H2). destruct (mt_reads _ _ _ _ _ H1) as (a & Ra).
  assert (Ca := consumed_reads _ _ _ Ra). rewrite Ca in *.
  destruct (mt_reads _ _ _ _ _ H2) as (b & Rb). assert (Cb := consumed_reads _ _ _ Rb). rewrite Cb.
  assert (Mc := mt_caps _ _ _ N _ _ H2). exists s1, s2, a, b. cbn [m_rest m_prev] in *. split; [exact H1|]. split; [exact H2|].
  destruct Ra as (Ea & Pa). destruct Rb as (Eb & Pb). cbn [m_rest] in *.
  split; [rewrite Ea, Eb; reflexivity|]. split; [split; assumption|]. split; [split; [exact Eb|exact Pb]|].
  split; [unfold cap; cbn [m_caps cap_find Nat.eqb]; rewrite Mc; cbn [m_caps]; reflexivity|]. split; reflexivity.
Qed.

(** ** Runs of characters *)
(** Prefixes made of the given characters, longest first. *)
Fixpoint spans (p : N -> bool) (t : text) : list text :=
  match t with
  | c :: t' => if p c then map (cons c) (spans p t') ++ [[]] else [[]]
  | [] => [[]]
  end.
Definition spans1 (p : N -> bool) (t : text) : list text :=
  match t with
  | c :: t' => if p c then map (cons c) (spans p t') else []
  | [] => []
  end.
Lemma star_ways : forall p n s, (List.length (m_rest s) <= n)%nat -> star_of (one_char p) n s = map (adv s) (spans p (m_rest s)).
Proof.
  intros p. induction n as [|n IH]; intros s L.
  - cbn [star_of]. destruct (m_rest s) eqn:E; [|simpl in L; lia]. simpl. rewrite adv_nil. reflexivity.
  - cbn [star_of]. unfold one_char at 2. destruct (m_rest s) as [|c t] eqn:E; [simpl; rewrite adv_nil; reflexivity|].
    cbn [spans]. destruct (p c); [|simpl; rewrite adv_nil; reflexivity].
    cbn [flat_map]. rewrite app_nil_r. cbn [m_rest m_step].
    replace (Nat.ltb (List.length t) (List.length (c :: t))) with true by (symmetry; apply Nat.ltb_lt; simpl; lia).
    rewrite IH by (simpl in *; lia). cbn [m_rest m_step]. rewrite map_app, map_map. cbn [map]. rewrite adv_nil. f_equal.
    apply map_ext. intros w. apply adv_cons. exact E.
Qed.
Lemma plus_ways : forall u ic neg l s, mt u ic (RPlus (RSet neg l)) s = map (adv s) (spans1 (set_pred u ic neg l) (m_rest s)).
Proof.
  intros u ic neg l s. cbn [mt]. unfold one_char at 2. fold (set_pred u ic neg l).
  destruct (m_rest s) as [|c t] eqn:E; [reflexivity|]. cbn [spans1]. change (xorb neg (existsb (item_has u ic c) l)) with (set_pred u ic neg l c).
  destruct (set_pred u ic neg l c) eqn:P; [|reflexivity].
  cbn [flat_map]. rewrite app_nil_r. cbn [m_rest m_step].
  change (fun c0 => xorb neg (existsb (item_has u ic c0) l)) with (set_pred u ic neg l).
  rewrite star_ways by (apply le_n). cbn [m_rest m_step]. rewrite map_map. apply map_ext. intros w. apply adv_cons. exact E.
Qed.
Lemma cat_empty : forall u ic a s, mt u ic (RCat a REmpty) s = mt u ic a s.
Proof. intros. cbn [mt]. induction (mt u ic a s) as [|x l IH]; simpl; [reflexivity|]. rewrite IH. reflexivity. Qed.
