(** Tokens made from pieces; splitting. *)
From Coq Require Import String List NArith Bool Lia Arith.
From Verif Require Import Base_model Class_model Uni_model Token_model Regex_model Trie_model Trie_spec Lexicon_model Tokenizer_model
  Lexicon_spec Tokenizer_spec Search_proofs Class_proofs Trie_proofs TrieRegex_proofs Match_proofs TokParse_proofs TokMatch_proofs
  LexMap_proofs Classify_proofs TokScan_proofs TokRead_proofs TokPieces_proofs.
Import ListNotations.
Local Open Scope N_scope.

(** ** Making one token *)
Lemma token_plain : forall w, ~ In TAB w -> token_of_text w = plain_token w.
Proof.
  intros w H. unfold token_of_text. destruct (getline_last TAB w [] H) as (s & E & F). rewrite E.
  assert (G : forall s' old, s_eof s' = true -> exists s2, getline TAB s' old = (s2, old) /\ s_eof s2 = true).
  { intros s' old Hs. unfold getline. rewrite Hs. eexists. split; [reflexivity|reflexivity]. }
  assert (T : forall s2, s_eof s2 = true -> (let (s3, stdword) := getline TAB s2 [] in let (s4, incl) := getline TAB s3 [] in
    let (s5, outcl) := getline TAB s4 [] in let (_, att) := getline TAB s5 [] in
    mkToken w stdword (as_type incl) (out_as_type outcl) (as_attach att) false) = plain_token w).
  { intros s2 F2. destruct (G s2 [] F2) as (s3 & -> & F3). destruct (G s3 [] F3) as (s4 & -> & F4).
    destruct (G s4 [] F4) as (s5 & -> & F5). destruct (G s5 [] F5) as (s6 & -> & F6). reflexivity. }
  destruct (teqb w (s2t "TOKEN:")); [|apply T; exact F]. destruct (G s w F) as (s2 & E2 & F2). rewrite E2. apply T. exact F2.
Qed.
Lemma classify_classed : forall u x w d, classed u x d w (classify u x (plain_token w) d).
Proof.
  intros u x w d. split.
  - intros H. destruct (listed_or_not x (plain_token w)) as [U|(c & [[]|(le & H1 & H2)])]; [contradiction|].
    destruct (classify_listed u x (plain_token w) d c) as (A & _ & B); [right; exists le; auto|]. split; [exact A|].
    intros c'. rewrite B. split; [intros [[]|K]; exact K|intros K; right; exact K].
  - intros U. destruct (classify_unlisted u x (plain_token w) d U) as (A & B & _). auto.
Qed.
Lemma classify_rest : forall u x w d, let k := classify u x (plain_token w) d in t_std k = [] /\ t_out k = O_BADTOKEN /\ t_att k = [].
Proof.
  intros u x w d. unfold classify. cbv zeta. cbn [set_in t_in].
  destruct (fold_left _ _ _); [|repeat split]. destruct (rmatch _ _ _ _); repeat split.
Qed.
Lemma classify_text_listed : forall u x w d c le, In le (lex_find x w) -> In c (le_type le) -> t_text (classify u x (plain_token w) d) = w.
Proof.
  intros u x w d c le H1 H2. assert (K : In c (fold_left (fun s le => add_all s (le_type le)) (lex_find x w) [])) by (apply fold_types_in; right; exists le; auto).
  unfold classify. cbn [t_text plain_token set_in t_in]. destruct (fold_left _ _ _); [destruct K|reflexivity].
Qed.
Lemma classify_made : forall u x w d, made_from u x d w (classify u x (plain_token w) d).
Proof.
  intros u x w d. split; [|split; [apply classify_total|split; [apply classify_classed|apply classify_rest]]].
  destruct (listed_or_not x (plain_token w)) as [U|(c & [[]|(le & H1 & H2)])].
  - destruct (classify_unlisted u x (plain_token w) d U) as (_ & _ & A & B). cbn [t_text plain_token] in *.
    destruct (in_dec N.eq_dec 44 w) as [I|I]; [destruct (rmatch u false "^\d+[,\.]\d+$" w) eqn:R|].
    + assert (SD := proj1 (m_decimal u w) R). right. split; [exact (conj U (conj SD I))|]. destruct (A (conj SD I)) as (a & b & E1 & E2 & E3). exists a, b. auto.
    + assert (K : ~ split_digits u [44; 46] w). { intros K. apply m_decimal in K. congruence. } left. split; [intros (_ & Q & _); contradiction|]. apply B. tauto.
    + left. split; [intros (_ & _ & Q); contradiction|]. apply B. tauto.
  - left. split; [intros ((_ & Q) & _); cbn [t_text plain_token] in *; rewrite (Q le H1) in H2; destruct H2|].
    exact (classify_text_listed u x w d c le H1 H2).
Qed.

Lemma part_made : forall u x w, ~ In TAB w -> made_from u x I_WORD w (part_token u x w).
Proof. intros u x w H. unfold part_token. rewrite token_plain by exact H. apply classify_made. Qed.
Lemma parts_made : forall u x ws, Forall (fun w => ~ In TAB w) ws -> Forall2 (made_from u x I_WORD) ws (map (part_token u x) ws).
Proof. intros u x ws F. induction F as [|w ws H F IH]; constructor; [apply part_made; exact H|exact IH]. Qed.

(** ** Splitting at blanks *)
Definition squeeze (t : text) : text := filter (fun c => negb (c =? SP)) t.
Lemma squeeze_app : forall a b, squeeze (a ++ b) = squeeze a ++ squeeze b.
Proof. intros a b. unfold squeeze. apply filter_app. Qed.
Lemma squeeze_none : forall t, ~ In SP t -> squeeze t = t.
Proof.
  unfold squeeze. induction t as [|c t IH]; intros H; [reflexivity|]. simpl in H. cbn [filter]. destruct (c =? SP) eqn:E.
  - apply N.eqb_eq in E. tauto.
  - simpl. rewrite IH by tauto. reflexivity.
Qed.
Lemma split_some : forall t, exists w ws, split_blanks t = w :: ws.
Proof.
  induction t as [|c t IH]; [exists [], []; reflexivity|]. cbn [split_blanks]. destruct IH as (w & ws & ->).
  destruct (c =? SP); [|eauto]. destruct t as [|d t]; [eauto|]. destruct (d =? SP); eauto.
Qed.
Lemma split_concat : forall t, concat (split_blanks t) = squeeze t.
Proof.
  unfold squeeze. induction t as [|c t IH]; [reflexivity|]. cbn [split_blanks filter]. destruct (c =? SP) eqn:E.
  - cbn [negb]. destruct t as [|d t]; [reflexivity|]. destruct (d =? SP); exact IH.
  - cbn [negb]. rewrite <- IH. destruct (split_some t) as (w & ws & ->). reflexivity.
Qed.
Lemma split_no_blank : forall t w, In w (split_blanks t) -> ~ In SP w.
Proof.
  intros t w H K. assert (L : In SP (concat (split_blanks t))) by (apply in_concat; exists w; auto). rewrite split_concat in L.
  unfold squeeze in L. apply filter_In in L. destruct L as (_ & L). rewrite N.eqb_refl in L. discriminate.
Qed.
Lemma split_inside : forall t w c, In w (split_blanks t) -> In c w -> In c t.
Proof.
  intros t w c H K. assert (L : In c (concat (split_blanks t))) by (apply in_concat; exists w; auto). rewrite split_concat in L.
  unfold squeeze in L. apply filter_In in L. apply L.
Qed.
(** Empty words come from blanks at the ends only. *)
Lemma split_tail : forall t, (forall c, hd_error (rev t) = Some c -> c <> SP) -> t <> [] ->
  exists w ws, split_blanks t = w :: ws /\ Forall (fun v => v <> []) ws /\ (w = [] -> exists t', t = SP :: t').
Proof.
  induction t as [|c t IH]; intros L N; [congruence|]. cbn [split_blanks].
  assert (L' : forall d, hd_error (rev t) = Some d -> d <> SP).
  { intros d Hd. apply L. simpl. destruct (rev t) as [|y ys]; [discriminate|]. exact Hd. }
  destruct t as [|d t].
  - destruct (c =? SP) eqn:E; [exfalso; apply N.eqb_eq in E; apply (L c eq_refl E)|]. exists [c], []. split; [reflexivity|]. split; [constructor|discriminate].
  - destruct (IH L' ltac:(discriminate)) as (w & ws & -> & F & W). destruct (c =? SP) eqn:E.
    + apply N.eqb_eq in E. subst c. destruct (d =? SP) eqn:D.
      * exists w, ws. split; [reflexivity|]. split; [exact F|]. intros _. eauto.
      * exists [], (w :: ws). split; [reflexivity|]. split; [|eauto]. constructor; [|exact F]. intros K. destruct (W K) as (t' & Q). injection Q as Q _. subst d. discriminate.
    + exists (c :: w), ws. split; [reflexivity|]. split; [exact F|discriminate].
Qed.
Lemma split_full : forall t, t <> [] -> (forall c, hd_error t = Some c -> c <> SP) -> (forall c, hd_error (rev t) = Some c -> c <> SP) ->
  Forall (fun v => v <> []) (split_blanks t).
Proof.
  intros t N H L. destruct (split_tail t L N) as (w & ws & -> & F & W). constructor; [|exact F]. intros K. destruct (W K) as (t' & ->). apply (H SP eq_refl eq_refl).
Qed.

(** ** Mixed words *)
Definition between (g1 g2 a b : re) : re := RCat g1 (RCat (RCap 1 a) (RCat (RCap 2 b) (RCat g2 REmpty))).
Definition is_guard (r : re) : Prop := forall u ic s s', In s' (mt u ic r s) -> s' = s.
Lemma reads_lang : forall u ic g P s s2 w, rlang u ic g P -> In s2 (mt u ic g s) -> reads s s2 w -> P w.
Proof.
  intros u ic g P s s2 w L H (E & _). destruct (proj1 (L s (m_rest s2)) (ex_intro _ s2 (conj H eq_refl))) as (a & Ea & Pa).
  rewrite E in Ea. apply app_inv_tail in Ea. subst a. exact Pa.
Qed.
Lemma between_in : forall u ic g1 g2 a b s s', is_guard g1 -> is_guard g2 -> no_cap b = true ->
  rlang u ic a (fun t => t <> []) \/ True -> In s' (mt u ic (between g1 g2 a b) s) -> In s' (mt u ic (pair_re a b) s).
Proof.
  intros u ic g1 g2 a b s s' G1 G2 N _ H. unfold between in H.
  change (In s' (flat_map (mt u ic (RCat (RCap 1 a) (RCat (RCap 2 b) (RCat g2 REmpty)))) (mt u ic g1 s))) in H.
  apply in_flat_map in H. destruct H as (s0 & H0 & H). apply G1 in H0. subst s0.
  change (In s' (flat_map (mt u ic (RCat (RCap 2 b) (RCat g2 REmpty))) (mt u ic (RCap 1 a) s))) in H.
  apply in_flat_map in H. destruct H as (s1 & H1 & H).
  change (In s' (flat_map (mt u ic (RCat g2 REmpty)) (mt u ic (RCap 2 b) s1))) in H.
  apply in_flat_map in H. destruct H as (s2 & H2 & H). change (In s' (flat_map (mt u ic REmpty) (mt u ic g2 s2))) in H.
  apply in_flat_map in H. destruct H as (s3 & H3 & H). apply G2 in H3. subst s3. destruct H as [<-|[]].
  unfold pair_re. change (In s2 (flat_map (mt u ic (RCat (RCap 2 b) REmpty)) (mt u ic (RCap 1 a) s))).
  apply in_flat_map. exists s1. split; [exact H1|]. change (In s2 (flat_map (mt u ic REmpty) (mt u ic (RCap 2 b) s1))).
  apply in_flat_map. exists s2. split; [exact H2|left; reflexivity].
Qed.
(** Each match is two non-empty groups. *)
Definition two_part (u : uni) (r : re) : Prop := forall s s', In s' (mt u false r s) -> cap 1 s' <> [] /\ cap 2 s' <> [] /\ m_rest s = cap 1 s' ++ cap 2 s' ++ m_rest s'.
Lemma two_parts : forall u g1 g2 a b, is_guard g1 -> is_guard g2 -> no_cap b = true ->
  (exists P, rlang u false a P /\ ~ P []) -> (exists P, rlang u false b P /\ ~ P []) -> two_part u (between g1 g2 a b).
Proof.
  intros u g1 g2 a b G1 G2 N (P & LP & NP) (Q & LQ & NQ) s s' H. apply between_in in H; try assumption; [|right; exact I].
  destruct (pair_in _ _ _ _ _ _ N H) as (s1 & s2 & x & y & H1 & H2 & E & R1 & R2 & C1 & C2 & E2). rewrite C1, C2.
  split; [|split; [|exact E]].
  - intros ->. apply NP. exact (reads_lang _ _ _ _ _ _ _ LP H1 R1).
  - intros ->. apply NQ. apply (reads_lang u false b Q (mkM (m_prev s1) (m_rest s1) ((1%nat, x) :: m_caps s1)) s2 [] LQ H2).
    destruct R2 as (Er & _). destruct (mt_reads _ _ _ _ _ H2) as (w & Rw). destruct Rw as (Ew & Pw). cbn [m_rest] in *. 
    simpl in Er. rewrite <- E2 in Ew. rewrite Er in Ew. assert (w = []). { apply (app_inv_tail (m_rest s')). rewrite <- Ew. reflexivity. } subst w.
    split; [cbn [m_rest]; rewrite <- E2, Er; reflexivity|exact Pw].
Qed.
Lemma guard_bol : is_guard RBol. Proof. intros u ic s s' H. apply guard_in in H. apply H. Qed.
Lemma guard_eol : is_guard REol. Proof. intros u ic s s' H. apply guard_in in H. apply H. Qed.
Lemma guard_ws : is_guard RWordStart. Proof. intros u ic s s' H. apply guard_in in H. apply H. Qed.
Lemma guard_we : is_guard RWordEnd. Proof. intros u ic s s' H. apply guard_in in H. apply H. Qed.
Lemma digits_some : forall u, exists P, rlang u false (RCat (RPlus (RSet false [IDigit])) REmpty) P /\ ~ P [].
Proof.
  intros u. eexists. split; [apply lang_cat; [apply lang_plus_set|apply lang_empty]|]. intros (a & b & E & (N & _) & _). symmetry in E. apply app_eq_nil in E. tauto.
Qed.
Lemma letter_some : forall u, exists P, rlang u false (RCat (RSet false [IAlpha; IAlpha]) REmpty) P /\ ~ P [].
Proof.
  intros u. eexists. split; [apply lang_cat; [apply lang_set|apply lang_empty]|]. intros (a & b & E & (c & -> & _) & _). discriminate.
Qed.
Lemma hd_app : forall A (a b : list A), hd_error (a ++ b) = match a with [] => hd_error b | c :: _ => Some c end.
Proof. intros A [|c a] b; reflexivity. Qed.
Lemma hd_nonempty : forall A (a b c : list A), a <> [] -> hd_error (a ++ b) = hd_error (a ++ c).
Proof. intros A [|x a] b c H; [congruence|reflexivity]. Qed.
Lemma replace_keeps : forall u r, two_part u r -> forall f prev t, let t' := replace_from f u r prev t in
  squeeze t' = squeeze t /\ hd_error t' = hd_error t /\ hd_error (rev t') = hd_error (rev t).
Proof.
  intros u r P. induction f as [|f IH]; intros prev t; [simpl; auto|]. cbn [replace_from].
  destruct (search_from u false r prev t) as [(a & s)|] eqn:E; [|auto].
  destruct (search_spec _ _ _ _ _ _ _ E) as (t1 & Et & Hh & _). apply hd_in in Hh. apply P in Hh. destruct Hh as (N1 & N2 & E1). cbn [m_rest] in E1.
  destruct (IH (m_prev s) (m_rest s)) as (I1 & I2 & I3). cbv zeta in *. rewrite Et, E1. clear Et E1 E.
  set (y := replace_from f u r (m_prev s) (m_rest s)) in *. split; [|split].
  - rewrite !squeeze_app, I1. reflexivity.
  - rewrite !hd_app. destruct a; [|reflexivity]. destruct (cap 1 s); [congruence|reflexivity].
  - rewrite !rev_app_distr. rewrite <- !app_assoc. rewrite (hd_app _ (rev y)), (hd_app _ (rev (m_rest s))).
    destruct (rev y) as [|c q], (rev (m_rest s)) as [|c' q']; try discriminate; [|exact I3].
    rewrite !hd_app. destruct (rev (cap 2 s)) eqn:K; [|reflexivity]. exfalso. apply N2. rewrite <- (rev_involutive (cap 2 s)), K. reflexivity.
Qed.
(** The rounds allowed always suffice. *)
Lemma replace_fuel : forall u r, two_part u r -> forall f f' prev t, (List.length t < f)%nat -> (List.length t < f')%nat ->
  replace_from f u r prev t = replace_from f' u r prev t.
Proof.
  intros u r P. induction f as [|f IH]; intros f' prev t L L'; [lia|]. destruct f' as [|f']; [lia|]. cbn [replace_from].
  destruct (search_from u false r prev t) as [(a & s)|] eqn:E; [|reflexivity].
  destruct (search_spec _ _ _ _ _ _ _ E) as (t1 & Et & Hh & _). apply hd_in in Hh. apply P in Hh. destruct Hh as (N1 & N2 & E1). cbn [m_rest] in E1.
  rewrite (IH f'); [reflexivity| |]; rewrite Et, E1, !app_length in *; destruct (cap 1 s); try congruence; simpl in *; lia.
Qed.
Definition dig_re : re := RCat (RPlus (RSet false [IDigit])) REmpty.
Definition let_re : re := RCat (RSet false [IAlpha; IAlpha]) REmpty.
Lemma mixed_keeps : forall u t, t <> [] -> concat (mixed_words u t) = squeeze t /\
  (~ In SP t -> parts t (mixed_words u t)).
Proof.
  intros u t N. unfold mixed_words, rreplace.
  replace (parse_re (s2t "^(\d+)([[:alpha:]\p{L}])$")) with
    (Some (between RBol REol dig_re let_re)) by (vm_compute; reflexivity).
  replace (parse_re (s2t "\<([[:alpha:]\p{L}])(\d+)\>")) with
    (Some (between RWordStart RWordEnd let_re dig_re)) by (vm_compute; reflexivity).
  assert (T1 := two_parts u RBol REol dig_re let_re guard_bol guard_eol eq_refl (digits_some u) (letter_some u)).
  assert (T2 := two_parts u RWordStart RWordEnd let_re dig_re guard_ws guard_we eq_refl (letter_some u) (digits_some u)).
  set (r1 := between RBol _ _ _) in *. set (r2 := between RWordStart _ _ _) in *.
  destruct (replace_keeps u r1 T1 (S (List.length t)) None t) as (A1 & A2 & A3). set (t1 := replace_from _ u r1 None t) in *.
  destruct (replace_keeps u r2 T2 (S (List.length t1)) None t1) as (B1 & B2 & B3). set (t2 := replace_from _ u r2 None t1) in *.
  split; [rewrite split_concat, B1, A1; reflexivity|]. intros H. split; [rewrite split_concat, B1, A1; apply squeeze_none; exact H|].
  apply split_full.
  - intros K. rewrite K in B2. rewrite A2 in B2. destruct t; [congruence|discriminate].
  - rewrite B2, A2. intros c Hc ->. apply H. destruct t; [discriminate|]. injection Hc as ->. left. reflexivity.
  - rewrite B3, A3. intros c Hc ->. apply H. apply in_rev. destruct (rev t); [discriminate|]. injection Hc as ->. left. reflexivity.
Qed.

(** ** Attached words *)
Lemma blen_app : forall a b, blen (a ++ b) = (blen a + blen b)%nat.
Proof. induction a as [|c a IH]; intros b; [reflexivity|]. cbn [app blen]. rewrite IH. lia. Qed.
Lemma blen_nil : forall a, blen a = 0%nat -> a = [].
Proof. intros [|c a] H; [reflexivity|]. exfalso. cbn [blen] in H. assert (1 <= utf8_len c)%nat by (unfold utf8_len; repeat destruct (_ <? _); lia). lia. Qed.
Lemma match_in : forall u ic r t s, match_all u ic r t = Some s -> In s (mt u ic r (m_start t)) /\ m_rest s = [].
Proof. intros u ic r t s H. unfold match_all in H. apply find_some in H. destruct H as (H & E). split; [exact H|]. destruct (m_rest s); [reflexivity|discriminate]. Qed.
Lemma rest_some : forall u, exists P, rlang u false rest_re P /\ ~ P [].
Proof.
  intros u. eexists. split; [apply lang_cat; [apply lang_plus_dot|apply lang_empty]|]. intros (a & b & E & N & _). symmetry in E. apply app_eq_nil in E. tauto.
Qed.
(** Two groups: nothing, or the whole text. *)
Lemma groups_pre : forall u x t, built x -> let r := two_groups u (s2t "(" ++ fst (lex_pre x) ++ s2t ")(.+)") t in
  r = Throw regex_error \/ exists a b, r = Ok (a, b) /\ ((a = [] /\ b = []) \/ (a ++ b = t /\ b <> [])).
Proof.
  intros u x t B r. apply built_ok in B. destruct B as (_ & C). destruct (patterns_of x C) as (_ & E & _). unfold r, two_groups. rewrite E.
  destruct (pre_parse (trie_of (att_words is_prefix_att (x_lex x)))) as [K|(g & N & K)]; unfold make_pre; rewrite K; [left; reflexivity|right].
  destruct (match_all u false (pair_re g rest_re) t) as [s|] eqn:M; [|exists [], []; auto]. apply match_in in M. destruct M as (M & Er).
  destruct (pair_in _ _ _ _ _ _ (eq_refl : no_cap rest_re = true) M) as (s1 & s2 & a & b & H1 & H2 & E1 & R1 & R2 & C1 & C2 & E2).
  exists a, b. rewrite C1, C2. split; [reflexivity|right]. cbn [m_start m_rest] in E1. rewrite Er, app_nil_r in E1. split; [symmetry; exact E1|].
  intros ->. destruct (rest_some u) as (P & L & NP). apply NP. apply (reads_lang u false rest_re P (mkM (m_prev s1) (m_rest s1) ((1%nat, a) :: m_caps s1)) s2 [] L H2).
  destruct R2 as (Q & _). destruct (mt_reads _ _ _ _ _ H2) as (w & Ew & Pw). cbn [m_rest] in *. simpl in Q.
  assert (w = []). { rewrite <- E2, Er in Ew. rewrite Q, Er in Ew. rewrite app_nil_r in Ew. symmetry. exact Ew. } subst w. split; [exact Ew|exact Pw].
Qed.
Lemma groups_suf : forall u x t, built x -> let r := two_groups u (s2t "(.+)(" ++ fst (lex_suf x) ++ s2t ")") t in
  r = Throw regex_error \/ exists c d, r = Ok (c, d) /\ ((c = [] /\ d = []) \/ (c ++ d = t /\ c <> [])).
Proof.
  intros u x t B r. apply built_ok in B. destruct B as (_ & C). destruct (patterns_of x C) as (_ & _ & E). unfold r, two_groups. rewrite E.
  destruct (suf_parse (trie_of (att_words is_suffix_att (x_lex x)))) as [K|(g & N & K)]; unfold make_suf; rewrite K; [left; reflexivity|right].
  destruct (match_all u false (pair_re rest_re g) t) as [s|] eqn:M; [|exists [], []; auto]. apply match_in in M. destruct M as (M & Er).
  destruct (pair_in _ _ _ _ _ _ N M) as (s1 & s2 & a & b & H1 & H2 & E1 & R1 & R2 & C1 & C2 & E2).
  exists a, b. rewrite C1, C2. split; [reflexivity|right]. cbn [m_start m_rest] in E1. rewrite Er, app_nil_r in E1. split; [symmetry; exact E1|].
  intros ->. destruct (rest_some u) as (P & L & NP). apply NP. exact (reads_lang _ _ _ _ _ _ _ L H1 R1).
Qed.
Lemma prefix_cases : forall (a b c d : text), a ++ b = c ++ d -> (exists l, a = c ++ l /\ d = l ++ b) \/ (exists l, c = a ++ l /\ b = l ++ d).
Proof.
  induction a as [|x a IH]; intros b c d H; [right; exists c; auto|]. destruct c as [|y c]; [left; exists (x :: a); auto|].
  injection H as <- H. destruct (IH b c d H) as [(l & -> & ->)|(l & -> & ->)]; [left|right]; exists l; auto.
Qed.
Lemma split_parts_ok : forall u x k, built x -> t_text k <> [] -> (is_in_class k I_MIXED = true -> ~ In SP (t_text k)) ->
  split_parts u x k = Throw regex_error \/ exists ws, split_parts u x k = Ok ws /\ (ws = [] \/ parts (t_text k) ws).
Proof.
  intros u x k B N HM. unfold split_parts. destruct (is_in_class k I_MIXED) eqn:M.
  - right. eexists. split; [reflexivity|]. right. apply mixed_keeps; [exact N|apply HM; reflexivity].
  - set (t := t_text k) in *. destruct (groups_pre u x t B) as [->|(a & b & -> & H1)]; [left; reflexivity|]. cbn [obind].
    destruct (groups_suf u x t B) as [->|(c & d & -> & H2)]; [left; reflexivity|]. cbn [obind].
    right. destruct a as [|a0 a].
    + destruct d as [|d0 d]; [eexists; split; [reflexivity|left; reflexivity]|]. destruct H2 as [(_ & H2)|(H2 & H3)]; [discriminate|].
      eexists. split; [reflexivity|right]. split; [simpl; rewrite app_nil_r; exact H2|]. constructor; [exact H3|]. constructor; [discriminate|constructor].
    + destruct H1 as [(H1 & _)|(H1 & Hb)]; [discriminate|]. assert (L := f_equal blen H1). rewrite blen_app in L.
      set (aa := a0 :: a) in *.
      destruct (Nat.eqb (blen d) 0 || Nat.eqb (blen b) (blen d)) eqn:C1.
      { eexists. split; [reflexivity|right]. split; [simpl; rewrite app_nil_r; exact H1|]. constructor; [discriminate|]. constructor; [exact Hb|constructor]. }
      apply orb_false_iff in C1. destruct C1 as (C1 & C2). apply Nat.eqb_neq in C1. apply Nat.eqb_neq in C2.
      assert (Nd : d <> []) by (intros ->; apply C1; reflexivity).
      destruct H2 as [(_ & H2)|(H2 & H3)]; [congruence|]. assert (L2 := f_equal blen H2). rewrite blen_app in L2.
      destruct (Nat.ltb 0 (blen d) && Nat.ltb (blen aa + blen d) (blen t)) eqn:C3.
      { apply andb_true_iff in C3. destruct C3 as (_ & C3). apply Nat.ltb_lt in C3. eexists. split; [reflexivity|right].
        destruct (prefix_cases aa b c d) as [(l & Q1 & Q2)|(l & Q1 & Q2)]; [congruence| |].
        { apply (f_equal blen) in Q1. rewrite blen_app in Q1. lia. }
        assert (Et : t = aa ++ l ++ d). { rewrite <- H2, Q1, app_assoc. reflexivity. }
        assert (Ef : firstn (List.length t - List.length aa - List.length d) (skipn (List.length aa) t) = l).
        { rewrite Et, skipn_app_len. rewrite !app_length.
          replace (List.length aa + (List.length l + List.length d) - List.length aa - List.length d)%nat with (List.length l) by lia.
          rewrite firstn_app, Nat.sub_diag, firstn_all. simpl. apply app_nil_r. }
        assert (Nl : l <> []). { intros ->. rewrite app_nil_r in Q1. rewrite Q1 in L2. lia. }
        rewrite Ef. split; [cbn [concat]; rewrite app_nil_r; symmetry; exact Et|].
        constructor; [discriminate|]. constructor; [exact Nl|]. constructor; [exact Nd|constructor]. }
      destruct (Nat.ltb 0 (blen d) && Nat.ltb (blen t) (blen aa + blen d)) eqn:C4.
      { eexists. split; [reflexivity|right]. split; [simpl; rewrite app_nil_r; exact H2|]. constructor; [exact H3|]. constructor; [exact Nd|constructor]. }
      exfalso. apply andb_false_iff in C3. apply andb_false_iff in C4. rewrite !Nat.ltb_ge in *. lia.
Qed.
Lemma parts_in : forall w ws c, parts w ws -> In c w -> exists v, In v ws /\ In c v.
Proof. intros w ws c (E & _) H. rewrite <- E in H. apply in_concat in H. exact H. Qed.
Lemma parts_no_tab : forall w ws, parts w ws -> ~ In TAB w -> Forall (fun v => ~ In TAB v) ws.
Proof. intros w ws (E & _) H. apply Forall_forall. intros v Hv K. apply H. rewrite <- E. apply in_concat. exists v. auto. Qed.
Lemma split_ok : forall u x k, built x -> t_text k <> [] -> ~ In TAB (t_text k) -> (is_in_class k I_MIXED = true -> ~ In SP (t_text k)) ->
  split_token u x k = Throw regex_error \/
  exists ks, split_token u x k = Ok ks /\ (ks = [] \/ exists ws, parts (t_text k) ws /\ Forall2 (made_from u x I_WORD) ws ks).
Proof.
  intros u x k B N T M. unfold split_token. destruct (split_parts_ok u x k B N M) as [->|(ws & -> & H)]; [left; reflexivity|right]. cbn [obind].
  eexists. split; [reflexivity|]. destruct H as [->|H]; [left; reflexivity|right]. exists ws. split; [exact H|]. apply parts_made. exact (parts_no_tab _ _ H T).
Qed.
(** A mixed word that is not listed has no blank. *)
Lemma mixed_row : forall u t cls, row_applies (shape_rows u I_WORD) t cls -> In I_MIXED cls ->
  ~ split_digits u [44; 46] t /\ (postal_head u t \/ postal_tail u t \/ words u t).
Proof.
  intros u t cls (pre & row & post & E & F & H & C) I. subst cls. unfold shape_rows in E.
  destruct pre as [|r0 pre].
  { injection E as <- _. simpl in I. destruct I as [I|[]]; discriminate. }
  injection E as <- E. assert (ND := Forall_inv F). cbn [fst] in ND. split; [exact ND|]. clear F ND.
  repeat (destruct pre as [|? pre]; [injection E as <- _; cbn [fst snd] in *; try tauto; exfalso; simpl in I;
    try (destruct (blen t) as [|[|[|[|[|[|n]]]]]]); simpl in I; intuition discriminate|injection E as _ E]).
  destruct pre; discriminate.
Qed.
Lemma mixed_no_blank : forall u t, plain_blank u -> postal_head u t \/ postal_tail u t \/ words u t -> ~ In SP t.
Proof.
  intros u t (W & D & L) H K. unfold SP in K. destruct H as [H|[H|H]].
  - destruct H as (a & b & c & -> & Ha & Hb & Hc & _). rewrite !in_app_iff in K. rewrite Forall_forall in *.
    destruct K as [K|[K|K]]; [apply L, Ha; exact K|apply Hb in K; congruence|apply L, Hc; exact K].
  - destruct H as (a & b & c & -> & Ha & Hb & Hc). destruct K as [->|[->|[->|[]]]]; [congruence|auto|destruct Hc; [congruence|auto]].
  - destruct H as (_ & F). rewrite Forall_forall in F. apply F in K. congruence.
Qed.
Lemma carries_tab : forall u x w t, carries u x w t -> ~ In TAB w -> ~ In TAB t.
Proof.
  intros u x w t [(_ & ->)|(_ & a & b & -> & _ & ->)] H; [exact H|]. intros K. apply H. rewrite in_app_iff in *. destruct K as [K|[K|K]]; [auto|discriminate|right; right; exact K].
Qed.
Lemma carries_some : forall u x w t, carries u x w t -> w <> [] -> t <> [].
Proof. intros u x w t [(_ & ->)|(_ & a & b & -> & _ & ->)] H; [exact H|]. destruct a; discriminate. Qed.
Lemma word_ok : forall u x w, built x -> plain_blank u -> ~ In TAB w ->
  word_tokens u x w = Throw regex_error \/ exists ks, word_tokens u x w = Ok ks /\ word_part u x w ks.
Proof.
  intros u x w B PB T. destruct w as [|c0 w0]; [right; exists []; split; [reflexivity|left; auto]|]. unfold word_tokens. remember (c0 :: w0) as w eqn:Ew.
  assert (N : w <> []) by (rewrite Ew; discriminate). clear Ew c0 w0. rewrite token_plain by exact T. cbv zeta.
  pose proof (classify_made u x w I_WORD) as Hm. destruct Hm as (Hc & Hi & Hr). set (k := classify u x (plain_token w) I_WORD) in *.
  assert (One : word_part u x w [k]).
  { right. left. exists k. split; [exact N|]. split; [reflexivity|exact (conj Hc (conj Hi Hr))]. }
  destruct (t_inlex k) eqn:L; [right; exists [k]; auto|].
  destruct (split_ok u x k B) as [->|(ks & -> & H)].
  - exact (carries_some _ _ _ _ Hc N).
  - exact (carries_tab _ _ _ _ Hc T).
  - intros M. unfold is_in_class in M. apply iset_mem_in in M.
    assert (U : unlisted x (plain_token w)).
    { split; [reflexivity|]. intros le Hle. destruct (le_type le) as [|c l] eqn:Q; [reflexivity|]. exfalso.
      destruct (classify_listed u x (plain_token w) I_WORD c) as (K & _); [right; exists le; split; [exact Hle|rewrite Q; left; reflexivity]|].
      fold k in K. congruence. }
    destruct (classify_unlisted u x (plain_token w) I_WORD U) as (_ & (cls & R & I) & _ & Same). fold k in I, Same. apply I in M. cbn [t_text plain_token] in *.
    destruct (mixed_row u w cls R M) as (ND & Sh). rewrite Same by tauto. apply (mixed_no_blank u); assumption.
  - left. reflexivity.
  - right. cbn [obind]. destruct ks as [|k1 ks]; [exists [k]; auto|]. exists (k1 :: ks). split; [reflexivity|]. destruct H as [H|(ws & H1 & H2)]; [discriminate|].
    right. right. exists (t_text k), ws. auto.
Qed.
(** ** Separators *)
Lemma isspace_white : forall c, c_isspace c = true <-> white c.
Proof. intros c. unfold c_isspace, white. simpl. rewrite !orb_true_iff, ?andb_true_iff, ?N.leb_le, ?N.eqb_eq. lia. Qed.
Lemma drop_spec : forall t, exists a, t = a ++ drop_ws t /\ Forall white a /\ forall c, hd_error (drop_ws t) = Some c -> ~ white c.
Proof.
  induction t as [|c t IH]; [exists []; split; [reflexivity|]; split; [constructor|discriminate]|]. cbn [drop_ws]. destruct (c_isspace c) eqn:E.
  - destruct IH as (a & E1 & F & H). exists (c :: a). split; [simpl; f_equal; exact E1|]. split; [constructor; [apply isspace_white; exact E|exact F]|exact H].
  - exists []. split; [reflexivity|]. split; [constructor|]. intros d Hd. injection Hd as <-. intros K. apply isspace_white in K. congruence.
Qed.
Lemma trim_spec : forall w, w <> [] -> trimmed w (t_text (trim_token (plain_token w))) /\ trim_token (plain_token w) = plain_token (t_text (trim_token (plain_token w))).
Proof.
  intros w N. unfold trim_token. cbn [t_text plain_token]. destruct w as [|c0 w0]; [congruence|]. remember (c0 :: w0) as w eqn:Ew. clear Ew N.
  destruct (drop_spec w) as (a & E1 & F1 & H1). set (v := drop_ws w) in *. destruct (drop_spec (rev v)) as (b & E2 & F2 & H2).
  assert (Ev : v = rev (drop_ws (rev v)) ++ rev b). { rewrite <- rev_app_distr, <- E2, rev_involutive. reflexivity. }
  assert (Fb : Forall white (rev b)) by (apply Forall_rev; exact F2).
  destruct (rev (drop_ws (rev v))) as [|c m] eqn:Em.
  - split; [|reflexivity]. exists a, (rev b). split; [exact F1|]. split; [exact Fb|left]. split; [rewrite E1 at 1; rewrite Ev; reflexivity|reflexivity].
  - split; [|reflexivity]. exists a, (rev b). split; [exact F1|]. split; [exact Fb|right]. cbn [t_text set_text]. split; [rewrite E1 at 1; rewrite Ev at 1; reflexivity|].
    split; [discriminate|]. split.
    + intros d Hd. apply H1. rewrite Ev. exact Hd.
    + intros d Hd. apply H2. rewrite <- Em, rev_involutive in Hd. exact Hd.
Qed.
Lemma sep_ok_tokens : forall u x w, ~ In TAB w -> sep_part u x w (sep_tokens u x w).
Proof.
  intros u x w T. destruct w as [|c0 w0]; [left; auto|right]. unfold sep_tokens. remember (c0 :: w0) as w eqn:Ew.
  assert (N : w <> []) by (rewrite Ew; discriminate). clear Ew c0 w0. rewrite token_plain by exact T. destruct (trim_spec w N) as (A & B).
  exists (t_text (trim_token (plain_token w))). eexists. split; [exact N|]. split; [exact A|]. split; [reflexivity|]. rewrite B at 2. apply classify_made.
Qed.
Lemma pieces_tokens : forall u x ps, built x -> plain_blank u -> Forall (fun p => ~ In TAB (pc_tok p) /\ ~ In TAB (pc_sep p)) ps ->
  piece_tokens u x ps = Throw regex_error \/
  exists groups, piece_tokens u x ps = Ok (concat groups) /\ Forall2 (tokens_of u x) ps groups.
Proof.
  intros u x ps B PB F. induction F as [|p ps (T1 & T2) F IH]; [right; exists []; split; [reflexivity|constructor]|]. cbn [piece_tokens].
  destruct (word_ok u x (pc_tok p) B PB T1) as [->|(ks & -> & Hk)]; [left; reflexivity|]. cbn [obind].
  destruct IH as [->|(groups & -> & Hg)]; [left; reflexivity|right]. cbn [obind]. exists ((ks ++ sep_tokens u x (pc_sep p)) :: groups).
  split; [cbn [concat]; rewrite <- app_assoc; reflexivity|]. constructor; [|exact Hg]. eexists. eexists. split; [reflexivity|]. split; [exact Hk|]. apply sep_ok_tokens. exact T2.
Qed.
Lemma pieces_no_tab : forall u ps left t, ~ In TAB t -> t = concat (map taken ps) ++ left -> Forall (in_order u) ps ->
  Forall (fun p => ~ In TAB (pc_tok p) /\ ~ In TAB (pc_sep p)) ps.
Proof.
  intros u ps left t T E F. rewrite Forall_forall in *. intros p Hp. destruct (F p Hp) as (b & Eb & _).
  assert (K : forall c, In c (pc_all p) -> In c t).
  { intros c Hc. rewrite E. apply in_app_iff. left. apply in_concat. exists (taken p). split; [apply in_map; exact Hp|]. unfold taken. apply in_app_iff. auto. }
  split; intros Q; apply T, K; rewrite Eb, !in_app_iff; auto.
Qed.
Lemma tokens_made : forall e x str, built x -> plain_blank (e_uni e) -> ~ In TAB (search_text e x str) -> blank_lines (e_uni e) (search_text e x str) ->
  all_tokens e x str = Throw regex_error \/
  exists ps groups, get_pieces e x str = Ok ps /\ all_tokens e x str = Ok (concat groups) /\ Forall2 (tokens_of (e_uni e) x) ps groups.
Proof.
  intros e x str B PB T BL. unfold all_tokens. destruct (pieces_end e x str B BL) as [->|(ps & E & _)]; [left; reflexivity|]. rewrite E. cbn [obind].
  destruct (pieces_order e x str ps B E) as (left & El & F).
  assert (F' : Forall (in_order (e_uni e)) ps). { eapply Forall_impl; [|exact F]. intros p (K & _). exact K. }
  destruct (pieces_tokens (e_uni e) x ps B PB (pieces_no_tab _ _ _ _ T El F')) as [->|(groups & Eg & Hg)]; [left; reflexivity|right].
  exists ps, groups. auto.
Qed.
(** No undefined behaviour, whatever the text. *)
Lemma tokens_defined : forall e x str, built x -> blank_lines (e_uni e) (search_text e x str) -> all_tokens e x str <> UB.
Proof.
  intros e x str B BL. unfold all_tokens. destruct (pieces_end e x str B BL) as [->|(ps & E & _)]; [discriminate|]. rewrite E. cbn [obind]. clear E.
  assert (G : forall pat t, two_groups (e_uni e) pat t <> UB). { intros pat t. unfold two_groups. destruct (parse_re pat); discriminate. }
  assert (W : forall w, word_tokens (e_uni e) x w <> UB).
  { intros [|c w]; [discriminate|]. unfold word_tokens. cbv zeta. destruct (t_inlex _); [discriminate|]. unfold split_token, split_parts.
    destruct (is_in_class _ I_MIXED); [discriminate|]. destruct (two_groups _ _ _) as [(a & b)| |] eqn:E1; [|discriminate|exfalso; apply (G _ _ E1)]. cbn [obind].
    destruct (two_groups _ (s2t "(.+)(" ++ _) _) as [(a' & b')| |] eqn:E2; [|discriminate|exfalso; apply (G _ _ E2)]. cbn [obind].
    destruct a; [destruct b'; discriminate|]. repeat match goal with |- context [if ?c then _ else _] => destruct c end; discriminate. }
  induction ps as [|p ps IH]; [discriminate|]. cbn [piece_tokens]. destruct (word_tokens (e_uni e) x (pc_tok p)) eqn:E1; [|discriminate|exfalso; apply (W _ E1)].
  cbn [obind]. destruct (piece_tokens (e_uni e) x ps); [discriminate|discriminate|congruence].
Qed.
