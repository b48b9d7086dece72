(** Which characters of an address are in no token. *)
From Coq Require Import String List PeanoNat NArith Bool Lia.
From Verif Require Import Base_model Class_model Uni_model Token_model Lexicon_model Tokenizer_model Sample_model
  Lexicon_spec Tokenizer_spec Split_spec TokScan_proofs TokRead_proofs TokPieces_proofs TokSplit_proofs TokKeep_proofs TokAlt_proofs TokExample_proofs Split_proofs SplitEx_proofs Address_proofs WrapperEx_proofs AddressEx_proofs.
Import ListNotations.
Local Open Scope N_scope.

Lemma word_holds : forall u x p ks c, exact_tokens u x p ks -> In c (pc_tok p) -> c <> 44 -> exists k, In k ks /\ In c (t_text k).
Proof.
  intros u x p ks c (k1 & k2 & -> & A & _) H N.
  assert (G : exists k, In k k1 /\ In c (t_text k)).
  { destruct A as [(E & ->)|[(Nw & L & k & -> & (M & _))|(Nw & U & cls & w1 & ws & R & C & Sp & [(_ & k & -> & (M & _))|(_ & F)])]].
    - rewrite E in H. destruct H.
    - exists k. split; [left; reflexivity|]. exact (carries_in u x _ _ c M H N).
    - exists k. split; [left; reflexivity|]. exact (carries_in u x _ _ c M H N).
    - apply (made_in u x ws k1 c F); [|exact N]. pose proof (carries_in u x _ _ c C H N) as H'.
      assert (Q : concat ws = w1).
      { destruct Sp as [(_ & M)|(_ & M)].
        - destruct M as [a d (E & _)|d a (E & _)|]; subst; cbn [concat]; rewrite ?app_nil_r; reflexivity.
        - destruct M as [| a b (E & _)|a d _ (E & _)|a b (E & _)|a m d _ (E & _)|a b v d _ (E & _)]; subst; cbn [concat]; rewrite ?app_nil_r; reflexivity. }
      rewrite <- Q in H'. apply in_concat in H'. exact H'. }
  destruct G as (k & I & K). exists k. split; [apply in_or_app; left; exact I|exact K].
Qed.
Lemma group_of : forall u x ps gs p, Forall2 (exact_tokens u x) ps gs -> In p ps -> exists g, In g gs /\ exact_tokens u x p g.
Proof.
  intros u x ps gs p F H. induction F as [|q g ps gs T F IH]; [destruct H|]. destruct H as [->|H].
  - exists g. split; [left; reflexivity|exact T].
  - destruct (IH H) as (g' & H1 & H2). exists g'. split; [right; exact H1|exact H2].
Qed.
Lemma not_lost : forall e x str ks, built x -> simple_words x -> word_tables (e_uni e) -> tabs_apart (e_uni e) x ->
  let t := search_text e x str in blank_lines (e_uni e) t -> all_tokens e x str = Ok ks ->
  exists ps left, t = concat (map taken ps) ++ left /\ well_read (e_uni e) x ps left /\ (left = [] \/ ~ readable (e_uni e) x left) /\
    forall c, In c t -> (exists k, In k ks /\ In c (t_text k)) \/ c = 44 \/ u_space (e_uni e) c = true \/ In c left \/
      exists p, In p ps /\ (In c (pc_skip p) \/ In c (pc_sep p)).
Proof.
  intros e x str ks B SW WT (TT & TF) t BL H. destruct (tokens_exact e x str B SW TF WT TT BL) as (ps & gs & Ep & Ek & F). rewrite H in Ek. injection Ek as ->.
  destruct (pieces_read e x str ps B SW BL Ep) as (left & El & W & L). exists ps, left. split; [exact El|]. split; [exact W|]. split; [exact L|].
  intros c Hc. fold t in El. rewrite El in Hc. apply in_app_or in Hc. destruct Hc as [Hc|Hc]; [|right; right; right; left; exact Hc].
  apply in_concat in Hc. destruct Hc as (w & Hw & Hcw). apply in_map_iff in Hw. destruct Hw as (p & <- & Hp). unfold taken in Hcw.
  apply in_app_or in Hcw. destruct Hcw as [Hs|Hcw]; [right; right; right; right; exists p; auto|].
  assert (Ord : in_order (e_uni e) p). { destruct (pieces_order e x str ps B Ep) as (l' & _ & Fo). rewrite Forall_forall in Fo. apply (Fo p Hp). }
  destruct Ord as (b & Eb & Bb). rewrite Eb, !in_app_iff in Hcw. destruct Hcw as [K|[K|K]].
  - right. right. left. unfold blanks in Bb. rewrite Forall_forall in Bb. apply Bb. exact K.
  - destruct (N.eq_dec c 44) as [->|N]; [right; left; reflexivity|]. left. destruct (group_of _ _ _ _ _ F Hp) as (g & Hg & Q).
    destruct (word_holds _ _ _ _ c Q K N) as (k & Hk & Hck). exists k. split; [|exact Hck]. apply in_concat. exists g. auto.
  - right. right. right. right. exists p. auto.
Qed.
Lemma letters_tabs : forall e x str ks, built x -> simple_words x -> word_tables (e_uni e) -> tabs_apart (e_uni e) x ->
  blank_lines (e_uni e) (search_text e x str) -> clear_text (e_uni e) (search_text e x str) -> starts (e_uni e) (search_text e x str) ->
  all_tokens e x str = Ok ks -> forall c, In c (search_text e x str) -> alnum (e_uni e) c -> exists k, In k ks /\ In c (t_text k).
Proof.
  intros e x str ks B SW WT NT BL C S H c Hc Ha. destruct (not_lost e x str ks B SW WT NT BL H) as (ps & left & El & W & L & K).
  destruct (all_read (e_uni e) x ps left _ El W L C (or_intror S)) as (-> & Fs).
  assert (Cc : ~ sep_char (e_uni e) c /\ ~ dash (e_uni e) c /\ c <> 44). { destruct (C c Hc) as [(_ & Q)|(_ & Q)]; [exact Q|contradiction]. }
  destruct Cc as (N1 & N2 & N3). destruct (K c Hc) as [Q|[Q|[Q|[[]|(p & Hp & [Q|Q])]]]]; [exact Q|contradiction| | |].
  - exfalso. apply N1. right. right. right. left. exact Q.
  - exfalso. rewrite Forall_forall in Fs. rewrite (Fs p Hp) in Q. destruct Q.
  - exfalso. destruct (seps_in (e_uni e) x ps [] p c W Hp Q); contradiction.
Qed.
Definition tab_str : text := s2t "12" ++ [9] ++ s2t "PO BOX 7".
Lemma tab_str_clear : clear_text ascii_uni (search_text ascii_env w_x tab_str).
Proof.
  intros c H. set (u := ascii_uni).
  assert (G : forall d, In d (search_text ascii_env w_x tab_str) ->
    (u_alpha u d || u_digit u d = true /\ u_space u d || u_punct u d = false /\ u_fold u 45 <> u_fold u d /\ u_fold u 38 <> u_fold u d /\ u_fold u 124 <> u_fold u d /\ u_fold u 0x2014 <> u_fold u d /\ d <> 44) \/
    (u_space u d || u_punct u d = true /\ u_alpha u d || u_digit u d = false)).
  { vm_compute. intros d K. repeat (destruct K as [<-|K]; [first [left; repeat split; discriminate | right; repeat split]|]). destruct K. }
  unfold alnum, sep_char, dash, like. destruct (G c H) as [(A & B & C1 & C2 & C3 & C4 & C5)|(A & B)].
  - left. apply orb_true_iff in A. apply orb_false_iff in B. destruct B as (B1 & B2). split; [exact A|]. split; [|split; [exact C4|exact C5]].
    rewrite B1, B2. intuition discriminate.
  - right. apply orb_true_iff in A. apply orb_false_iff in B. destruct B as (B1 & B2). rewrite B1, B2. split; [tauto|intuition discriminate].
Qed.
Lemma tab_keep_ex : built w_x /\ simple_words w_x /\ word_tables ascii_uni /\ tabs_apart ascii_uni w_x /\ In 9 (search_text ascii_env w_x tab_str) /\
  blank_lines ascii_uni (search_text ascii_env w_x tab_str) /\ clear_text ascii_uni (search_text ascii_env w_x tab_str) /\ starts ascii_uni (search_text ascii_env w_x tab_str) /\
  exists ks, all_tokens ascii_env w_x tab_str = Ok ks /\ map t_text ks = [s2t "12"; []; s2t "PO BOX"; s2t " "; s2t "7"].
Proof.
  destruct w_setting as (A & B & _ & C & _ & _ & D). do 4 (split; [assumption|]).
  split; [vm_compute; right; right; left; reflexivity|]. split; [apply ascii_lines; absent|]. split; [exact tab_str_clear|]. split.
  - exists [], 49, ([50; 9] ++ s2t "PO BOX 7"). split; [vm_compute; reflexivity|]. split; [constructor|]. right. reflexivity.
  - eexists. split; vm_compute; reflexivity.
Qed.
(** Text in no token: nothing is read behind the first word. *)
Definition stuck_str : text := s2t "12 " ++ [0xA7; 32] ++ s2t "MAIN".
Lemma lost_ex : built w_x /\ simple_words w_x /\ word_tables ascii_uni /\ tabs_apart ascii_uni w_x /\ blank_lines ascii_uni (search_text ascii_env w_x stuck_str) /\
  exists ks, all_tokens ascii_env w_x stuck_str = Ok ks /\ map t_text ks = [s2t "12"; s2t " "].
Proof.
  destruct w_setting as (A & B & _ & C & _ & _ & D). do 4 (split; [assumption|]).
  split; [apply ascii_lines; absent|]. eexists. split; vm_compute; reflexivity.
Qed.

(** ** Empty tokens *)
Lemma words_empty_front : forall t ws, words_of t ws -> hd_error t = Some 32 -> In [] ws.
Proof.
  intros t ws H E. destruct H as [w N|w b t ws N Nb Fb Ht W].
  - destruct w as [|c w]; [discriminate|]. injection E as ->. exfalso. apply N. left. reflexivity.
  - destruct w as [|c w]; [left; reflexivity|]. cbn in E. injection E as ->. exfalso. apply N. left. reflexivity.
Qed.
Lemma words_empty_back : forall t ws, words_of t ws -> hd_error (rev t) = Some 32 -> In [] ws.
Proof.
  intros t ws H. induction H as [w N|w b t ws N Nb Fb Ht W IH]; intros E.
  - destruct (rev w) as [|c r] eqn:Er; [discriminate|]. injection E as ->. exfalso. apply N. apply in_rev. rewrite Er. left. reflexivity.
  - right. destruct t as [|c t].
    + rewrite (words_unique _ _ W). left. reflexivity.
    + apply IH. rewrite !rev_app_distr in E. destruct (rev (c :: t)) as [|d r] eqn:Er; [cbn [rev] in Er; destruct (rev t); discriminate|]. exact E.
Qed.
Lemma all_split : forall u x ks bs a p, chosen u x ks bs a -> Forall (eq true) bs -> In p ks ->
  (~ phrase p /\ In p a) \/ (phrase p /\ exists ws new, words_of (t_text p) ws /\ Forall2 (fresh u x) ws new /\ forall k, In k new -> In k a).
Proof.
  intros u x ks bs a p H. induction H as [|k ks bs a Np H IH|k ks bs a P H IH|k ks bs a ws new P W F H IH]; intros T K.
  - destruct K.
  - destruct K as [->|K]; [left; split; [exact Np|left; reflexivity]|]. destruct (IH T K) as [(Q & I)|(Q & ws & new & W & F & I)].
    + left. split; [exact Q|right; exact I].
    + right. split; [exact Q|]. exists ws, new. split; [exact W|]. split; [exact F|]. intros z Z. right. apply I. exact Z.
  - inversion T; discriminate.
  - assert (T2 := Forall_inv_tail T). destruct K as [->|K].
    + right. split; [exact P|]. exists ws, new. split; [exact W|]. split; [exact F|]. intros z Z. apply in_or_app. left. exact Z.
    + destruct (IH T2 K) as [(Q & I)|(Q & ws' & new' & W' & F' & I)].
      * left. split; [exact Q|apply in_or_app; right; exact I].
      * right. split; [exact Q|]. exists ws', new'. split; [exact W'|]. split; [exact F'|]. intros z Z. apply in_or_app. right. apply I. exact Z.
Qed.
Lemma phrase_in : forall ks p q, filter is_phrase ks = p :: q -> In p ks /\ phrase p.
Proof. intros ks p q E. assert (K : In p (filter is_phrase ks)) by (rewrite E; left; reflexivity). apply filter_In in K. rewrite phrase_iff in K. exact K. Qed.
Lemma phrase_count : forall ks p, In p ks -> phrase p -> (0 < phrases ks)%nat.
Proof.
  intros ks p I P. unfold phrases. apply phrase_iff in P. assert (K : In p (filter is_phrase ks)) by (apply filter_In; auto). destruct (filter is_phrase ks); [destruct K|cbn; lia].
Qed.
Lemma empty_exact : forall u x ks alts, Forall (fun p => ~ In 9 (t_text p)) ks -> get_alt_tokens u x ks = Ok alts ->
  ((exists a k, In a alts /\ In k a /\ t_text k = []) <->
   (exists p, In p ks /\ phrase p) /\ exists p, In p ks /\ (t_text p = [] \/ hd_error (t_text p) = Some 32 \/ hd_error (rev (t_text p)) = Some 32)).
Proof.
  intros u x ks alts NT H. assert (L : (phrases ks <= 31)%nat).
  { destruct (Nat.le_gt_cases (phrases ks) 31) as [L|L]; [exact L|]. rewrite (too_many u x ks L) in H. discriminate. }
  destruct (alternatives u x ks L) as (bss & alts' & E & F & _ & B & Len). rewrite H in E. injection E as <-. split.
  - intros (a & k & Ia & Ik & T). split.
    + destruct (filter is_phrase ks) as [|p q] eqn:Ef; [|exists p; apply phrase_in with (q := q); exact Ef].
      exfalso. unfold phrases in Len. rewrite Ef in Len. cbn in Len. destruct alts; [destruct Ia|discriminate].
    + assert (D : forall p, {t_text p = [] \/ hd_error (t_text p) = Some 32 \/ hd_error (rev (t_text p)) = Some 32} + {~ (t_text p = [] \/ hd_error (t_text p) = Some 32 \/ hd_error (rev (t_text p)) = Some 32)}).
      { intros p. assert (O : forall t : text, {hd_error t = Some 32} + {hd_error t <> Some 32}) by (intros [|c t]; [right; discriminate|destruct (N.eq_dec c 32) as [->|Nc]; [left; reflexivity|right; cbn; congruence]]).
        destruct (list_eq_dec N.eq_dec (t_text p) []) as [?|?]; [left; auto|]. destruct (O (t_text p)); [left; auto|]. destruct (O (rev (t_text p))); [left; auto|right; tauto]. }
      destruct (Exists_dec (fun p => t_text p = [] \/ hd_error (t_text p) = Some 32 \/ hd_error (rev (t_text p)) = Some 32) ks D) as [Y|Y]; [apply Exists_exists in Y; exact Y|].
      exfalso. apply (alt_no_empty u x ks alts a k H Ia Ik); [|exact T]. intros p Ip. rewrite Forall_forall in NT. rewrite <- Forall_Exists_neg in Y. rewrite Forall_forall in Y.
      specialize (Y p Ip). specialize (NT p Ip). tauto.
  - intros ((q & Iq & Pq) & p & Ip & Q). set (bs := repeat true (phrases ks)).
    assert (Ib : In bs bss). { apply B. split; [apply repeat_length|]. pose proof (phrase_count ks q Iq Pq). unfold bs. destruct (phrases ks); [lia|left; reflexivity]. }
    assert (C : exists a, In a alts /\ chosen u x ks bs a).
    { clear - F Ib. induction F as [|b a bss alts C F IH]; [destruct Ib|]. destruct Ib as [->|Ib]; [exists a; split; [left; reflexivity|exact C]|]. destruct (IH Ib) as (a' & I & C'). exists a'. split; [right; exact I|exact C']. }
    destruct C as (a & Ia & C). assert (T : Forall (eq true) bs) by (unfold bs; clear; induction (phrases ks); constructor; auto).
    destruct (all_split u x ks bs a p C T Ip) as [(Np & I)|(P & ws & new & W & Fr & I)].
    + destruct Q as [Q|[Q|Q]].
      * exists a, p. auto.
      * exfalso. apply Np. unfold phrase. destruct (t_text p) as [|c t]; [discriminate|]. injection Q as ->. left. reflexivity.
      * exfalso. apply Np. unfold phrase. apply in_rev. destruct (rev (t_text p)) as [|c t]; [discriminate|]. injection Q as ->. left. reflexivity.
    + assert (Z : In [] ws). { destruct Q as [Q|[Q|Q]]; [unfold phrase in P; rewrite Q in P; destruct P|exact (words_empty_front _ _ W Q)|exact (words_empty_back _ _ W Q)]. }
      assert (K : exists k, In k new /\ fresh u x [] k).
      { clear - Fr Z. induction Fr as [|w k ws new G Fr IH]; [destruct Z|]. destruct Z as [->|Z]; [exists k; split; [left; reflexivity|exact G]|]. destruct (IH Z) as (k' & J & G'). exists k'. split; [right; exact J|exact G']. }
      destruct K as (k & J & G). exists a, k. split; [exact Ia|]. split; [apply I; exact J|]. unfold fresh in G. rewrite token_plain in G by (intros []). subst k.
      destruct (classify_made u x [] I_WORD) as (R & _). destruct R as [(_ & ->)|(_ & v & b & K & _)]; [reflexivity|]. destruct v; discriminate K.
Qed.
Lemma empty_ex : exists ks alts, get_tokens ascii_env (mkTz w_x []) (s2t "12 MAIN") = Ok ks /\ Forall (fun p => ~ In 9 (t_text p)) ks /\
  get_alt_tokens ascii_uni w_x ks = Ok alts /\ map t_text ks = [s2t "12"; s2t " "; s2t "MAIN"] /\ map (map t_text) alts = [[s2t "12"; []; []; s2t "MAIN"]].
Proof.
  eexists. eexists. split; [vm_compute; reflexivity|]. split; [|split; [vm_compute; reflexivity|split; vm_compute; reflexivity]].
  repeat (constructor; [absent|]). constructor.
Qed.
