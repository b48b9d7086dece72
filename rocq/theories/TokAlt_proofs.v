(** Filters and alternatives. *)
From Coq Require Import String List NArith Bool Lia Arith.
From Verif Require Import Base_model Class_model Uni_model Token_model Lexicon_model Tokenizer_model Lexicon_spec Tokenizer_spec
  Search_proofs Class_proofs Enum_proofs Classify_proofs TokSplit_proofs.
Import ListNotations.
Local Open Scope N_scope.

(** ** Filters *)
Lemma caught_iff : forall f k, is_in_class_set k f = true <-> caught f k.
Proof.
  intros f k. unfold is_in_class_set, caught. rewrite existsb_exists. split; intros (c & A & B); exists c.
  - apply iset_mem_in in B. auto.
  - split; [exact B|apply iset_mem_in; exact A].
Qed.
Lemma filter_sifted : forall f ks, sifted (caught f) ks (apply_filter f ks).
Proof.
  intros f. unfold apply_filter. induction ks as [|k ks IH]; [constructor|]. cbn [filter]. destruct (is_in_class_set k f) eqn:E; cbn [negb].
  - apply sift_drop; [apply caught_iff; exact E|exact IH].
  - apply sift_keep; [|exact IH]. intros K. apply caught_iff in K. congruence.
Qed.
Lemma sifted_unique : forall P a b c, sifted P a b -> sifted P a c -> b = c.
Proof.
  intros P a b c H. revert c. induction H as [|k a b N H IH|k a b N H IH]; intros c K; inversion K; subst; try contradiction; try reflexivity.
  - f_equal. apply IH. assumption.
  - apply IH. assumption.
Qed.
Lemma filter_again : forall f ks, apply_filter f (apply_filter f ks) = apply_filter f ks.
Proof.
  intros f ks. unfold apply_filter. induction ks as [|k ks IH]; [reflexivity|]. cbn [filter]. destruct (is_in_class_set k f) eqn:E; cbn [negb]; [exact IH|].
  cbn [filter]. rewrite E. cbn [negb]. f_equal. exact IH.
Qed.
Lemma tokens_sifted : forall e z str ks, get_tokens e z str = Ok ks <-> exists all, all_tokens e (z_lex z) str = Ok all /\ sifted (caught (z_filter z)) all ks.
Proof.
  intros e z str ks. unfold get_tokens. destruct (all_tokens e (z_lex z) str) as [all| |]; cbn [obind].
  - split.
    + intros H. injection H as <-. exists all. split; [reflexivity|apply filter_sifted].
    + intros (all' & E & H). injection E as <-. f_equal. apply (sifted_unique _ _ _ _ (filter_sifted _ _) H).
  - split; [discriminate|intros (all & E & _); discriminate].
  - split; [discriminate|intros (all & E & _); discriminate].
Qed.
Lemma filter_same : forall f g ks, (forall c, In c f <-> In c g) -> apply_filter f ks = apply_filter g ks.
Proof.
  intros f g ks H. apply (sifted_unique (caught f) ks); [apply filter_sifted|].
  assert (S := filter_sifted g ks). induction S as [|k a b N S IH|k a b N S IH]; [constructor|apply sift_keep|apply sift_drop]; try exact IH;
  unfold caught in *; setoid_rewrite H; exact N.
Qed.
Lemma in_eqb_iff : forall a b, in_eqb a b = true <-> a = b.
Proof. intros a b. destruct a, b; split; intros H; try reflexivity; try discriminate H. Qed.
Lemma intype_dec : forall a b : intype, {a = b} + {a <> b}.
Proof. decide equality. Qed.
Lemma edit_in : forall z o c, In c (z_filter (edit_filter z o)) <-> puts o c \/ (In c (z_filter z) /\ ~ takes o c).
Proof.
  intros z o c. destruct o as [d|d| |s]; cbn [edit_filter add_filter remove_filter clear_filter set_filter z_filter puts takes].
  - rewrite iset_insert_in. intuition congruence.
  - rewrite filter_In, negb_true_iff. split.
    + intros (H & K). right. split; [exact H|]. intros E. subst. assert (in_eqb c c = true) by (apply in_eqb_iff; reflexivity). congruence.
    + intros [[]|(H & K)]. split; [exact H|]. destruct (in_eqb c d) eqn:E; [|reflexivity]. apply in_eqb_iff in E. congruence.
  - simpl. intuition.
  - split; [auto|]. intros [H|(_ & H)]; [exact H|]. destruct (in_dec intype_dec c s); [assumption|contradiction].
Qed.
Lemma edits_in : forall h z c, In c (z_filter (fold_left edit_filter h z)) <-> filtered (z_filter z) h c.
Proof.
  induction h as [|o h IH]; intros z c; cbn [fold_left].
  - split; [intros H; right; split; [exact H|constructor]|]. intros [(h1 & o & h2 & E & _)|(H & _)]; [destruct h1; discriminate|exact H].
  - rewrite IH. unfold filtered. rewrite edit_in. split.
    + intros [(h1 & p & h2 & -> & P & F)|([H|(H & N)] & F)].
      * left. exists (o :: h1), p, h2. auto.
      * left. exists [], o, h. auto.
      * right. split; [exact H|]. constructor; assumption.
    + intros [(h1 & p & h2 & E & P & F)|(H & F)].
      * destruct h1 as [|q h1]; injection E as <- E; subst; [right; split; [left; exact P|exact F]|left; exists h1, p, h2; auto].
      * inversion F; subst. right. split; [right; auto|assumption].
Qed.

(** ** Words *)
Lemma split_words : forall t, words_of t (split_blanks t).
Proof.
  induction t as [|c t IH]; [apply words_one; intros []|]. cbn [split_blanks]. destruct (c =? SP) eqn:E.
  - apply N.eqb_eq in E. subst c. destruct t as [|d t].
    + apply (words_more [] [SP] [] [[]]); [intros []|discriminate|constructor; [reflexivity|constructor]|discriminate|exact IH].
    + destruct (d =? SP) eqn:D.
      * apply N.eqb_eq in D. subst d. inversion IH as [w H|w b t' ws Nw Nb Fb Ht W E1]; subst.
        -- exfalso. apply H. left. reflexivity.
        -- destruct w as [|w0 w]; [|exfalso; injection E1 as E1 _; apply Nw; left; exact E1]. simpl in E1.
           apply (words_more [] (SP :: b) t' ws); [intros []|discriminate| |exact Ht|exact W]. constructor; [reflexivity|exact Fb].
      * apply (words_more [] [SP] (d :: t)); [intros []|discriminate|constructor; [reflexivity|constructor]| |exact IH].
        intros K. injection K as K. apply N.eqb_neq in D. apply D. exact K.
  - apply N.eqb_neq in E. inversion IH as [w H E1 E2|w b t' ws Nw Nb Fb Ht W E1 E2]; subst.
    + apply words_one. intros [K|K]; [apply E; exact K|exact (H K)].
    + change (c :: w ++ b ++ t') with ((c :: w) ++ b ++ t'). apply words_more; try assumption. intros [K|K]; [apply E; exact K|exact (Nw K)].
Qed.
Lemma phrase_iff : forall k, is_phrase k = true <-> phrase k.
Proof.
  intros k. unfold is_phrase, phrase. set (t := t_text k). assert (W := split_words t). split.
  - intros H. inversion W as [w Hw E1 E2|w b t' ws Nw Nb Fb Ht W' E1 E2].
    + rewrite <- E2 in H. discriminate.
    + rewrite !in_app_iff. right. left. destruct b as [|c b]; [congruence|]. inversion Fb; subst. left. reflexivity.
  - intros H. inversion W as [w Hw E1 E2|w b t' ws Nw Nb Fb Ht W' E1 E2]; [contradiction|]. destruct ws; [inversion W'|reflexivity].
Qed.
(** ** Alternatives *)
Fixpoint bits (i n : N) (m : nat) : list bool := match m with O => [] | S m' => N.testbit i n :: bits i (n + 1) m' end.
Lemma alt_chosen : forall u x i ks n, chosen u x ks (bits i n (phrases ks)) (alt_one u x i n ks).
Proof.
  intros u x i. unfold phrases. induction ks as [|k ks IH]; intros n; [constructor|]. cbn [alt_one filter]. destruct (is_phrase k) eqn:E.
  - apply phrase_iff in E. cbn [List.length bits].
    assert (T : N.testbit i n = negb ((i / 2 ^ n) mod 2 =? 0)).
    { rewrite N.testbit_eqb. assert (B := N.mod_lt (i / 2 ^ n) 2 ltac:(lia)). destruct ((i / 2 ^ n) mod 2) as [|[p|p|]]; try reflexivity; lia. }
    rewrite T. destruct ((i / 2 ^ n) mod 2 =? 0); cbn [negb app].
    + apply chosen_keep; [exact E|apply IH].
    + apply (chosen_split u x k ks _ _ (split_blanks (t_text k))); [exact E|apply split_words| |apply IH].
      induction (split_blanks (t_text k)); constructor; [reflexivity|assumption].
  - apply chosen_word; [|apply IH]. intros K. apply phrase_iff in K. congruence.
Qed.
Fixpoint val (bs : list bool) : N := match bs with [] => 0 | b :: bs' => N.b2n b + 2 * val bs' end.
Lemma val_bound : forall bs, val bs < 2 ^ N.of_nat (List.length bs).
Proof.
  induction bs as [|b bs IH]; [reflexivity|]. cbn [val List.length]. rewrite Nat2N.inj_succ, N.pow_succ_r'. destruct b; cbn [N.b2n]; lia.
Qed.
Lemma val_pos : forall bs, In true bs <-> 0 < val bs.
Proof.
  induction bs as [|b bs IH]; cbn [val]; [split; [intros []|lia]|]. destruct b; cbn [N.b2n].
  - split; [lia|intros _; left; reflexivity].
  - split; [intros [K|K]; [discriminate|apply IH in K; lia]|intros K; right; apply IH; lia].
Qed.
Lemma bits_shift : forall m i n, bits i (n + 1) m = bits (i / 2) n m.
Proof.
  induction m as [|m IH]; intros i n; [reflexivity|]. cbn [bits]. rewrite IH. f_equal.
  change (i / 2) with (i / 2 ^ 1). rewrite <- N.shiftr_div_pow2, N.shiftr_spec by lia. reflexivity.
Qed.
Lemma bits_val : forall bs, bits (val bs) 0 (List.length bs) = bs.
Proof.
  induction bs as [|b bs IH]; [reflexivity|]. cbn [List.length bits val]. f_equal.
  - rewrite N.add_comm. apply N.testbit_0_r.
  - rewrite bits_shift. replace ((N.b2n b + 2 * val bs) / 2) with (val bs); [exact IH|]. destruct b; cbn [N.b2n].
    + rewrite N.add_comm, N.mul_comm, N.div_add_l by lia. change (1 / 2) with 0. lia.
    + rewrite N.add_0_l, N.mul_comm, N.div_mul by lia. reflexivity.
Qed.
Lemma bits_length : forall m i n, List.length (bits i n m) = m.
Proof. induction m as [|m IH]; intros i n; [reflexivity|]. cbn [bits List.length]. rewrite IH. reflexivity. Qed.
Lemma val_bits : forall m i, i < 2 ^ N.of_nat m -> val (bits i 0 m) = i.
Proof.
  induction m as [|m IH]; intros i H; [simpl in *; lia|]. cbn [bits val]. rewrite bits_shift, IH.
  - rewrite N.bit0_odd. assert (D := N.div2_odd i). rewrite N.div2_div in D. lia.
  - rewrite Nat2N.inj_succ, N.pow_succ_r' in H. apply N.div_lt_upper_bound; lia.
Qed.

Lemma bits_inj : forall m i j, i < 2 ^ N.of_nat m -> j < 2 ^ N.of_nat m -> bits i 0 m = bits j 0 m -> i = j.
Proof. intros m i j Hi Hj H. rewrite <- (val_bits m i Hi), <- (val_bits m j Hj), H. reflexivity. Qed.
Lemma NoDup_map_in : forall A B (f : A -> B) l, (forall a b, In a l -> In b l -> f a = f b -> a = b) -> NoDup l -> NoDup (map f l).
Proof.
  intros A B f l. induction l as [|a l IH]; intros H N; [constructor|]. inversion N as [|? ? N1 N2]; subst. cbn [map]. constructor.
  - intros K. apply in_map_iff in K. destruct K as (b & E & Hb). apply N1. rewrite <- (H b a); [exact Hb|right; exact Hb|left; reflexivity|exact E].
  - apply IH; [|exact N2]. intros b c Hb Hc. apply H; right; assumption.
Qed.
Lemma count_up_nodup : forall n a, NoDup (count_up n a).
Proof.
  induction n as [|n IH]; intros a; [constructor|]. cbn [count_up]. constructor; [|apply IH]. rewrite count_up_In. lia.
Qed.
Lemma phrases_count : forall ks, phrases ks = List.length (filter is_phrase ks).
Proof. reflexivity. Qed.
(** Exactly one alternative for every non-empty choice. *)
Lemma alternatives : forall u x ks, (phrases ks <= 31)%nat -> exists bss alts, get_alt_tokens u x ks = Ok alts /\ Forall2 (chosen u x ks) bss alts /\ NoDup bss /\
  (forall bs, In bs bss <-> List.length bs = phrases ks /\ In true bs) /\ N.of_nat (List.length alts) = 2 ^ N.of_nat (phrases ks) - 1.
Proof.
  intros u x ks L. unfold get_alt_tokens. set (n := phrases ks) in *.
  set (is := count_up (N.to_nat (2 ^ N.of_nat n - 1)) 1).
  assert (P : 1 <= 2 ^ N.of_nat n). { assert (2 ^ N.of_nat n <> 0) by (apply N.pow_nonzero; lia). lia. }
  assert (Hi : forall i, In i is <-> 1 <= i < 2 ^ N.of_nat n). { intros i. unfold is. rewrite count_up_In, N2Nat.id. lia. }
  exists (map (fun i => bits i 0 n) is), (map (fun i => alt_one u x i 0 ks) is).
  split.
  { destruct n as [|m] eqn:En; [reflexivity|]. destruct (Nat.ltb 31 (S m)) eqn:E; [apply Nat.ltb_lt in E; lia|]. reflexivity. }
  split.
  { clear Hi. induction is as [|i is IH]; constructor; [apply alt_chosen|exact IH]. }
  split.
  { apply NoDup_map_in; [|apply count_up_nodup]. intros i j H1 H2. apply Hi in H1. apply Hi in H2. apply bits_inj; lia. }
  split.
  { intros bs. rewrite in_map_iff. split.
    - intros (i & <- & H). apply Hi in H. split; [apply bits_length|]. apply val_pos. rewrite val_bits; lia.
    - intros (E & T). exists (val bs). apply val_pos in T. assert (B := val_bound bs). rewrite E in B. split; [rewrite <- E; apply bits_val|]. apply Hi. lia. }
  rewrite map_length. unfold is. rewrite count_up_length, N2Nat.id. reflexivity.
Qed.
Lemma too_many : forall u x ks, (31 < phrases ks)%nat -> get_alt_tokens u x ks = UB.
Proof.
  intros u x ks H. unfold get_alt_tokens. destruct (phrases ks) as [|m]; [lia|]. apply Nat.ltb_lt in H. rewrite H. reflexivity.
Qed.
(** The counted tokens are the phrases. *)
Lemma phrases_filter : forall ks, exists ps, phrases ks = List.length ps /\ forall k, In k ps <-> In k ks /\ phrase k.
Proof.
  intros ks. exists (filter is_phrase ks). split; [reflexivity|]. intros k. rewrite filter_In, phrase_iff. reflexivity.
Qed.
Lemma chosen_in : forall u x ks bs a k, chosen u x ks bs a -> In k a -> In k ks \/ exists p ws w, In p ks /\ phrase p /\ words_of (t_text p) ws /\ In w ws /\ fresh u x w k.
Proof.
  intros u x ks bs a k H. induction H as [|p ks bs a N H IH|p ks bs a P H IH|p ks bs a ws new P W F H IH]; intros K.
  - destruct K.
  - destruct K as [->|K]; [left; left; reflexivity|]. destruct (IH K) as [Q|(q & ws & w & Q1 & Q2)]; [left; right; exact Q|right; exists q, ws, w; split; [right; exact Q1|exact Q2]].
  - destruct K as [->|K]; [left; left; reflexivity|]. destruct (IH K) as [Q|(q & ws' & w & Q1 & Q2)]; [left; right; exact Q|right; exists q, ws', w; split; [right; exact Q1|exact Q2]].
  - apply in_app_iff in K. destruct K as [K|K].
    + right. assert (Q : exists w, In w ws /\ fresh u x w k).
      { clear - F K. induction F as [|w q ws new E F IH]; [destruct K|]. destruct K as [->|K]; [exists w; split; [left; reflexivity|exact E]|].
        destruct (IH K) as (w' & Q1 & Q2). exists w'. split; [right; exact Q1|exact Q2]. }
      destruct Q as (w & Q1 & Q2). exists p, ws, w. split; [left; reflexivity|]. auto.
    + destruct (IH K) as [Q|(q & ws' & w & Q1 & Q2)]; [left; right; exact Q|right; exists q, ws', w; split; [right; exact Q1|exact Q2]].
Qed.
Lemma alt_in : forall u x ks alts a, get_alt_tokens u x ks = Ok alts -> In a alts -> exists bs, chosen u x ks bs a.
Proof.
  intros u x ks alts a H K. assert (L : (phrases ks <= 31)%nat). { destruct (Nat.le_gt_cases (phrases ks) 31) as [L|L]; [exact L|]. rewrite (too_many u x ks L) in H. discriminate. }
  destruct (alternatives u x ks L) as (bss & alts' & E & F & _). rewrite H in E. injection E as <-. clear H.
  induction F as [|bs b bss alts' C F IH]; [destruct K|]. destruct K as [->|K]; [exists bs; exact C|exact (IH K)].
Qed.
(** Words of a text. *)
Lemma words_unique : forall t ws, words_of t ws -> ws = split_blanks t.
Proof.
  intros t ws H. induction H as [w N|w b t ws N Nb Fb Ht W IH].
  - induction w as [|c w IH]; [reflexivity|]. cbn [split_blanks]. destruct (c =? SP) eqn:E; [apply N.eqb_eq in E; exfalso; apply N; left; exact E|].
    rewrite <- IH; [reflexivity|]. intros K. apply N. right. exact K.
  - induction w as [|c w IHw].
    + cbn [app]. induction b as [|c b IHb]; [congruence|]. assert (F1 := Forall_inv Fb). assert (F2 := Forall_inv_tail Fb). subst c. cbn [app split_blanks]. change (32 =? SP) with true. cbv iota.
      destruct b as [|d b].
      * cbn [app]. destruct t as [|d t]; [rewrite <- IH; reflexivity|]. destruct (d =? SP) eqn:D; [apply N.eqb_eq in D; exfalso; apply Ht; rewrite D; reflexivity|]. rewrite <- IH. reflexivity.
      * assert (F3 := Forall_inv F2). subst d. cbn [app]. change (32 =? SP) with true. cbv iota. apply IHb; [discriminate|exact F2].
    + cbn [app split_blanks]. destruct (c =? SP) eqn:E; [apply N.eqb_eq in E; exfalso; apply N; left; exact E|].
      rewrite <- IHw; [reflexivity|]. intros K. apply N. right. exact K.
Qed.
Lemma words_inside : forall t ws w c, words_of t ws -> In w ws -> In c w -> In c t /\ c <> 32.
Proof.
  intros t ws w c W H K. apply words_unique in W. subst ws. split; [eapply split_inside; eassumption|]. intros ->. exact (split_no_blank _ _ H K).
Qed.
Lemma words_full : forall t ws, words_of t ws -> t <> [] -> hd_error t <> Some 32 -> hd_error (rev t) <> Some 32 -> Forall (fun w => w <> []) ws.
Proof.
  intros t ws W N H1 H2. apply words_unique in W. subst ws. apply split_full; [exact N| |]; intros c Hc ->; [apply H1; exact Hc|apply H2; exact Hc].
Qed.
(** No empty tokens. *)
Lemma alt_no_empty : forall u x ks alts a k, get_alt_tokens u x ks = Ok alts -> In a alts -> In k a ->
  (forall p, In p ks -> t_text p <> [] /\ ~ In 9 (t_text p) /\ hd_error (t_text p) <> Some 32 /\ hd_error (rev (t_text p)) <> Some 32) -> t_text k <> [].
Proof.
  intros u x ks alts a k H Ha Hk P. destruct (alt_in u x ks alts a H Ha) as (bs & C). destruct (chosen_in u x ks bs a k C Hk) as [K|(p & ws & w & Hp & _ & W & Hw & F)].
  - apply (P k K).
  - destruct (P p Hp) as (P1 & P2 & P3 & P4). assert (Fw := words_full _ _ W P1 P3 P4). rewrite Forall_forall in Fw. unfold fresh in F. subst k.
    assert (T : ~ In TAB w). { intros K. apply P2. apply (words_inside _ _ _ _ W Hw K). }
    rewrite token_plain by exact T. destruct (classify_made u x w I_WORD) as (Q & _). exact (carries_some _ _ _ _ Q (Fw w Hw)).
Qed.
(** No separator classes for words made of word characters. *)
Lemma word_row : forall u t cls c, row_applies (shape_rows u I_WORD) t cls -> words u t -> In c cls ->
  ~ separator_class c.
Proof.
  intros u t cls c (pre & row & post & E & F & H & C) W I. subst cls. unfold shape_rows in E.
  repeat (destruct pre as [|? pre]; [injection E as <- _; cbn [fst snd] in *; simpl in I;
    try (destruct (blen t) as [|[|[|[|[|[|n]]]]]]); simpl in I; unfold separator_class; simpl;
    first [intuition (subst; discriminate) | idtac]|injection E as ? E; subst]); try (destruct pre; discriminate E).
  all: exfalso; rewrite Forall_forall in F; match type of F with forall x, In x ?l -> _ => apply (F (words u, fun t => I_WORD :: match blen t with 1%nat => [I_SINGLE] | 2%nat => [I_DOUBLE] | _ => [] end)); [simpl; tauto|exact W] end.
Qed.
Lemma sifted_clean : forall P a b k, sifted P a b -> In k b -> ~ P k.
Proof. intros P a b k S. induction S as [|q a b N S IH|q a b N S IH]; intros K; [destruct K| |exact (IH K)]. destruct K as [<-|K]; [exact N|exact (IH K)]. Qed.
Lemma alt_clean : forall e z str ks alts a k, (forall c, In c (z_filter z) -> separator_class c) -> get_tokens e z str = Ok ks ->
  get_alt_tokens (e_uni e) (z_lex z) ks = Ok alts -> In a alts -> In k a ->
  (forall p ws w, In p ks -> phrase p -> words_of (t_text p) ws -> In w ws ->
     words (e_uni e) w /\ ~ In 9 w /\ forall le c, In le (lex_find (z_lex z) w) -> In c (le_type le) -> ~ In c (z_filter z)) ->
  ~ caught (z_filter z) k.
Proof.
  intros e z str ks alts a k S H G Ha Hk P. apply tokens_sifted in H. destruct H as (all & _ & H). destruct (alt_in _ _ _ _ _ G Ha) as (bs & C).
  destruct (chosen_in _ _ _ _ _ _ C Hk) as [K|(p & ws & w & Hp & Ph & W & Hw & F)]; [exact (sifted_clean _ _ _ _ H K)|].
  destruct (P p ws w Hp Ph W Hw) as (Pw & Pt & Pl). unfold fresh in F. subst k. rewrite token_plain by exact Pt. intros (c & Hc & Hf).
  set (u := e_uni e) in *. set (x := z_lex z) in *.
  destruct (t_inlex (classify u x (plain_token w) I_WORD)) eqn:L.
  - unfold classify in L, Hc. cbn [plain_token t_text set_in t_in] in L, Hc.
    destruct (fold_left (fun s le => add_all s (le_type le)) (lex_find x w) []) as [|c1 s] eqn:E.
    + destruct (rmatch u false "^\d+[,\.]\d+$" w); discriminate.
    + cbn [set_inlex t_in set_in] in Hc. rewrite <- E in Hc. apply fold_types_in in Hc. destruct Hc as [[]|(le & K1 & K2)]. apply (Pl le c K1 K2 Hf).
  - assert (U : unlisted x (plain_token w)).
    { split; [reflexivity|]. intros le Hle. destruct (le_type le) as [|d l] eqn:Q; [reflexivity|]. exfalso.
      destruct (classify_listed u x (plain_token w) I_WORD d) as (K & _); [right; exists le; split; [exact Hle|rewrite Q; left; reflexivity]|]. congruence. }
    destruct (classify_unlisted u x (plain_token w) I_WORD U) as (_ & (cls & R & I) & _). apply I in Hc. apply (word_row u w cls c R Pw Hc). apply S. exact Hf.
Qed.
