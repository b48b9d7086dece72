(** The rows built by the wrapper (C14, C52, C53). *)
From Coq Require Import String List NArith ZArith Bool Lia Sorting.Permutation.
From Verif Require Import Base_model Class_model Float_model Uni_model Token_model Rule_model Search_model Grammar_model Lexicon_model
  Tokenizer_model Archive_model Wrapper_model Wrapper_spec Sample_model Lexicon_spec LexText_spec.
Import ListNotations.

(** ** Columns *)
Definition gathered (ks : list token) (c : column) : text := concat (map (fun ow => snd ow ++ [SP]) (filter (fun ow => in_column c (fst ow)) (placed ks))).
Lemma gathered_snoc : forall ks k c, gathered (ks ++ [k]) c = if in_column c (t_out k) then gathered ks c ++ t_std k ++ [SP] else gathered ks c.
Proof.
  intros ks k c. unfold gathered, placed. rewrite map_app, filter_app, map_app, concat_app. cbn [map filter fst]. destruct (in_column c (t_out k)); cbn [map concat]; rewrite ?app_nil_r; reflexivity.
Qed.
Lemma put_token_step : forall ks k, put_token (map (gathered ks) columns) k = map (gathered (ks ++ [k])) columns.
Proof.
  intros ks k. rewrite (map_ext _ _ (gathered_snoc ks k)). unfold put_token, in_column. destruct (t_out k); reflexivity.
Qed.
Lemma put_tokens : forall ks ks0, fold_left put_token ks (map (gathered ks0) columns) = map (gathered (ks0 ++ ks)) columns.
Proof.
  induction ks as [|k ks IH]; intros ks0; [rewrite app_nil_r; reflexivity|]. cbn [fold_left]. rewrite put_token_step, IH, <- app_assoc. reflexivity.
Qed.
Lemma collect_ok : forall x ks v r, collect x v ks = Ok r ->
  exists ks', Forall2 (fun k k' => standardize_word x k = Ok k') ks ks' /\ r = fold_left put_token ks' v.
Proof.
  induction ks as [|k ks IH]; intros v r H; cbn [collect] in H.
  - injection H as <-. exists []. split; [constructor|reflexivity].
  - destruct (standardize_word x k) as [k'| |] eqn:E; cbn [obind] in H; try discriminate. destruct (IH _ _ H) as (ks' & F & ->).
    exists (k' :: ks'). split; [constructor; assumption|reflexivity].
Qed.
Lemma gathered_join : forall w ws, concat (map (fun t => t ++ [SP]) (w :: ws)) = blank_joined (w :: ws) ++ [SP].
Proof.
  intros w ws. revert w. induction ws as [|v ws IH]; intros w; [simpl; rewrite app_nil_r; reflexivity|].
  change (concat (map (fun t => t ++ [SP]) (w :: v :: ws))) with ((w ++ [SP]) ++ concat (map (fun t => t ++ [SP]) (v :: ws))).
  rewrite IH. change (blank_joined (w :: v :: ws)) with (w ++ 32%N :: blank_joined (v :: ws)). rewrite <- !app_assoc. reflexivity.
Qed.
Lemma to_field_snoc : forall t, to_field (t ++ [SP]) = Some t.
Proof.
  intros t. assert (E : removelast (t ++ [SP]) = t) by apply removelast_last. unfold to_field. destruct t as [|c t]; [reflexivity|].
  cbn [app] in *. rewrite E. reflexivity.
Qed.
Lemma gathered_field : forall ks c, to_field (gathered ks c) = content c (placed ks).
Proof.
  intros ks c. unfold gathered, content. set (l := filter _ _). replace (map (fun ow => snd ow ++ [SP]) l) with
    (map (fun t => t ++ [SP]) (map snd l)) by (rewrite map_map; reflexivity).
  destruct (map snd l) as [|w ws]; [reflexivity|]. rewrite gathered_join. unfold field.
  apply to_field_snoc.
Qed.
Lemma collected : forall x ks v, collect x (repeat [] 16) ks = Ok v ->
  exists ks', Forall2 (fun k k' => standardize_word x k = Ok k') ks ks' /\ map to_field v = map (fun c => content c (placed ks')) columns.
Proof.
  intros x ks v H. apply collect_ok in H. destruct H as (ks' & F & ->). exists ks'. split; [exact F|].
  change (repeat [] 16) with (map (gathered []) columns). rewrite put_tokens. cbn [app]. rewrite map_map. apply map_ext. intros c. apply gathered_field.
Qed.
Lemma address_columns : forall e g x locale filt address r, standardize_addr e g x locale filt address = Ok (Some r) ->
  exists phrases b ks, make_phrases e x locale filt address = Ok phrases /\ search_best g phrases = Ok b /\
    f_le f_zero (b_score b) = true /\ Forall2 (fun k k' => standardize_word x k = Ok k') (b_tokens b) ks /\
    sa_fields r = map (fun c => content c (placed ks)) columns /\ sa_pattern r = b_matched b.
Proof.
  intros e g x locale filt address r H. unfold standardize_addr in H. destruct (make_phrases _ _ _ _ _) as [ph| |]; cbn [obind] in H; try discriminate.
  destruct (search_best g ph) as [b| |] eqn:B; cbn [obind] in H; try discriminate. destruct (f_le _ _) eqn:L; [|discriminate].
  destruct (collect _ _ _) as [v| |] eqn:C; cbn [obind] in H; try discriminate. injection H as <-. destruct (collected _ _ _ C) as (ks & F & E).
  exists ph, b, ks. auto 10.
Qed.
Lemma word_kept : forall x k k', standardize_word x k = Ok k' -> t_text k' = t_text k /\ t_in k' = t_in k /\ t_out k' = t_out k.
Proof.
  intros x k k' H. unfold standardize_word in H.
  assert (A : forall q, t_text q = t_text k -> t_in q = t_in k -> t_out q = t_out k -> Ok (match t_std q with [] => set_std q (t_text q) | _ => q end) = Ok k' ->
    t_text k' = t_text k /\ t_in k' = t_in k /\ t_out k' = t_out k).
  { intros q A B C E. injection E as <-. destruct (t_std q); auto. }
  destruct (lex_find x (t_text k)) as [|le l]; [apply (A k); auto|]. destruct (t_in k) as [|c s] eqn:I; [discriminate|].
  destruct (find _ _); cbn [obind] in H; [eapply A; [..|exact H]; auto|eapply (A k); auto].
Qed.
Lemma words_kept : forall x ks ks', Forall2 (fun k k' => standardize_word x k = Ok k') ks ks' -> map t_out ks' = map t_out ks /\ map t_text ks' = map t_text ks.
Proof.
  intros x ks ks' F. induction F as [|k k' ks ks' H F (IH1 & IH2)]; [auto|]. apply word_kept in H. destruct H as (H1 & _ & H2). cbn [map].
  rewrite H1, H2, IH1, IH2. auto.
Qed.
Lemma content_null : forall c l, content c l = None <-> forall ow, In ow l -> column_of (fst ow) <> Some c.
Proof.
  intros c l. unfold content, field. split.
  - intros H ow I E. assert (J : In ow (filter (fun ow => in_column c (fst ow)) l)). { apply filter_In. split; [exact I|]. unfold in_column. rewrite E. destruct c; reflexivity. }
    destruct (filter (fun ow => in_column c (fst ow)) l); [destruct J|discriminate].
  - intros H. destruct (filter (fun ow => in_column c (fst ow)) l) as [|ow l'] eqn:E; [reflexivity|].
    assert (I : In ow (filter (fun ow => in_column c (fst ow)) l)) by (rewrite E; left; reflexivity). apply filter_In in I. destruct I as (I & J).
    exfalso. apply (H ow I). unfold in_column in J. destruct (column_of (fst ow)) as [d|]; [|discriminate]. destruct c, d; try discriminate J; reflexivity.
Qed.
(** A standard text is empty only if the text of the token is. *)
Lemma std_nonempty : forall x k k', standardize_word x k = Ok k' -> t_text k <> [] -> t_std k' <> [].
Proof.
  intros x k k' H T. pose proof (word_kept _ _ _ H) as (K & _). unfold standardize_word in H.
  match type of H with obind ?a _ = _ => destruct a as [q| |]; cbn [obind] in H; try discriminate end. injection H as <-.
  destruct (t_std q) eqn:E; [|rewrite E; discriminate]. cbn [set_std t_std]. cbn [set_std t_text] in K. rewrite K. exact T.
Qed.
Lemma field_nonempty : forall ws t, (forall w, In w ws -> w <> []) -> field ws = Some t -> t <> [].
Proof.
  intros ws t H E. destruct ws as [|w ws]; [discriminate|]. injection E as <-. assert (N : w <> []) by (apply H; left; reflexivity).
  destruct ws; cbn [blank_joined]; [exact N|]. destruct w; [congruence|]. intros K. discriminate K.
Qed.
Lemma content_nonempty : forall c l t, (forall ow, In ow l -> snd ow <> []) -> content c l = Some t -> t <> [].
Proof.
  intros c l t H E. unfold content in E. apply field_nonempty in E; [exact E|]. intros w I. apply in_map_iff in I. destruct I as (ow & <- & I).
  apply filter_In in I. apply H, I.
Qed.
Lemma null_iff_empty : forall e g x locale filt address r phrases b, standardize_addr e g x locale filt address = Ok (Some r) ->
  make_phrases e x locale filt address = Ok phrases -> search_best g phrases = Ok b -> (forall k, In k (b_tokens b) -> t_text k <> []) ->
  ~ In (Some []) (sa_fields r).
Proof.
  intros e g x locale filt address r phrases b H P B T I. apply address_columns in H. destruct H as (ph' & b' & ks & P' & B' & _ & F & E & _).
  rewrite P in P'. injection P' as <-. rewrite B in B'. injection B' as <-. rewrite E in I. apply in_map_iff in I. destruct I as (c & C & _).
  apply content_nonempty in C; [congruence|]. intros ow I. unfold placed in I. apply in_map_iff in I. destruct I as (k & <- & I). cbn [snd]. clear - F T I. induction F as [|q q' ks0 ks' H F IH]; [destruct I|].
  destruct I as [<-|I]; [eapply std_nonempty; [exact H|apply T; left; reflexivity]|apply IH; [intros k' J; apply T; right; exact J|exact I]].
Qed.

(** ** The SQL row *)
Lemma row_shape : forall o row, address_row o = Ok row ->
  (exists a, o = Ok (Some a) /\ row = sa_fields a ++ [Some (sa_pattern a)]) \/ ((o = Ok None \/ exists m, o = Throw m) /\ row = repeat None 17).
Proof.
  intros o row H. destruct o as [[a|]|m|]; cbn [address_row] in H; try discriminate; injection H as <-.
  - left. exists a. auto.
  - right. auto.
  - right. split; [right; exists m; reflexivity|reflexivity].
Qed.

(** ** Parsing *)
Lemma nth_phrase : forall ks i j p, nth_error (fst (phrase_rows i j ks)) p =
  option_map (fun k => mkRow i (j + N.of_nat p) (t_text k) (iset_str (t_in k)) (aset_str (t_att k))) (nth_error ks p).
Proof.
  induction ks as [|k ks IH]; intros i j p; [destruct p; reflexivity|]. cbn [phrase_rows]. destruct (phrase_rows i (j + 1) ks) as (l, j') eqn:E.
  specialize (IH i (j + 1)%N). rewrite E in IH. cbn [fst] in *. destruct p as [|p]; cbn [nth_error option_map]; [rewrite N.add_0_r; reflexivity|].
  rewrite IH. destruct (nth_error ks p); [|reflexivity]. cbn [option_map]. do 2 f_equal. lia.
Qed.
Lemma phrase_len : forall ks i j, List.length (fst (phrase_rows i j ks)) = List.length ks /\ snd (phrase_rows i j ks) = (j + N.of_nat (List.length ks))%N.
Proof.
  induction ks as [|k ks IH]; intros i j; [cbn; split; [reflexivity|lia]|]. cbn [phrase_rows]. specialize (IH i (j + 1)%N). destruct (phrase_rows i (j + 1) ks) as (l, j').
  cbn [fst snd List.length] in *. lia.
Qed.
Lemma nth_rows : forall phrases i j n r, nth_error (all_rows i j phrases) n = Some r <->
  exists a p ph k, nth_error phrases a = Some ph /\ nth_error ph p = Some k /\ n = (before_count phrases a + p)%nat /\
    r = mkRow (i + N.of_nat a) (j + N.of_nat n) (t_text k) (iset_str (t_in k)) (aset_str (t_att k)).
Proof.
  induction phrases as [|ph phs IH]; intros i j n r.
  - cbn [all_rows]. split; [destruct n; discriminate|]. intros (a & p & ph & k & A & _). destruct a; discriminate.
  - cbn [all_rows]. pose proof (phrase_len ph i j) as (L1 & L2). pose proof (nth_phrase ph i j) as NP. destruct (phrase_rows i j ph) as (l, j'). cbn [fst snd] in *. subst j'.
    destruct (Nat.ltb_spec n (List.length l)) as [H|H].
    + rewrite nth_error_app1 by exact H. rewrite NP. split.
      * destruct (nth_error ph n) as [k|] eqn:K; cbn [option_map]; [|discriminate]. intros E. injection E as <-. exists 0%nat, n, ph, k.
        split; [reflexivity|]. split; [exact K|]. split; [reflexivity|]. f_equal; lia.
      * intros (a & p & ph' & k & A & K & N' & ->). destruct a as [|a].
        -- cbn in A. injection A as <-. cbn in N'. subst p. rewrite K. cbn [option_map]. do 2 f_equal; lia.
        -- exfalso. unfold before_count in N'. cbn [firstn concat] in N'. rewrite app_length in N'. lia.
    + rewrite nth_error_app2 by exact H. rewrite IH. split.
      * intros (a & p & ph' & k & A & K & N' & ->). exists (S a), p, ph', k. split; [exact A|]. split; [exact K|].
        unfold before_count in *. cbn [firstn concat]. rewrite app_length. split; [lia|]. f_equal; lia.
      * intros (a & p & ph' & k & A & K & N' & ->). destruct a as [|a].
        -- exfalso. cbn in A. injection A as <-. cbn in N'. subst p. assert (nth_error ph n = None) by (apply nth_error_None; lia). congruence.
        -- exists a, p, ph', k. split; [exact A|]. split; [exact K|]. unfold before_count in *. cbn [firstn concat] in N'. rewrite app_length in N'.
           split; [lia|]. f_equal; lia.
Qed.
Lemma nth_shown : forall l n, nth_error (map shown l) n = option_map shown (nth_error l n).
Proof. intros l n. apply nth_error_map. Qed.
Lemma parse_rows : forall e x locale filt address rows, parse_table (parse_addr e x locale filt address) = Ok rows ->
  rows = [] /\ (exists m, make_phrases e x locale filt address = Throw m) \/
  exists phrases, make_phrases e x locale filt address = Ok phrases /\
    forall n r, nth_error rows n = Some r <->
      exists a p ph k, nth_error phrases a = Some ph /\ nth_error ph p = Some k /\ n = (before_count phrases a + p)%nat /\
        r = mkRow (N.of_nat (S a)) (N.of_nat (S n)) (t_text k) (iset_str (t_in k)) (aset_str (t_att k)).
Proof.
  intros e x locale filt address rows H. unfold parse_addr in H. destruct (make_phrases _ _ _ _ _) as [ph|m|] eqn:P; cbn [obind parse_table] in H; try discriminate; injection H as <-.
  - right. exists ph. split; [reflexivity|]. intros n r. rewrite nth_shown. split.
    + destruct (nth_error (all_rows 0 0 ph) n) as [q|] eqn:E; cbn [option_map]; [|discriminate]. intros X. injection X as <-.
      apply nth_rows in E. destruct E as (a & p & ph' & k & A & K & N' & ->). exists a, p, ph', k. repeat split; try assumption. unfold shown. cbn. f_equal; lia.
    + intros (a & p & ph' & k & A & K & N' & ->). destruct (nth_error (all_rows 0 0 ph) n) as [q|] eqn:E.
      * pose proof (nth_rows ph 0 0 n) as Q. specialize (Q (mkRow (0 + N.of_nat a) (0 + N.of_nat n) (t_text k) (iset_str (t_in k)) (aset_str (t_att k)))).
        destruct Q as (_ & Q). rewrite Q in E by (exists a, p, ph', k; auto). injection E as <-. unfold shown. cbn. do 2 f_equal; lia.
      * exfalso. pose proof (nth_rows ph 0 0 n) as Q. specialize (Q (mkRow (0 + N.of_nat a) (0 + N.of_nat n) (t_text k) (iset_str (t_in k)) (aset_str (t_att k)))).
        destruct Q as (_ & Q). rewrite Q in E by (exists a, p, ph', k; auto). discriminate.
  - left. split; [reflexivity|]. exists m. reflexivity.
Qed.
Lemma rows_numbered : forall e x locale filt address rows n r, parse_table (parse_addr e x locale filt address) = Ok rows ->
  nth_error rows n = Some r -> pr_seq r = N.of_nat (S n).
Proof.
  intros e x locale filt address rows n r H K. destruct (parse_rows _ _ _ _ _ _ H) as [(-> & _)|(ph & _ & I)]; [destruct n; discriminate|].
  apply I in K. destruct K as (a & p & q & k & _ & _ & _ & ->). reflexivity.
Qed.
Lemma rows_increase : forall e x locale filt address rows m n r s, parse_table (parse_addr e x locale filt address) = Ok rows ->
  (m < n)%nat -> nth_error rows m = Some r -> nth_error rows n = Some s -> (pr_seq r < pr_seq s)%N /\ (pr_pat r <= pr_pat s)%N.
Proof.
  intros e x locale filt address rows m n r s H L K1 K2. rewrite (rows_numbered _ _ _ _ _ _ _ _ H K1), (rows_numbered _ _ _ _ _ _ _ _ H K2). split; [lia|].
  destruct (parse_rows _ _ _ _ _ _ H) as [(-> & _)|(ph & _ & I)]; [destruct n; discriminate|].
  apply I in K1. apply I in K2. destruct K1 as (a & p & q & k & A1 & A2 & A3 & ->). destruct K2 as (a' & p' & q' & k' & B1 & B2 & B3 & ->). cbn [pr_pat].
  destruct (Nat.le_gt_cases a a') as [C|C]; [lia|exfalso]. assert (D : (before_count ph (S a') <= before_count ph a)%nat).
  { unfold before_count. replace a with (S a' + (a - S a'))%nat by lia. generalize (a - S a')%nat. intros d. generalize (S a'). clear. intros b. revert ph. induction b as [|b IH]; intros ph; [cbn; lia|].
    destruct ph as [|x ph]; [cbn; lia|]. cbn [firstn Nat.add concat]. rewrite !app_length. specialize (IH ph). lia. }
  assert (F : before_count ph (S a') = (before_count ph a' + List.length q')%nat).
  { unfold before_count. clear - B1. revert ph B1. induction a' as [|a IH]; intros ph B1; (destruct ph as [|x ph]; [discriminate|]); cbn [nth_error] in B1.
    - injection B1 as ->. cbn. rewrite app_nil_r. reflexivity.
    - specialize (IH ph B1). cbn [firstn concat] in *. rewrite !app_length in *. lia. }
  assert (G : (p' < List.length q')%nat) by (apply nth_error_Some; congruence). lia.
Qed.
(** In the first pattern the number is the position. *)
Lemma first_pattern : forall e x locale filt address rows n r, parse_table (parse_addr e x locale filt address) = Ok rows ->
  nth_error rows n = Some r -> pr_pat r = 1%N -> pr_seq r = N.of_nat (S n) /\
    exists first phrases k, make_phrases e x locale filt address = Ok (first :: phrases) /\ nth_error first n = Some k /\ pr_word r = t_text k.
Proof.
  intros e x locale filt address rows n r H K P. split; [eapply rows_numbered; eassumption|].
  destruct (parse_rows _ _ _ _ _ _ H) as [(-> & _)|(ph & M & I)]; [destruct n; discriminate|].
  apply I in K. destruct K as (a & p & q & k & A1 & A2 & A3 & ->). cbn [pr_pat] in P. assert (a = 0%nat) by lia. subst a.
  destruct ph as [|f ph]; [discriminate|]. injection A1 as <-. exists f, ph, k. cbn in A3. subst n. auto.
Qed.
