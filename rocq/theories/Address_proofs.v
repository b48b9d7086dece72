(** Tokenizations of an address are what Address_spec says. *)
From Coq Require Import String List NArith ZArith Bool Lia Arith Sorting.Sorted.
From Verif Require Import Base_model Class_model Class_spec Uni_model Token_model Regex_model Lexicon_model Tokenizer_model Wrapper_model
  Lexicon_spec Tokenizer_spec Split_spec Read_spec Address_spec Class_proofs Classify_proofs TokScan_proofs TokPieces_proofs TokSplit_proofs Tab_proofs TokAlt_proofs
  Split_proofs Read_proofs Search_proofs.
Import ListNotations.
Local Open Scope N_scope.

(** ** The filter *)
Lemma name_iff : forall w c, class_named w c <-> as_one_type w = c.
Proof.
  intros w c. unfold class_named. split.
  - intros [->|(-> & H)]; [apply in_name_ok|apply in_other; exact H].
  - intros <-. destruct (in_dec (list_eq_dec N.eq_dec) w (map (fun p => s2t (fst p)) in_table)) as [I|I].
    + left. apply in_map_iff in I. destruct I as ((n & v) & <- & I). cbn [fst]. apply (table_names _ in_name) in I; [|vm_compute; reflexivity]. subst n.
      change (s2t (in_name v)) with (in_str v). rewrite in_name_ok. reflexivity.
    + destruct (list_eq_dec N.eq_dec w (in_str I_BADTOKEN)) as [->|Q]; [left; rewrite in_name_ok; reflexivity|]. right. assert (H : forall d, w <> in_str d).
      { intros d ->. assert (J : d = I_BADTOKEN \/ In (in_name d, d) in_table) by (destruct d; vm_compute; tauto). destruct J as [->|J]; [congruence|].
        apply I. apply in_map_iff. exists (in_name d, d). split; [reflexivity|exact J]. }
      split; [apply in_other; exact H|exact H].
Qed.
Lemma comma_parts : forall t, join [44] (comma_pieces t) = t /\ Forall no_comma (comma_pieces t) /\ comma_pieces t <> [].
Proof.
  induction t as [|c t (J & F & N)]; [split; [reflexivity|split; [constructor; [intros []|constructor]|discriminate]]|]. cbn [comma_pieces].
  destruct (N.eqb_spec c COMMA_CH) as [->|Q].
  - split; [|split; [constructor; [intros []|exact F]|discriminate]]. destruct (comma_pieces t) as [|p ps]; [congruence|]. cbn [join app]. cbn [join] in J. f_equal. exact J.
  - destruct (comma_pieces t) as [|p ps]; [congruence|]. inversion F as [|? ? F1 F2]; subst. split; [|split; [constructor; [|exact F2]|discriminate]].
    + destruct ps; cbn [join app] in *; [reflexivity|]. reflexivity.
    + intros [K|K]; [unfold COMMA_CH in Q; congruence|exact (F1 K)].
Qed.
Lemma visible_or : forall t, Forall (fun c => c = 32) t \/ visible t.
Proof.
  induction t as [|c t IH]; [left; constructor|]. destruct (N.eq_dec c 32) as [->|Q]; [|right; exists c; split; [left; reflexivity|exact Q]].
  destruct IH as [IH|(d & I & Q)]; [left; constructor; auto|right; exists d; split; [right; exact I|exact Q]].
Qed.
Lemma trimboth_blank : forall t, Forall (fun c => c = 32) t -> trimboth t = t.
Proof. intros t H. unfold trimboth. rewrite <- (app_nil_r t), drop_sp_blanks by exact H. cbn [drop_sp]. rewrite app_nil_r. reflexivity. Qed.
Lemma blank_not_visible : forall t, Forall (fun c => c = 32) t -> ~ visible t.
Proof. intros t F (c & I & Q). rewrite Forall_forall in F. apply Q, F, I. Qed.
Lemma unpadded_iff : forall p n, unpadded p n <-> n = trimboth p.
Proof.
  assert (G : forall a n b, Forall (fun c => c = 32) a -> Forall (fun c => c = 32) b -> (exists c, hd_error n = Some c /\ c <> 32) ->
    (exists c, hd_error (rev n) = Some c /\ c <> 32) -> trimboth (a ++ n ++ b) = n).
  { intros a n b Ha Hb (c & Hc & Qc) (d & Hd & Qd). apply trimboth_core; auto.
    - destruct n; discriminate.
    - intros t. destruct n as [|z n]; [discriminate|]. injection Hc as ->. cbn [app drop_sp]. destruct (N.eqb_spec c SP); [contradiction|reflexivity].
    - intros t. destruct (rev n) as [|z q]; [discriminate|]. injection Hd as ->. cbn [app drop_sp]. destruct (N.eqb_spec d SP); [contradiction|reflexivity]. }
  intros p n. split.
  - intros [(F & ->)|((a & b & -> & Ha & Hb) & H1 & H2)]; [symmetry; apply trimboth_blank; exact F|symmetry; apply G; assumption].
  - intros ->. destruct (visible_or p) as [F|V]; [left; rewrite (trimboth_blank p F); auto|right].
    destruct (visible_core p V) as (a & m & b & -> & Ha & Hb & Hm & H1 & H2). rewrite (trimboth_core a m b Ha Hb Hm H1 H2). split; [exists a, b; auto|]. split.
    + destruct m as [|c m]; [congruence|]. exists c. split; [reflexivity|]. intros ->. specialize (H1 []). rewrite app_nil_r in H1. cbn [drop_sp] in H1.
      change (32 =? SP) with true in H1. cbv iota in H1. assert (L : forall t, (List.length (drop_sp t) <= List.length t)%nat).
      { induction t as [|z t IH]; cbn [drop_sp]; [lia|]. destruct (z =? SP); simpl in *; lia. }
      specialize (L m). rewrite H1 in L. simpl in L. lia.
    + destruct (rev m) as [|c q] eqn:E; [apply (f_equal (@rev N)) in E; rewrite rev_involutive in E; simpl in E; contradiction|]. exists c. split; [reflexivity|]. intros ->. specialize (H2 []). rewrite app_nil_r in H2.
      cbn [drop_sp] in H2. change (32 =? SP) with true in H2. cbv iota in H2. assert (L : forall t, (List.length (drop_sp t) <= List.length t)%nat).
      { induction t as [|z t IH]; cbn [drop_sp]; [lia|]. destruct (z =? SP); simpl in *; lia. }
      specialize (L q). rewrite H2 in L. simpl in L. lia.
Qed.
Lemma trimboth_nil : forall p, trimboth p = [] <-> p = [].
Proof.
  intros p. split; [|intros ->; reflexivity]. intros H. destruct (visible_or p) as [F|V]; [rewrite (trimboth_blank p F) in H; exact H|].
  destruct (visible_core p V) as (a & m & b & -> & Ha & Hb & Hm & H1 & H2). rewrite (trimboth_core a m b Ha Hb Hm H1 H2) in H. congruence.
Qed.
Lemma in_list_iff : forall t c, In c (as_type t) <-> in_list t c.
Proof.
  intros t c. rewrite as_type_in. unfold in_list. destruct (comma_parts t) as (J & F & N). split.
  - intros (p & I & Np & A). exists (comma_pieces t), p, (trimboth p). split; [exact N|]. split; [exact F|]. split; [symmetry; exact J|]. split; [exact I|].
    split; [intros ->; apply Np; reflexivity|]. split; [apply unpadded_iff; reflexivity|apply name_iff; exact A].
  - intros (ps & p & n & Nps & Fps & -> & I & Np & U & A). apply unpadded_iff in U. subst n. apply name_iff in A.
    change 44 with COMMA_CH. rewrite comma_pieces_join by assumption. exists p. split; [exact I|]. split; [|exact A]. intros K. apply (proj1 (trimboth_nil p)) in K. contradiction.
Qed.

(** ** Tokens *)
Lemma add_all_set : forall l s, is_inset s -> is_inset (add_all s l).
Proof. unfold add_all. induction l as [|c l IH]; intros s H; [exact H|]. cbn [fold_left]. apply IH, iset_insert_set, H. Qed.
Lemma classify_set : forall u x k d, is_inset (t_in k) -> is_inset (t_in (classify u x k d)).
Proof.
  intros u x k d H. unfold classify. set (s := fold_left _ _ _).
  assert (Hs : is_inset s). { unfold s. clear s. revert H. generalize (t_in k). induction (lex_find x (t_text k)) as [|le l IH]; intros s H; [exact H|]. cbn [fold_left]. apply IH, add_all_set, H. }
  cbn [t_in set_in]. destruct s as [|c s']; [|exact Hs]. destruct (rmatch _ _ _ _); cbn [t_in set_in set_text]; apply add_all_set; constructor.
Qed.
Lemma text_set : forall w, is_inset (t_in (token_of_text w)).
Proof.
  intros w. unfold token_of_text. repeat match goal with |- context [getline ?a ?b ?c] => destruct (getline a b c) end.
  destruct (teqb _ _); repeat match goal with |- context [getline ?a ?b ?c] => destruct (getline a b c) end; cbn [t_in]; apply as_type_set.
Qed.
Lemma trim_set : forall k, t_in (trim_token k) = t_in k.
Proof. intros k. unfold trim_token. destruct (t_text k); [reflexivity|]. destruct (rev _); reflexivity. Qed.
Lemma split_set : forall u x k ks, split_token u x k = Ok ks -> Forall (fun k => is_inset (t_in k)) ks.
Proof.
  intros u x k ks H. unfold split_token in H. destruct (split_parts u x k) as [ws| |]; try discriminate. injection H as <-. apply Forall_map, Forall_forall. intros w _. apply classify_set, text_set.
Qed.
Lemma pieces_set : forall u x ps ks, piece_tokens u x ps = Ok ks -> Forall (fun k => is_inset (t_in k)) ks.
Proof.
  intros u x. induction ps as [|p ps IH]; intros ks H; cbn [piece_tokens] in H; [injection H as <-; constructor|].
  destruct (word_tokens u x (pc_tok p)) as [k1| |] eqn:E; try discriminate. cbn [obind] in H. destruct (piece_tokens u x ps) as [k2| |]; try discriminate. cbn [obind] in H.
  injection H as <-. apply Forall_app. split; [|apply Forall_app; split; [|apply IH; reflexivity]].
  - unfold word_tokens in E. destruct (pc_tok p) as [|c w]; [injection E as <-; constructor|]. destruct (t_inlex _) in E.
    + injection E as <-. constructor; [apply classify_set, text_set|constructor].
    + destruct (split_token u x _) as [ks| |] eqn:S in E; try discriminate. cbn [obind] in E. apply split_set in S. destruct ks; injection E as <-; [|exact S]. constructor; [apply classify_set, text_set|constructor].
  - unfold sep_tokens. destruct (pc_sep p) as [|c w]; [constructor|]. constructor; [|constructor]. apply classify_set. rewrite trim_set. apply text_set.
Qed.
Lemma inset_ext : forall s t, is_inset s -> is_inset t -> (forall c, In c s <-> In c t) -> s = t.
Proof.
  intros s t S. revert t. induction S as [|a s S IH F]; intros t T H.
  - destruct t as [|b t]; [reflexivity|]. exfalso. apply (H b). left. reflexivity.
  - destruct T as [|b t T G]; [exfalso; apply (H a); left; reflexivity|]. rewrite Forall_forall in F, G.
    assert (a = b) as <-.
    { assert (A : In a (b :: t)) by (apply H; left; reflexivity). assert (B : In b (a :: s)) by (apply H; left; reflexivity).
      destruct A as [A|A]; [auto|]. destruct B as [B|B]; [auto|]. apply G in A. apply F in B. lia. }
    f_equal. apply IH; [exact T|]. intros c. specialize (H c). split; intros I.
    + assert (K : In c (a :: t)) by (apply H; right; exact I). destruct K as [<-|K]; [|exact K]. apply F in I. lia.
    + assert (K : In c (a :: s)) by (apply H; right; exact I). destruct K as [<-|K]; [|exact K]. apply G in I. lia.
Qed.
Lemma token_eq : forall k k', same_token k k' -> is_inset (t_in k) -> is_inset (t_in k') -> k = k'.
Proof.
  intros [a b c d f g] [a' b' c' d' f' g'] (E1 & E2 & E3 & E4 & E5 & E6) S S'. cbn [t_text t_in t_inlex t_std t_out t_att] in *. rewrite (inset_ext _ _ S S' E2). congruence.
Qed.
Lemma tokens_eq : forall ks ks', Forall2 same_token ks ks' -> Forall (fun k => is_inset (t_in k)) ks -> Forall (fun k => is_inset (t_in k)) ks' -> ks = ks'.
Proof.
  intros ks ks' H. induction H as [|k k' ks ks' Q H IH]; intros F F'; [reflexivity|]. inversion F; inversion F'; subst. f_equal; [apply token_eq; assumption|apply IH; assumption].
Qed.
Lemma white_dec : forall c, {white c} + {~ white c}.
Proof. intros c. unfold white. apply in_dec, N.eq_dec. Qed.
Lemma trimmed_one : forall w m m', trimmed w m -> trimmed w m' -> m = m'.
Proof.
  intros w m m' (a & b & Wa & Wb & H) (a' & b' & Wa' & Wb' & H').
  assert (X : forall a b (w m : text) a' b', Forall white a -> Forall white b -> w = a ++ b -> w = a' ++ m ++ b' -> m <> [] -> (forall c, hd_error m = Some c -> ~ white c) -> False).
  { intros p q v n p' q' Wp Wq -> E Nn Hn. destruct n as [|c n]; [congruence|]. apply (Hn c eq_refl). assert (F : Forall white (p ++ q)) by (apply Forall_app; auto).
    rewrite E in F. apply Forall_app in F. destruct F as (_ & F). apply Forall_inv in F. exact F. }
  destruct H as [(E & ->)|(E & Nm & H1 & H2)], H' as [(E' & ->)|(E' & Nm' & H1' & H2')].
  - reflexivity.
  - exfalso. exact (X a b w m' a' b' Wa Wb E E' Nm' H1').
  - exfalso. exact (X a' b' w m a b Wa' Wb' E' E Nm H1).
  - rewrite E in E'. destruct m as [|c m0] eqn:Em; [congruence|]. destruct m' as [|c' m0'] eqn:Em'; [congruence|].
    destruct (max_run _ _ _ _ _ E' Wa Wa') as (_ & E2); [cbn [app]; apply H1; reflexivity|cbn [app]; apply H1'; reflexivity|].
    apply (f_equal (@rev N)) in E2. rewrite !rev_app_distr in E2.
    assert (K : forall p : text, p <> [] -> (forall c, hd_error (rev p) = Some c -> ~ white c) -> match rev p with y :: _ => ~ white y | [] => True end).
    { intros p _ Hp. destruct (rev p) as [|y q]; [exact I|]. apply Hp. reflexivity. }
    destruct (max_run _ _ _ _ _ E2 (Forall_rev Wb) (Forall_rev Wb')) as (_ & E3); [apply K; [discriminate|exact H2]|apply K; [discriminate|exact H2']|].
    apply (f_equal (@rev N)) in E3. rewrite !rev_involutive in E3. exact E3.
Qed.
Lemma sep_text_one : forall f m m', sep_text f m -> sep_text f m' -> m = m'.
Proof. intros f m m' [(E & ->)|(N & T)] [(E' & ->)|(N' & T')]; try congruence. exact (trimmed_one _ _ _ T T'). Qed.
Lemma sep_exact_one : forall u x w ks ks', sep_exact u x w ks -> sep_exact u x w ks' -> Forall2 same_token ks ks'.
Proof.
  intros u x w ks ks' [(E & ->)|(fs & m & k & N & C & T & -> & H)] [(E' & ->)|(fs' & m' & k' & N' & C' & T' & -> & H')]; try congruence; [constructor|].
  rewrite (cells_one _ _ _ C' C) in *. rewrite (sep_text_one _ _ _ T' T) in *. constructor; [|constructor].
  destruct H as [(F & k0 & M & ->)|(F & B1 & B2 & B3 & B4 & B5 & B6)], H' as [(F' & k0' & M' & ->)|(F' & B1' & B2' & B3' & B4' & B5' & B6')]; try contradiction.
  - destruct (made_same _ _ _ _ _ _ M M') as (S1 & S2 & S3 & S4 & S5 & S6). split; [exact S1|]. split; [exact S2|]. split; [exact S3|]. split; [reflexivity|]. split; [exact S5|exact S6].
  - split; [congruence|]. split; [intros c; rewrite B6, B6'; reflexivity|]. repeat (split; [congruence|]). congruence.
Qed.
Lemma exact_one : forall u x p ks ks', word_tables u -> exact_tokens u x p ks -> exact_tokens u x p ks' -> Forall2 same_token ks ks'.
Proof.
  intros u x p ks ks' WT (k1 & k2 & -> & A & B) (k1' & k2' & -> & A' & B'). apply Forall2_app; [exact (word_one _ _ _ _ _ WT A A')|exact (sep_exact_one _ _ _ _ _ B B')].
Qed.
Lemma groups_one : forall u x ps gs gs', word_tables u -> Forall2 (exact_tokens u x) ps gs -> Forall2 (exact_tokens u x) ps gs' -> Forall2 same_token (concat gs) (concat gs').
Proof.
  intros u x ps gs gs' WT F. revert gs'. induction F as [|p g ps gs H F IH]; intros gs' F'; inversion F' as [|? g' ? gs2 H' F2]; subst; [constructor|].
  cbn [concat]. apply Forall2_app; [exact (exact_one _ _ _ _ _ WT H H')|apply IH; exact F2].
Qed.
Lemma all_tokens_are : forall e x str ks, built x -> simple_words x -> apart_tables (e_uni e) -> word_tables (e_uni e) ->
  let t := e_upper e (x_locale x) (e_nfc e str) in blank_lines (e_uni e) t -> case_clear (e_uni e) x t -> tabs_apart (e_uni e) x ->
  (all_tokens e x str = Ok ks <-> tokens_are (e_uni e) x t ks).
Proof.
  intros e x str ks B SW AT WT t BL CE NT. destruct (tokens_exact e x str B SW (proj2 NT) WT (proj1 NT) BL) as (ps & gs & E & E2 & F).
  assert (SC : scanned (e_uni e) x t ps) by (apply (pieces_scanned e x str ps B SW AT BL CE); exact E).
  assert (IS : Forall (fun k => is_inset (t_in k)) (concat gs)). { unfold all_tokens in E2. rewrite E in E2. cbn [obind] in E2. exact (pieces_set _ _ _ _ E2). }
  split.
  - intros H. rewrite E2 in H. injection H as <-. exists ps, gs. auto.
  - intros (ps' & gs' & SC' & F' & -> & IS'). rewrite E2. f_equal. rewrite (scan_one _ _ AT _ _ _ SC SC') in F.
    exact (tokens_eq _ _ (groups_one _ _ _ _ _ WT F F') IS IS').
Qed.
(** ** Alternatives *)
Lemma made_no_tab : forall u x d w k, made_from u x d w k -> ~ In TAB w -> ~ In TAB (t_text k).
Proof. intros u x d w k (C & _). exact (carries_tab _ _ _ _ C). Qed.
Lemma made_no_tabs : forall u x d ws ks, Forall2 (made_from u x d) ws ks -> Forall (fun w => ~ In TAB w) ws -> Forall (fun k => ~ In TAB (t_text k)) ks.
Proof. intros u x d ws ks F. induction F as [|w k ws ks H F IH]; intros G; [constructor|]. inversion G; subst. constructor; [exact (made_no_tab _ _ _ _ _ H H2)|auto]. Qed.
Lemma parts_sub : forall u x cls w ws, (In I_MIXED cls /\ mixed u w ws) \/ (~ In I_MIXED cls /\ attached u x w ws) -> ~ In TAB w -> Forall (fun v => ~ In TAB v) ws.
Proof.
  assert (G : forall w ws, concat ws = w -> ~ In TAB w -> Forall (fun v => ~ In TAB v) ws).
  { intros w ws <- H. apply Forall_forall. intros v I K. apply H. apply in_concat. exists v. auto. }
  intros u x cls w ws [(_ & M)|(_ & A)] H; apply (G w); try exact H.
  - destruct M as [a c (E & _)|c a (E & _)|]; subst; cbn [concat]; rewrite ?app_nil_r; reflexivity.
  - destruct A as [| a b (E & _)|c d _ (E & _)|a b (E & _)|a m d _ (E & _)|a b c d _ (E & _)]; subst; cbn [concat]; rewrite ?app_nil_r; reflexivity.
Qed.
Lemma exact_no_tab : forall u x p ks, exact_tokens u x p ks -> ~ In TAB (pc_tok p) -> Forall (fun k => ~ In TAB (t_text k)) ks.
Proof.
  intros u x p ks (k1 & k2 & -> & A & B) T1. apply Forall_app. split.
  - destruct A as [(E & ->)|[(Nw & L & k & -> & M)|(Nw & U & cls & w1 & ws & R & C & S & [(_ & k & -> & M)|(_ & F)])]]; [constructor| | |].
    + constructor; [exact (made_no_tab _ _ _ _ _ M T1)|constructor].
    + constructor; [exact (made_no_tab _ _ _ _ _ M T1)|constructor].
    + apply (made_no_tabs _ _ _ _ _ F). exact (parts_sub _ _ _ _ _ S (carries_tab _ _ _ _ C T1)).
  - destruct B as [(E & ->)|(fs & m & k & Nw & C & T & -> & H)]; [constructor|]. constructor; [|constructor].
    assert (Nm : ~ In TAB m).
    { destruct T as [(_ & ->)|(_ & a & b & Ha & Hb & [(E & ->)|(E & _)])]; [intros []|unfold TAB; intros [K|[]]; discriminate|].
      intros K. apply (cell_no_tab _ _ 0 C). rewrite E. rewrite !in_app_iff. right. left. exact K. }
    destruct H as [(_ & k0 & M & ->)|(_ & -> & _)]; [exact (made_no_tab _ _ _ _ _ M Nm)|exact Nm].
Qed.
Lemma tokens_no_tab : forall e x str ks, built x -> simple_words x -> word_tables (e_uni e) ->
  let t := e_upper e (x_locale x) (e_nfc e str) in blank_lines (e_uni e) t -> tabs_apart (e_uni e) x -> all_tokens e x str = Ok ks -> Forall (fun k => ~ In TAB (t_text k)) ks.
Proof.
  intros e x str ks B SW WT t BL (TT & TF) H. destruct (tokens_exact e x str B SW TF WT TT BL) as (ps & gs & E & E2 & F). rewrite H in E2. injection E2 as ->.
  destruct (pieces_read e x str ps B SW BL E) as (left & _ & W & _). clear - F W TT TF. revert W. induction F as [|p g ps gs Q F IH]; intros W; [constructor|]. cbn [well_read] in W.
  destruct W as (_ & _ & TK & _ & W). cbn [concat]. apply Forall_app.
  split; [exact (exact_no_tab _ _ _ _ Q (token_no_tab _ _ _ TT TF TK))|exact (IH W)].
Qed.
Lemma picked_len : forall u x ks bs a, picked u x ks bs a -> List.length bs = phrases ks.
Proof.
  unfold phrases. intros u x ks bs a H. induction H as [|k ks bs a Q H IH|k ks bs a Q H IH|k ks bs a ws new Q W F H IH]; [reflexivity| | |]; cbn [filter].
  - destruct (is_phrase k) eqn:E; [apply phrase_iff in E; contradiction|exact IH].
  - apply phrase_iff in Q. rewrite Q. cbn [List.length]. congruence.
  - apply phrase_iff in Q. rewrite Q. cbn [List.length]. congruence.
Qed.
Lemma alt_picked : forall u x i ks n, Forall (fun k => ~ In TAB (t_text k)) ks -> picked u x ks (bits i n (phrases ks)) (alt_one u x i n ks).
Proof.
  intros u x i. unfold phrases. induction ks as [|k ks IH]; intros n NT; [constructor|]. inversion NT as [|? ? N1 N2]; subst. cbn [alt_one filter]. destruct (is_phrase k) eqn:E.
  - apply phrase_iff in E. cbn [List.length bits].
    assert (T : N.testbit i n = negb ((i / 2 ^ n) mod 2 =? 0)).
    { rewrite N.testbit_eqb. assert (B := N.mod_lt (i / 2 ^ n) 2 ltac:(lia)). destruct ((i / 2 ^ n) mod 2) as [|[p|p|]]; try reflexivity; lia. }
    rewrite T. destruct ((i / 2 ^ n) mod 2 =? 0); cbn [negb app].
    + apply pick_keep; [exact E|apply IH; exact N2].
    + apply (pick_split u x k ks _ _ (split_blanks (t_text k))); [exact E|apply split_words| |apply IH; exact N2].
      assert (G : Forall (fun w => ~ In TAB w) (split_blanks (t_text k))). { apply Forall_forall. intros w I K. apply N1. exact (split_inside _ _ _ I K). }
      induction G as [|w ws G1 G IHw]; constructor; [|exact IHw]. split; [apply part_made; exact G1|apply classify_set, text_set].
  - apply pick_word; [|apply IH; exact N2]. intros K. apply phrase_iff in K. congruence.
Qed.
Lemma made_one : forall u x ws new new', Forall2 (fun w k' => made_from u x I_WORD w k' /\ is_inset (t_in k')) ws new ->
  Forall2 (fun w k' => made_from u x I_WORD w k' /\ is_inset (t_in k')) ws new' -> new = new'.
Proof.
  intros u x ws new new' F. revert new'. induction F as [|w k ws new (M & I) F IH]; intros new' F'; inversion F' as [|? k' ? new2 (M' & I') F2]; subst; [reflexivity|].
  f_equal; [exact (token_eq _ _ (made_same _ _ _ _ _ _ M M') I I')|apply IH; exact F2].
Qed.
Lemma picked_one : forall u x ks bs a a', picked u x ks bs a -> picked u x ks bs a' -> a = a'.
Proof.
  intros u x ks bs a a' H. revert a'. induction H as [|k ks bs a Q H IH|k ks bs a Q H IH|k ks bs a ws new Q W F H IH]; intros a' H'.
  - inversion H'. reflexivity.
  - inversion H' as [|? ? ? a2 Q' H2|? ? bs2 a2 Q' H2|? ? bs2 a2 ws' new' Q' W' F' H2]; subst; try contradiction. f_equal. apply IH, H2.
  - inversion H' as [|? ? ? a2 Q' H2|? ? bs2 a2 Q' H2|? ? bs2 a2 ws' new' Q' W' F' H2]; subst; try contradiction. f_equal. apply IH, H2.
  - inversion H' as [|? ? ? a2 Q' H2|? ? bs2 a2 Q' H2|? ? bs2 a2 ws' new' Q' W' F' H2]; subst; try contradiction.
    rewrite (words_unique _ _ W) in F. rewrite (words_unique _ _ W') in F'. rewrite (made_one _ _ _ _ _ F F'). f_equal. apply IH, H2.
Qed.
Lemma choice_val : forall bs, choice_number bs = val bs.
Proof. induction bs as [|b bs IH]; [reflexivity|]. cbn [choice_number val]. rewrite IH. destruct b; reflexivity. Qed.
Lemma alt_zero : forall u x ks n, alt_one u x 0 n ks = ks.
Proof.
  intros u x. induction ks as [|k ks IH]; intros n; [reflexivity|]. cbn [alt_one]. rewrite !IH. destruct (is_phrase k); [|reflexivity].
  assert (E : 0 / 2 ^ n = 0) by (apply N.div_0_l, N.pow_nonzero; lia). rewrite E. reflexivity.
Qed.
Lemma count_up_nth : forall n a i, nth_error (count_up n a) i = if Nat.ltb i n then Some (a + N.of_nat i) else None.
Proof.
  induction n as [|n IH]; intros a i; [destruct i; reflexivity|]. cbn [count_up]. destruct i as [|i]; [simpl; f_equal; lia|]. cbn [nth_error]. rewrite IH.
  change (Nat.ltb (S i) (S n)) with (Nat.ltb i n). destruct (Nat.ltb i n); [f_equal; lia|reflexivity].
Qed.
Lemma nth_ext : forall A (a b : list A), (forall i x, nth_error a i = Some x <-> nth_error b i = Some x) -> a = b.
Proof.
  intros A. induction a as [|x a IH]; intros b H.
  - destruct b as [|y b]; [reflexivity|]. assert (K : nth_error (@nil A) 0 = Some y) by (apply H; reflexivity). discriminate.
  - destruct b as [|y b]; [assert (K : nth_error (@nil A) 0 = Some x) by (apply H; reflexivity); discriminate|].
    assert (K : nth_error (y :: b) 0 = Some x) by (apply H; reflexivity). injection K as ->. f_equal. apply IH. intros i z. exact (H (S i) z).
Qed.
Lemma alternatives_are : forall u x ks phs, Forall (fun k => ~ In TAB (t_text k)) ks ->
  (obind (get_alt_tokens u x ks) (fun alts => Ok (ks :: alts)) = Ok phs <-> tokenizations u x ks phs).
Proof.
  intros u x ks phs NT.
  destruct (Nat.le_gt_cases (phrases ks) 31) as [L|L].
  - set (n := phrases ks) in *. assert (P : 1 <= 2 ^ N.of_nat n). { assert (2 ^ N.of_nat n <> 0) by (apply N.pow_nonzero; lia). lia. }
    assert (E : get_alt_tokens u x ks = Ok (map (fun i => alt_one u x i 0 ks) (count_up (N.to_nat (2 ^ N.of_nat n - 1)) 1))).
    { unfold get_alt_tokens. fold n. destruct n as [|m] eqn:En; [reflexivity|]. destruct (Nat.ltb 31 (S m)) eqn:El; [apply Nat.ltb_lt in El; lia|]. reflexivity. }
    rewrite E. cbn [obind].
    assert (A : forall i a, nth_error (ks :: map (fun i => alt_one u x i 0 ks) (count_up (N.to_nat (2 ^ N.of_nat n - 1)) 1)) i = Some a <-> N.of_nat i < 2 ^ N.of_nat n /\ a = alt_one u x (N.of_nat i) 0 ks).
    { intros i a. destruct i as [|i]; cbn [nth_error].
      - change (N.of_nat 0) with 0. rewrite alt_zero. split; [intros H; injection H as <-; split; [lia|reflexivity]|intros (_ & ->); reflexivity].
      - rewrite nth_error_map, count_up_nth. destruct (Nat.ltb_spec i (N.to_nat (2 ^ N.of_nat n - 1))) as [Q|Q]; cbn [option_map].
        + replace (1 + N.of_nat i) with (N.of_nat (S i)) by lia. split; [intros H; injection H as <-; split; [lia|reflexivity]|intros (_ & ->); reflexivity].
        + split; [discriminate|intros (K & _); exfalso; lia]. }
    assert (B : forall i a, (exists bs, picked u x ks bs a /\ choice_number bs = N.of_nat i) <-> N.of_nat i < 2 ^ N.of_nat n /\ a = alt_one u x (N.of_nat i) 0 ks).
    { intros i a. split.
      - intros (bs & Pk & C). rewrite choice_val in C. assert (Lb := picked_len _ _ _ _ _ Pk). fold n in Lb. assert (V := val_bound bs). rewrite Lb, C in V. split; [exact V|].
        assert (Q := alt_picked u x (N.of_nat i) ks 0 NT). fold n in Q. rewrite <- C, <- Lb, bits_val, C in Q. exact (picked_one _ _ _ _ _ _ Pk Q).
      - intros (V & ->). exists (bits (N.of_nat i) 0 n). split; [exact (alt_picked u x (N.of_nat i) ks 0 NT)|]. rewrite choice_val. apply val_bits. exact V. }
    split.
    + intros H. injection H as <-. split; [intros bs a Pk; rewrite (picked_len _ _ _ _ _ Pk); exact L|]. intros i a. rewrite A, B. reflexivity.
    + intros (_ & H). f_equal. apply nth_ext. intros i a. rewrite A, H, B. reflexivity.
  - rewrite (too_many u x ks L). cbn [obind]. split; [discriminate|]. intros (H & _). specialize (H _ _ (alt_picked u x 0 ks 0 NT)). rewrite bits_length in H. lia.
Qed.

(** ** The whole *)
Lemma sifted_ext : forall (P Q : token -> Prop) a b, (forall k, P k <-> Q k) -> sifted P a b -> sifted Q a b.
Proof. intros P Q a b E H. induction H; constructor; try assumption; rewrite <- E; assumption. Qed.
Lemma sifted_in : forall P a b k, sifted P a b -> In k b -> In k a.
Proof. intros P a b k H. induction H; intros I; [destruct I| |right; auto]. destruct I as [->|I]; [left; reflexivity|right; auto]. Qed.
Lemma filter_iff : forall filt k, caught (as_type filt) k <-> exists c, In c (t_in k) /\ in_list filt c.
Proof.
  intros filt k. unfold caught. setoid_rewrite in_list_iff. reflexivity.
Qed.
Lemma make_phrases_are : forall e x locale filt address phs, built x -> simple_words x -> apart_tables (e_uni e) -> word_tables (e_uni e) ->
  let t := e_upper e (x_locale x) (e_nfc e (e_upper e locale (e_nfc e address))) in
  blank_lines (e_uni e) t -> case_clear (e_uni e) x t -> tabs_apart (e_uni e) x ->
  (make_phrases e x locale filt address = Ok phs <-> read_address (e_uni e) x filt t phs).
Proof.
  intros e x locale filt address phs B SW AT WT t BL CE NT.
  assert (A := fun ks => all_tokens_are e x (prepared e locale address) ks B SW AT WT BL CE NT). fold t in A.
  unfold make_phrases. split.
  - intros H. destruct (get_tokens e _ _) as [ks| |] eqn:E; try discriminate. cbn [obind] in H. apply tokens_sifted in E. destruct E as (all & E & S). cbn [z_lex z_filter set_filter] in E, S.
    exists all, ks. split; [apply A; exact E|]. split; [exact (sifted_ext _ _ _ _ (filter_iff filt) S)|]. apply alternatives_are; [|exact H].
    apply Forall_forall. intros k I. assert (F := tokens_no_tab e x _ all B SW WT BL NT E). rewrite Forall_forall in F. apply F. exact (sifted_in _ _ _ _ S I).
  - intros (all & ks & T & S & K). apply A in T. apply (sifted_ext _ (caught (as_type filt))) in S; [|intros k; symmetry; apply filter_iff].
    assert (E : get_tokens e (set_filter (mkTz x []) (as_type filt)) (prepared e locale address) = Ok ks). { apply tokens_sifted. exists all. auto. }
    rewrite E. cbn [obind]. apply alternatives_are; [|exact K].
    apply Forall_forall. intros k I. assert (F := tokens_no_tab e x _ all B SW WT BL NT T). rewrite Forall_forall in F. apply F. exact (sifted_in _ _ _ _ S I).
Qed.
