(** No token is of class BADTOKEN; rules with a misspelled input name take no part. *)
From Coq Require Import String List NArith Bool Lia Arith.
From Verif Require Import Base_model Class_model Uni_model Token_model Rule_model Lexicon_model Tokenizer_model Search_model Wrapper_model
  Lexicon_spec Tokenizer_spec Search_spec Wrapper_spec Sample_model Float_model Grammar_model Loaded_spec Classify_proofs TokPieces_proofs TokSplit_proofs TokAlt_proofs Loaded_proofs WrapperTop_proofs TokExample_proofs WrapperEx_proofs.
Import ListNotations.
Local Open Scope N_scope.

Lemma row_no_bad : forall u d w cls, row_applies (shape_rows u d) w cls -> In I_BADTOKEN cls -> d = I_BADTOKEN.
Proof.
  intros u d w cls (pre & row & post & E & _ & _ & ->) I. unfold shape_rows in E.
  repeat (destruct pre as [|? pre]; [injection E as <- _; cbn [snd] in I;
    try (destruct (blen w) as [|[|[|[|[|[|n]]]]]]); simpl in I;
    first [exfalso; intuition discriminate | intuition]|injection E as _ E]).
  destruct pre; discriminate.
Qed.
Lemma made_no_bad : forall u x d w k, (forall w le, In le (lex_find x w) -> ~ In I_BADTOKEN (le_type le)) -> d <> I_BADTOKEN ->
  made_from u x d w k -> ~ In I_BADTOKEN (t_in k).
Proof.
  intros u x d w k NB Nd (_ & _ & (A & B) & _) H. destruct (listed_or_not x (plain_token w)) as [U|(c & [[]|(le & H1 & H2)])].
  - destruct (B U) as (_ & cls & R & I). apply I in H. apply Nd. exact (row_no_bad _ _ _ _ R H).
  - destruct A as (_ & A); [intros (_ & K); rewrite (K le H1) in H2; destruct H2|]. apply A in H. destruct H as (le' & K1 & K2). exact (NB _ _ K1 K2).
Qed.
Lemma made_no_tab : forall u x d w k, made_from u x d w k -> ~ In TAB w -> ~ In TAB (t_text k).
Proof. intros u x d w k (C & _) T. exact (carries_tab _ _ _ _ C T). Qed.
Definition clean (k : token) : Prop := ~ In I_BADTOKEN (t_in k) /\ ~ In TAB (t_text k).
Lemma trimmed_no_tab : forall w m, trimmed w m -> ~ In TAB w -> ~ In TAB m.
Proof.
  intros w m (a & b & _ & _ & [(_ & ->)|(-> & _)]) T; [intros [K|[]]; discriminate|]. intros K. apply T. rewrite !in_app_iff. auto.
Qed.
Section B.
  Variables (u : uni) (x : lexicon).
  Hypothesis NB : forall w le, In le (lex_find x w) -> ~ In I_BADTOKEN (le_type le).
  Lemma piece_clean : forall p g, tokens_of u x p g -> ~ In TAB (pc_tok p) -> ~ In TAB (pc_sep p) -> Forall clean g.
  Proof.
    intros p g (k1 & k2 & -> & W & Sp) T1 T2. apply Forall_app. split.
    - destruct W as [(_ & ->)|[(k & _ & -> & M)|(w' & ws & _ & C & P & F)]]; [constructor| |].
      { constructor; [|constructor]. split; [apply (made_no_bad u x I_WORD (pc_tok p)); [exact NB|discriminate|exact M]|exact (made_no_tab _ _ _ _ _ M T1)]. }
      assert (T := carries_tab _ _ _ _ C T1).
      assert (Q := parts_no_tab _ _ P T). clear P C. induction F as [|w k ws ks M F IH]; [constructor|]. inversion Q as [|? ? Q1 Q2]; subst.
      constructor; [|exact (IH Q2)]. split; [apply (made_no_bad u x I_WORD w); [exact NB|discriminate|exact M]|exact (made_no_tab _ _ _ _ _ M Q1)].
    - destruct Sp as [(_ & ->)|(m & k & _ & Tm & -> & M)]; [constructor|]. constructor; [|constructor].
      split; [apply (made_no_bad u x I_PUNCT m); [exact NB|discriminate|exact M]|exact (made_no_tab _ _ _ _ _ M (trimmed_no_tab _ _ Tm T2))].
  Qed.
  Lemma alts_clean : forall ks alts a, Forall clean ks -> get_alt_tokens u x ks = Ok alts -> In a alts -> Forall clean a.
  Proof.
    intros ks alts a F H Ha. destruct (alt_in _ _ _ _ _ H Ha) as (bs & C). apply Forall_forall. intros k Hk. rewrite Forall_forall in F.
    destruct (chosen_in _ _ _ _ _ _ C Hk) as [K|(p & ws & w & Hp & _ & W & Hw & Fr)]; [exact (F k K)|].
    assert (T : ~ In TAB w). { intros K. apply (proj2 (F p Hp)). apply (words_inside _ _ _ _ W Hw K). }
    unfold Tokenizer_spec.fresh in Fr. subst k. rewrite token_plain by exact T. pose proof (classify_made u x w I_WORD) as M.
    split; [apply (made_no_bad u x I_WORD w); [exact NB|discriminate|exact M]|exact (made_no_tab _ _ _ _ _ M T)].
  Qed.
End B.
Lemma sifted_in : forall P a b k, sifted P a b -> In k b -> In k a.
Proof. intros P a b k H. induction H as [|q a b N H IH|q a b N H IH]; intros K; [destruct K| |right; exact (IH K)]. destruct K as [->|K]; [left; reflexivity|right; exact (IH K)]. Qed.
Lemma tokens_clean : forall e z str ks, built (z_lex z) -> plain_blank (e_uni e) -> ~ In TAB (search_text e (z_lex z) str) ->
  blank_lines (e_uni e) (search_text e (z_lex z) str) -> (forall w le, In le (lex_find (z_lex z) w) -> ~ In I_BADTOKEN (le_type le)) ->
  get_tokens e z str = Ok ks -> Forall clean ks.
Proof.
  intros e z str ks B PB T BL NB H. apply tokens_sifted in H. destruct H as (all & H & Sf).
  assert (Fa : Forall clean all).
  { destruct (tokens_made e (z_lex z) str B PB T BL) as [K|(ps & groups & Ep & Ek & F)]; [congruence|]. rewrite H in Ek. injection Ek as ->.
    destruct (pieces_order e (z_lex z) str ps B Ep) as (left & El & Fo).
    assert (F' : Forall (in_order (e_uni e)) ps). { eapply Forall_impl; [|exact Fo]. intros p (K & _). exact K. }
    assert (Fp := pieces_no_tab _ _ _ _ T El F'). clear - F Fp NB. induction F as [|p g ps groups M F IH]; [constructor|]. inversion Fp as [|? ? (T1 & T2) Fp']; subst.
    cbn [concat]. apply Forall_app. split; [exact (piece_clean _ _ NB p g M T1 T2)|exact (IH Fp')]. }
  apply Forall_forall. intros k Hk. rewrite Forall_forall in Fa. apply Fa. exact (sifted_in _ _ _ _ Sf Hk).
Qed.
Lemma phrases_clean : forall e x locale filt address phrases, built x -> plain_blank (e_uni e) -> ~ In TAB (search_text e x (prepared e locale address)) ->
  blank_lines (e_uni e) (search_text e x (prepared e locale address)) -> (forall w le, In le (lex_find x w) -> ~ In I_BADTOKEN (le_type le)) ->
  make_phrases e x locale filt address = Ok phrases -> Forall (Forall clean) phrases.
Proof.
  intros e x locale filt address phrases B PB T BL NB H. unfold make_phrases in H.
  destruct (get_tokens e (set_filter (mkTz x []) (as_type filt)) (prepared e locale address)) as [ks|m|] eqn:G; cbn [obind] in H; try discriminate.
  assert (C := tokens_clean e (set_filter (mkTz x []) (as_type filt)) _ ks B PB T BL NB G).
  destruct (get_alt_tokens (e_uni e) x ks) as [alts|m|] eqn:A; cbn [obind] in H; try discriminate. injection H as <-.
  constructor; [exact C|]. apply Forall_forall. intros a Ha. exact (alts_clean _ _ NB ks alts a C A Ha).
Qed.

(** ** Rules *)
Lemma chosen_class : forall ph rs r c, chooses ph (rule_inputs rs) -> In r rs -> In c (r_in r) -> exists k, In k ph /\ In c (t_in k).
Proof.
  intros ph rs r c H Hr Hc. assert (I : In c (rule_inputs rs)) by (unfold rule_inputs; apply in_concat; exists (r_in r); split; [apply in_map; exact Hr|exact Hc]).
  unfold chooses in H. revert I. generalize (rule_inputs rs) H. clear. intros pat H. induction H as [|k d ph pat K H IH]; intros I; [destruct I|].
  destruct I as [->|I]; [exists k; split; [left; reflexivity|exact K]|]. destruct (IH I) as (q & Q1 & Q2). exists q. split; [right; exact Q1|exact Q2].
Qed.
Lemma misspelled_unused : forall e g x locale filt address r, is_loaded g -> built x -> plain_blank (e_uni e) ->
  ~ In TAB (search_text e x (prepared e locale address)) -> blank_lines (e_uni e) (search_text e x (prepared e locale address)) ->
  (forall w le, In le (lex_find x w) -> ~ In I_BADTOKEN (le_type le)) -> standardize_addr e g x locale filt address = Ok (Some r) ->
  exists phrases ph k rs ws, make_phrases e x locale filt address = Ok phrases /\ In ph phrases /\
    derives g [ADDRESS] k rs /\ chooses ph (rule_inputs rs) /\ standards x ph (rule_inputs rs) ws /\
    sa_fields r = map (fun c => content c (combine (rule_outputs rs) ws)) columns /\
    sa_pattern r = join [SP] (pattern_words (rule_inputs rs) (rule_outputs rs)) /\
    Forall (fun rl => ~ In I_BADTOKEN (r_in rl)) rs.
Proof.
  intros e g x locale filt address r L B PB T BL NB H. destruct (row_sound e g x locale filt address r L H) as (phrases & ph & k & rs & ws & P & I & D & C & _ & S1 & E1 & E2).
  exists phrases, ph, k, rs, ws. repeat (split; [assumption|]). apply Forall_forall. intros rl Hr Hb.
  destruct (chosen_class ph rs rl _ C Hr Hb) as (q & Q1 & Q2). assert (F := phrases_clean e x locale filt address phrases B PB T BL NB P).
  rewrite Forall_forall in F. specialize (F ph I). rewrite Forall_forall in F. exact (proj1 (F q Q1) Q2).
Qed.

(** ** Example: the first rule is misspelled *)
Definition bad_grammar : text := s2t "[ADDRESS]
NUMBER WROD TYPE -> HOUSE STREET SUFTYP -> 0.9
NUMBER WORD TYPE -> HOUSE STREET SUFTYP -> 0.4
".
Definition bad_g : grammar := match get_grammar ascii_env sample_atof bad_grammar with Ok g => g | _ => mkGrammar [] [] [] end.
Lemma bad_g_loaded : is_loaded bad_g.
Proof.
  unfold bad_g, get_grammar. remember (load_grammar (e_uni ascii_env) sample_atof bad_grammar) as o eqn:E. destruct o as [L|m|].
  - exists ascii_uni, sample_atof, bad_grammar, L. split; [apply ascii_uni_ok|]. split; [symmetry; exact E|reflexivity].
  - exfalso. vm_compute in E. discriminate.
  - exfalso. vm_compute in E. discriminate.
Qed.
Lemma bad_x : forall w le, In le (lex_find w_x w) -> ~ In I_BADTOKEN (le_type le).
Proof.
  intros w le H. assert (L : exists c, In c (le_type le) \/ le_type le = []) by (destruct (le_type le) as [|c l]; [exists I_WORD; auto|exists c; left; left; reflexivity]).
  destruct L as (c & [Hc| ->]); [|intros []]. assert (K : listed w_x w) by (destruct (lex_find w_x w) eqn:E; [destruct H|unfold listed; rewrite E; discriminate]).
  rewrite (listed_keys w_x w [s2t "PO BOX"; s2t "ST"] w_x_built) in K by (vm_compute; reflexivity).
  simpl in K. destruct K as [<-|[<-|[]]]; vm_compute in H; repeat (destruct H as [<-|H]; [vm_compute; intuition discriminate|]); destruct H.
Qed.
Lemma bad_example : exists r, is_loaded bad_g /\ built w_x /\ plain_blank ascii_uni /\
  ~ In TAB (search_text ascii_env w_x (prepared ascii_env en (s2t "12 Main st"))) /\
  blank_lines ascii_uni (search_text ascii_env w_x (prepared ascii_env en (s2t "12 Main st"))) /\
  (forall w le, In le (lex_find w_x w) -> ~ In I_BADTOKEN (le_type le)) /\
  (exists sec rl, In sec (g_rules bad_g) /\ In rl (rs_rules sec) /\ In I_BADTOKEN (r_in rl)) /\
  standardize_addr ascii_env bad_g w_x en w_filter (s2t "12 Main st") = Ok (Some r) /\ nth_error (sa_fields r) 5 = Some (some "MAIN").
Proof.
  eexists. split; [exact bad_g_loaded|]. split; [exact w_x_built|]. split; [exact ascii_blank|]. split; [absent|]. split; [apply ascii_lines; absent|].
  split; [exact bad_x|]. split.
  - do 2 eexists. split; [left; reflexivity|]. split; [left; reflexivity|]. vm_compute. auto.
  - split; vm_compute; reflexivity.
Qed.
