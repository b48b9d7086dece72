(** Whole calls, whatever the scores of the grammar are. *)
From Coq Require Import String List NArith ZArith Bool Lia Sorting.Permutation Floats.SpecFloat.
From Verif Require Import Base_model Class_model Float_model Uni_model Token_model Rule_model Search_model Grammar_model Regex_model Trie_model Lexicon_model
  Tokenizer_model Archive_model Wrapper_model Wrapper_spec Sample_model Search_spec Loaded_spec Lexicon_spec LexText_spec Tokenizer_spec
  Search_proofs SearchTop_proofs SearchBest_proofs Pattern_proofs Loaded_proofs Wrapper_proofs WrapperTop_proofs WrapperEx_proofs
  Score_model Score_spec GrammarMore_proofs Float_proofs Score_proofs.
Import ListNotations.

Lemma answered_any : forall e g x locale filt address phrases, is_loaded g ->
  make_phrases e x locale filt address = Ok phrases ->
  exists o, standardize_addr e g x locale filt address = Ok o /\
    (o = None <-> forall ph ps, In ph phrases -> search g ph = Ok ps -> ps = []).
Proof.
  intros e g x locale filt address phrases HL P.
  destruct (choice_sign g phrases HL) as (b & B & SG). unfold standardize_addr. rewrite P. cbn [obind]. rewrite B. cbn [obind].
  destruct (f_le f_zero (b_score b)) eqn:L.
  - destruct (best_from _ _ _ B L) as (ph & ps & p & I & S' & J & R & M).
    destruct (reclass_faithful g ADDRESS ph ps p (loaded_linked g HL) (loaded_balanced g HL) S' J) as (ts & R' & _ & _ & _ & _ & T3 & _ & _).
    rewrite R in R'. injection R' as <-. destruct (collect_defined x (b_tokens b) (repeat [] 16)) as (v & V).
    { intros k IK. apply (in_map t_in) in IK. rewrite T3 in IK. apply in_map_iff in IK. destruct IK as (c & <- & _). exists c. reflexivity. }
    rewrite V. cbn [obind]. eexists. split; [reflexivity|]. split; [discriminate|]. intros N. specialize (N ph ps I S'). subst ps. destruct J.
  - exists None. split; [reflexivity|]. split; [|reflexivity]. intros _ ph ps I S'. destruct ps as [|p ps]; [reflexivity|exfalso].
    assert (X : f_le f_zero (b_score b) = true) by (apply SG; exists ph, (p :: ps); repeat split; [exact I|exact S'|discriminate]). congruence.
Qed.
Lemma answer_any : forall e g x locale filt address, is_loaded g -> built x -> simple_words x ->
  blank_lines (e_uni e) (search_text e x (prepared e locale address)) ->
  exists ks, get_tokens e (mkTz x (as_type filt)) (prepared e locale address) = Ok ks /\
    ((phrases ks <= 31)%nat -> exists alts o, get_alt_tokens (e_uni e) x ks = Ok alts /\ standardize_addr e g x locale filt address = Ok o /\
        (o <> None -> exists ph k rs, In ph (ks :: alts) /\ matches g ADDRESS ph k rs) /\
        (o = None -> forall ph k rs, In ph (ks :: alts) -> (combinations ph <= 2 ^ 32)%N -> (k <= List.length ph + 2)%nat -> ~ matches g ADDRESS ph k rs)).
Proof.
  intros e g x locale filt address HL B S' BL. destruct (phrases_ok e x locale filt address B S' BL) as (ks & G & M). exists ks. split; [exact G|].
  intros PH. destruct (M PH) as (alts & P). exists alts. destruct (answered_any e g x locale filt address _ HL P) as (o & E & I). exists o. split.
  { unfold make_phrases, set_filter in P. cbn [z_lex] in P. rewrite G in P. cbn [obind] in P. destruct (get_alt_tokens _ _ _); cbn [obind] in P; try discriminate. injection P as ->. reflexivity. }
  split; [exact E|].
  destruct (search_all_spec g (ks :: alts) (loaded_linked g HL) (loaded_balanced g HL) (loaded_address g HL)) as (found & rows & F & _).
  split.
  - intros NE. destruct (existsb (fun ps => match ps with [] => false | _ => true end) found) eqn:X.
    + apply existsb_exists in X. destruct X as (ps & IP & NP). destruct (Forall2_right _ _ _ _ _ _ F IP) as (ph & J & E2). destruct ps as [|p ps]; [discriminate NP|].
      destruct (search_sound g ADDRESS ph (p :: ps) p (loaded_linked g HL) E2 (or_introl eq_refl)) as (k & MT & _). exists ph, k, (p_rules p). auto.
    + exfalso. apply NE, I. intros ph ps J E2. destruct (Forall2_left _ _ _ _ _ _ F J) as (ps' & IP & E3). rewrite E2 in E3. injection E3 as <-.
      destruct ps as [|p ps]; [reflexivity|]. assert (false = true) by (rewrite <- X; apply existsb_exists; exists (p :: ps); auto). discriminate.
  - intros -> ph k rs J CB K MT. destruct (search_complete g ADDRESS ph k rs (loaded_linked g HL) CB MT K) as (ps & p & E2 & IP & _).
    rewrite (proj1 I eq_refl ph ps J E2) in IP. destruct IP.
Qed.

(** The row is that of a derivation with the greatest score that counts. *)
Lemma row_any : forall e g x locale filt address r phrases, is_loaded g ->
  make_phrases e x locale filt address = Ok phrases -> standardize_addr e g x locale filt address = Ok (Some r) ->
  exists ph k rs ws, In ph phrases /\ derives g [ADDRESS] k rs /\ chooses ph (rule_inputs rs) /\ (k <= List.length ph + 2)%nat /\
    standards x ph (rule_inputs rs) ws /\
    sa_fields r = map (fun c => content c (combine (rule_outputs rs) ws)) columns /\
    sa_pattern r = join [SP] (pattern_words (rule_inputs rs) (rule_outputs rs)) /\
    forall ph' k' rs', In ph' phrases -> (combinations ph' <= 2 ^ 32)%N -> derives g [ADDRESS] k' rs' -> chooses ph' (rule_inputs rs') ->
      (k' <= List.length ph' + 2)%nat -> SFltb (counted (average32 rs)) (counted (average32 rs')) = false.
Proof.
  intros e g x locale filt address r phrases HL P H. apply address_columns in H. destruct H as (phrases' & b & ks & P' & B & L & F & E & EP).
  rewrite P in P'. injection P' as <-.
  assert (X : exists ph ps p, In ph phrases /\ search g ph = Ok ps /\ In p ps /\ reclass_tokens ph p = Ok (b_tokens b, true) /\
     b_matched b = pattern_str (b_tokens b) /\ b_score b = counted (average32 (p_rules p))).
  { pose proof B as B'. apply best_loop_from in B'. destruct B' as [->|(ph & I & B')]; [discriminate L|].
    destruct (best1_from _ _ _ _ B' L) as (ps & p0 & S' & I0 & _).
    destruct (choice_some g [] ph ps HL S' ltac:(intros ->; destruct I0)) as (p & ts & FM & R & Q).
    rewrite B' in Q. injection Q as ->. exists ph, ps, p. split; [exact I|]. split; [exact S'|]. split; [eapply first_max_In; exact FM|].
    split; [exact R|]. split; reflexivity. }
  destruct X as (ph & ps & p & I & S' & J & R & M & SC).
  destruct (search_sound g ADDRESS ph ps p (loaded_linked g HL) S' J) as (k & (D & C) & K).
  destruct (reclass_faithful g ADDRESS ph ps p (loaded_linked g HL) (loaded_balanced g HL) S' J) as (ts & R' & T1 & T2 & _ & _ & T3 & _ & T4).
  rewrite R in R'. injection R' as <-. exists ph, k, (p_rules p), (map t_std ks). do 4 (split; [assumption|]).
  split; [eapply standards_all; [exact F|assumption..]|].
  split. { rewrite E. apply map_ext. intros c. destruct (words_kept _ _ _ F) as (O & _). rewrite <- T4, <- O, combine_placed. reflexivity. }
  split; [rewrite EP, M, (pattern_str_spec _ _ T3), T4; reflexivity|].
  intros ph' k' rs' I' CB D' C' K'.
  destruct (choice_all g phrases HL) as (rs0 & b0 & _ & B0 & _ & _ & MX). rewrite B in B0. injection B0 as <-.
  rewrite <- SC. destruct (search_complete g ADDRESS ph' k' rs' (loaded_linked g HL) CB (conj D' C') K') as (ps' & p' & S2 & J2 & <-).
  exact (MX ph' ps' p' I' S2 J2).
Qed.

(** A grammar whose only rule has no number for a score still gives a row. *)
Definition bare_src : string :=
"[ADDRESS]
@one
[one]
NUMBER WORD -> HOUSE CITY -> nan
".
Definition bare_g : grammar := match load_grammar ascii_uni nan_atof (s2t bare_src) with Ok L => gl_grammar L | _ => mkGrammar [] [] [] end.
Lemma bare_loaded : is_loaded bare_g.
Proof.
  unfold bare_g. remember (load_grammar ascii_uni nan_atof (s2t bare_src)) as o eqn:E. destruct o as [L|m|].
  - exists ascii_uni, nan_atof, (s2t bare_src), L. split; [apply ascii_uni_ok|]. split; auto.
  - exfalso. vm_compute in E. discriminate.
  - exfalso. vm_compute in E. discriminate.
Qed.
Lemma bare_row : ~ no_nan_scores bare_g /\
  standardize_addr ascii_env bare_g w_x en w_filter (s2t "12 Foo") =
  Ok (Some (mkStd [None; Some (s2t "12"); None; None; None; None; None; None; None; None; Some (s2t "FOO"); None; None; None; None; None] (s2t "NUMBER WORD -> HOUSE CITY"))).
Proof.
  split.
  - apply some_nan_ok. vm_compute. reflexivity.
  - vm_compute. reflexivity.
Qed.
