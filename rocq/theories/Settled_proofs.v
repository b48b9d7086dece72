From Coq Require Import NArith Lia String List.
From Verif Require Import Base_model Class_model Token_model Lexicon_model LexFile_spec Lexicon_spec Wrapper_model Wrapper_spec Class_spec Classify_proofs WrapperTop_proofs WrapperEx_proofs ShippedLex_proofs TokExample_proofs LexText_spec Archive_model Loaded_spec Tokenizer_model ShippedLex_model ShippedLex_spec Settled_spec.
Import ListNotations.

Lemma form_fun : forall x c w s s', form x c w s -> form x c w s' -> s = s'.
Proof.
  intros x c w s s' [(a & le & b & E & I & N0 & ->)|[N0 ->]] [(a' & le' & b' & E' & I' & N' & ->)|[N' ->]].
  - assert (le = le'); [|subst; reflexivity]. rewrite E in E'. clear E. revert a' E' N'. induction a as [|f a IH]; intros [|f' a'] E' N'.
    + injection E' as -> _. reflexivity.
    + injection E' as -> _. exfalso. apply (N' f' (or_introl eq_refl)). exact I.
    + injection E' as -> _. exfalso. apply (N0 le' (or_introl eq_refl)). exact I'.
    + injection E' as -> E'. apply (IH (fun g H => N0 g (or_intror H)) a' E' (fun g H => N' g (or_intror H))).
  - exfalso. apply (N' le); [rewrite E; apply in_elt|exact I].
  - exfalso. apply (N0 le'); [rewrite E'; apply in_elt|exact I'].
  - reflexivity.
Qed.

Lemma word_form : forall x c w k, standardize_word x (bare w c) = Ok k -> form x c w (t_std k).
Proof.
  intros x c w k H. destruct (standard_one x (bare w c) (bare w c) c k H eq_refl eq_refl eq_refl) as [(a & le & b & E & I & F & D)|[F D]].
  - left. exists a, le, b. repeat (split; [assumption|]). unfold or_text in D. cbn [bare t_text] in D. rewrite D. destruct (le_std le); reflexivity.
  - right. split; [exact F|exact D].
Qed.
Lemma word_some : forall x c w, exists k, standardize_word x (bare w c) = Ok k.
Proof. intros x c w. destruct (standard_word x (bare w c) c eq_refl) as (k & E & _). exists k. exact E. Qed.
Lemma form_word : forall x c w s, form x c w s -> exists k, standardize_word x (bare w c) = Ok k /\ t_std k = s.
Proof. intros x c w s H. destruct (word_some x c w) as (k & E). exists k. split; [exact E|]. exact (form_fun _ _ _ _ _ (word_form _ _ _ _ E) H). Qed.
Lemma again_iff : forall x, settled x <->
  forall c w k k', standardize_word x (bare w c) = Ok k -> standardize_word x (bare (t_std k) c) = Ok k' -> t_std k' = t_std k.
Proof.
  intros x. split.
  - intros H c w k k' E E'. exact (H c w _ _ (word_form _ _ _ _ E) (word_form _ _ _ _ E')).
  - intros H c w s s' F F'. destruct (form_word _ _ _ _ F) as (k & E & <-). destruct (form_word _ _ _ _ F') as (k' & E' & <-). exact (H c w k k' E E').
Qed.
Lemma readings_settled : forall x c n w s, settled x -> readings x c (S n) w s -> form x c w s.
Proof.
  intros x c n. induction n as [|n IH]; intros w s H R; inversion R as [|m w' k s' E R']; subst.
  - inversion R'; subst. apply word_form. exact E.
  - assert (F := IH _ _ H R'). assert (G := word_form _ _ _ _ E). rewrite (H c w _ _ G F). exact G.
Qed.
Lemma entries_settled : forall x, settled_entries x -> settled x.
Proof.
  intros x H c w s s' [(a & le & b & E & I & N0 & ->)|[N0 ->]] F'.
  - destruct (le_std le) as [|ch r] eqn:D.
    + refine (form_fun _ _ _ _ _ F' (or_introl _)). exists a, le, b. rewrite D. repeat (split; [assumption|]). reflexivity.
    + destruct F' as [(a' & le' & b' & E' & I' & N' & ->)|[_ ->]]; [|reflexivity].
      assert (L : In le (lex_find x w)) by (rewrite E; apply in_elt). assert (NE : le_std le <> []) by (rewrite D; discriminate).
      assert (L' : In le' (lex_find x (le_std le))) by (rewrite D, E'; apply in_elt).
      destruct (H w le c L I NE le' L' I') as [Z|Z]; rewrite Z; [reflexivity|rewrite D; reflexivity].
  - exact (form_fun _ _ _ _ _ F' (or_intror (conj N0 eq_refl))).
Qed.

(** ** Examples *)
Lemma w_x_settled : settled_entries w_x.
Proof.
  intros w le c H K D le' H' K'. assert (listed : In w [s2t "PO BOX"; s2t "ST"]).
  { rewrite <- (listed_keys w_x w [s2t "PO BOX"; s2t "ST"] w_x_built) by (vm_compute; reflexivity). intros Z. rewrite Z in H. destruct H. }
  destruct listed as [<-|[<-|[]]]; vm_compute in H; (destruct H as [<-|[]]); vm_compute in H'; [destruct H' as [<-|[]]|destruct H'].
  right. reflexivity.
Qed.
(** Two words, each the standard form of the other. *)
Definition swap_lines : list text := [
 s2t "LEXICON:" ++ wt ++ s2t "demo" ++ wt ++ s2t "ENG" ++ wt ++ s2t "en" ++ wt;
 s2t "LEXENTRY:" ++ wt ++ s2t "ST" ++ wt ++ s2t "STREET" ++ wt ++ s2t "TYPE" ++ wt ++ wt;
 s2t "LEXENTRY:" ++ wt ++ s2t "STREET" ++ wt ++ s2t "ST" ++ wt ++ s2t "TYPE" ++ wt ++ wt].
Definition swap_text : text := file swap_lines [].
Lemma swap_loads : load_lexicon ascii_env query_lex swap_text = Ok (lex_of swap_text).
Proof. apply lex_of_ok. vm_compute. reflexivity. Qed.
Lemma swap_step : forall w, w = s2t "ST" \/ w = s2t "STREET" -> exists k, standardize_word (lex_of swap_text) (bare w I_TYPE) = Ok k /\ t_std k <> w /\ (t_std k = s2t "ST" \/ t_std k = s2t "STREET").
Proof. intros w [-> | ->]; (eexists; split; [vm_compute; reflexivity|]); (split; [discriminate|]); [right|left]; reflexivity. Qed.
Lemma swap_readings : forall n w s, w = s2t "ST" \/ w = s2t "STREET" -> readings (lex_of swap_text) I_TYPE n w s -> s = s2t "ST" \/ s = s2t "STREET".
Proof.
  intros n. induction n as [|n IH]; intros w s H R; inversion R as [|m w' k s' E R']; subst; [exact H|].
  destruct (swap_step w H) as (k' & E' & _ & D). rewrite E in E'. injection E' as <-. exact (IH _ _ D R').
Qed.
Lemma never_settles : exists t x c w, load_lexicon ascii_env query_lex t = Ok x /\
  (forall n, exists s, readings x c n w s) /\
  forall n s, readings x c n w s -> exists k, standardize_word x (bare s c) = Ok k /\ t_std k <> s.
Proof.
  exists swap_text, (lex_of swap_text), I_TYPE, (s2t "ST"). split; [exact swap_loads|]. split.
  - intros n. assert (A : forall w, exists s, readings (lex_of swap_text) I_TYPE n w s).
    { induction n as [|n IH]; intros w; [exists w; constructor|]. destruct (word_some (lex_of swap_text) I_TYPE w) as (k & E). destruct (IH (t_std k)) as (s & R).
      exists s. econstructor; [exact E|exact R]. }
    apply A.
  - intros n s R. destruct (swap_step s (swap_readings n _ s (or_introl eq_refl) R)) as (k & E & D & _). exists k. split; [exact E|exact D].
Qed.

(** The Portuguese lexicon has a form with blanks behind it, and another word that has the form without them. *)
Definition forms_of (t : text) (c : intype) (ws : list text) : list text :=
  let x := lex_of t in map (fun w => match standardize_word x (bare w c) with Ok k => t_std k | _ => [] end) ws.
Lemma portugal_forms : (loads (lex_text slex_portugal), forms_of (lex_text slex_portugal) I_PROV [201%N :: s2t "VORA"; s2t "EVORA"]) = (true, [s2t "EVORA"; s2t "EVORA "]).
Proof. vm_compute. reflexivity. Qed.
Lemma in_shipped_portugal : In slex_portugal shipped_lexicons.
Proof. unfold shipped_lexicons. repeat (first [left; reflexivity | right]). Qed.
Lemma shipped_unsettled : exists ps t x, In ps shipped_lexicons /\ text_of ps t /\ load_lexicon ascii_env query_lex t = Ok x /\ ~ settled x /\
  exists k1 k2, standardize_word x (bare (201%N :: s2t "VORA") I_PROV) = Ok k1 /\ t_std k1 = s2t "EVORA" /\
    standardize_word x (bare (s2t "EVORA") I_PROV) = Ok k2 /\ t_std k2 = s2t "EVORA ".
Proof.
  assert (P := portugal_forms). apply pair_equal_spec in P. destruct P as (L & F). unfold forms_of in F. cbn [map] in F.
  exists slex_portugal, (lex_text slex_portugal), (lex_of (lex_text slex_portugal)). split; [exact in_shipped_portugal|].
  split; [exact (shipped_text_of _ in_shipped_portugal)|]. split; [exact (lex_of_ok _ L)|]. clear L.
  destruct (word_some (lex_of (lex_text slex_portugal)) I_PROV (201%N :: s2t "VORA")) as (k1 & E1).
  destruct (word_some (lex_of (lex_text slex_portugal)) I_PROV (s2t "EVORA")) as (k2 & E2).
  rewrite E1, E2 in F. injection F as F1 F2. split.
  - intros H. assert (G := proj1 (again_iff _) H I_PROV _ k1 k2 E1). rewrite F1 in G. specialize (G E2). rewrite F2 in G. discriminate G.
  - exists k1, k2. auto.
Qed.

(** The filled columns in their order, with a blank between them. *)
Lemma call_again : exists e atof gr lx locale filt address r,
  (forall x, load_lexicon e query_lex lx = Ok x -> settled x) /\
  std_standardize e atof address gr lx locale filt = Ok (Some r) /\
  std_standardize e atof (join [32%N] (flat_map (fun f => match f with Some w => [w] | None => [] end) (sa_fields r))) gr lx locale filt = Ok None.
Proof.
  exists ascii_env, Sample_model.sample_atof, w_grammar, w_lexicon, en, w_filter, w_addr. eexists. split.
  - intros x H. rewrite w_x_loaded in H. assert (X : w_x = x) by congruence. rewrite <- X. apply entries_settled. exact w_x_settled.
  - split; [exact w_call|]. vm_compute. reflexivity.
Qed.
