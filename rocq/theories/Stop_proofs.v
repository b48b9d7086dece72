(** Lemmas about classes that no rule of a grammar uses. *)
From Coq Require Import String List NArith Bool Lia Arith.
From Verif Require Import Base_model Class_model Uni_model Regex_model Token_model Lexicon_model Tokenizer_model Archive_model Float_model Rule_model Search_model Grammar_model Wrapper_model
  Sample_model Class_spec Grammar_spec Search_spec Loaded_spec LexText_spec Lexicon_spec Tokenizer_spec Address_spec Wrapper_spec Answer_spec End_spec Stop_spec
  Class_proofs Address_proofs Search_proofs SearchTop_proofs Loaded_proofs Pattern_proofs Score_proofs Wrapper_proofs WrapperTop_proofs TokSplit_proofs TokExample_proofs WrapperEx_proofs End_proofs Filter_proofs Tells_proofs Words_proofs.
Import ListNotations.
Local Open Scope N_scope.

Lemma derived_used : forall g names k rs, derives g names k rs -> Forall (used g) (rule_inputs rs).
Proof.
  intros g names k rs D. induction D as [|ms refs rest k rs I J D IH|sec r rest k rs I J D IH]; [constructor|exact IH|]. unfold rule_inputs in *. cbn [map List.concat]. apply Forall_app. split; [|exact IH].
  apply Forall_forall. intros c Ic. exists sec, r. auto.
Qed.
Lemma shown_in : forall phs a ph i j, nth_error phs a = Some ph -> forall k, In k ph -> exists row, In row (all_rows i j phs) /\ pr_pat row = i + N.of_nat a.
Proof.
  intros phs a ph i j H k K. assert (E := rows_of_number phs a i j ph H). destruct (filter (fun r => pr_pat r =? i + N.of_nat a) (all_rows i j phs)) as [|row l] eqn:Q.
  - destruct ph; [destruct K|discriminate].
  - exists row. assert (I : In row (row :: l)) by (left; reflexivity). rewrite <- Q in I. apply filter_In in I. split; [apply I|]. apply N.eqb_eq. apply I.
Qed.
Lemma row_token : forall phs a ph i j row, nth_error phs a = Some ph -> In row (all_rows i j phs) -> pr_pat row = i + N.of_nat a -> exists k, In k ph /\ pr_class row = iset_str (t_in k).
Proof.
  intros phs a ph i j row H I P. assert (E := rows_of_number phs a i j ph H). assert (J : In (pr_class row) (map (fun k => iset_str (t_in k)) ph)).
  { rewrite <- E. apply in_map. apply filter_In. split; [exact I|]. apply N.eqb_eq. exact P. }
  apply in_map_iff in J. destruct J as (k & K & J). exists k. auto.
Qed.
Lemma chosen_one : forall ph cs k, chooses ph cs -> In k ph -> exists c, In c (t_in k) /\ In c cs.
Proof. intros ph cs k C. unfold chooses in C. induction C as [|q c ph cs K C IH]; intros I; [destruct I|]. destruct I as [<-|I]; [exists c; split; [exact K|left; reflexivity]|]. destruct (IH I) as (d & A & B). exists d. split; [exact A|right; exact B]. Qed.
Lemma stopped_search : forall g phs ph ps, is_loaded g -> Forall (fun p => p <> []) phs -> stopped g (map shown (all_rows 0 0 phs)) -> In ph phs -> search g ph = Ok ps -> ps = [].
Proof.
  intros g phs ph ps G F (_ & S) I E. destruct ps as [|p ps]; [reflexivity|exfalso]. destruct (search_sound g ADDRESS ph _ p (loaded_linked g G) E (or_introl eq_refl)) as (k & (D & C) & _).
  assert (N : ph <> []) by (rewrite Forall_forall in F; exact (F ph I)). apply In_nth_error in I. destruct I as (a & I). destruct ph as [|q ph]; [congruence|].
  destruct (shown_in phs a _ 0 0 I q (or_introl eq_refl)) as (row & R1 & R2). destruct (S (shown row) (in_map shown _ _ R1)) as (row' & R3 & R4 & R5). apply in_map_iff in R3. destruct R3 as (r & <- & R3).
  change (pr_pat r + 1 = pr_pat row + 1) in R4. assert (R6 : pr_pat r = 0 + N.of_nat a) by lia. destruct (row_token phs a _ 0 0 r I R3 R6) as (t & T1 & T2).
  destruct (chosen_one _ _ t C T1) as (c & C1 & C2). apply (R5 c).
  - change (pr_class (shown r)) with (pr_class r). rewrite T2. apply (proj2 (names_in (t_in t) c)). exact C1.
  - assert (U := derived_used _ _ _ _ D). rewrite Forall_forall in U. exact (U c C2).
Qed.
Lemma stopped_calls : forall e atof sort address gr arg locale filt g rows, uni_ok (e_uni e) -> (forall r : mresult, sort [r] = [r]) -> get_grammar e atof gr = Ok g ->
  parse_table (std_parse_address e address arg locale filt) = Ok rows -> stopped g rows ->
  (exists r, match_table (std_match_address e atof sort address gr arg locale filt) = Ok [r] /\ m_matched r = s2t "Failed to match to grammar!"%string) /\
  std_standardize e atof address gr arg locale filt = Ok None.
Proof.
  intros e atof sort address gr arg locale filt g rows U So Gr P S. destruct (grammar_cases e atof gr U) as [(g' & E & _ & G)|(m & E & _)]; rewrite Gr in E; [injection E as <-|discriminate].
  destruct (table_rows _ _ P (proj1 S)) as (l & Q & ->). destruct (parsed _ _ _ _ _ _ Q) as (x & phs & X & M & ->).
  assert (F : Forall (fun p => p <> []) phs). { destruct (phrases_some _ _ _ _ _ _ M) as [->|F]; [|exact F]. destruct S as (S & _). destruct (S eq_refl). }
  unfold std_match_address, std_standardize. rewrite Gr, X. cbn [obind]. unfold match_addr, standardize_addr. rewrite M. cbn [obind]. split.
  - destruct (search_all_spec g phs (loaded_linked g G) (loaded_balanced g G) (loaded_address g G)) as (found & out & Fo & -> & A & _). cbn [obind match_table].
    assert (Z : List.concat found = []).
    { clear - G F S Fo. assert (K : Forall (fun ph => forall ps, search g ph = Ok ps -> ps = []) phs) by (apply Forall_forall; intros ph I ps; exact (stopped_search g phs ph ps G F S I)).
      clear - K Fo. induction Fo as [|ph ps phs found H Fo IH]; [reflexivity|]. inversion K as [|a b K1 K2]; subst. cbn [List.concat]. rewrite (K1 ps H). exact (IH K2). }
    rewrite (A Z), So. eexists. split; reflexivity.
  - destruct (choice_all g phs G) as (_ & b & _ & B & _ & Y & _). rewrite B. cbn [obind]. rewrite Y; [reflexivity|]. intros ph I. destruct (search_defined g ADDRESS ph (loaded_linked g G) (loaded_address g G)) as (ps & H).
    fold (search g ph) in H. rewrite H. f_equal. exact (stopped_search g phs ph ps G F S I H).
Qed.
(** A test for examples. *)
Definition usedb (g : grammar) (c : intype) : bool := existsb (fun sec => existsb (fun r => existsb (in_eqb c) (r_in r)) (rs_rules sec)) (g_rules g).
Lemma usedb_used : forall g c, used g c -> usedb g c = true.
Proof.
  intros g c (sec & r & A & B & C). unfold usedb. apply existsb_exists. exists sec. split; [exact A|]. apply existsb_exists. exists r. split; [exact B|]. apply existsb_exists. exists c. split; [exact C|]. destruct c; reflexivity.
Qed.
Definition stoppedb (g : grammar) (rows : list prow) : bool :=
  forallb (fun row => existsb (fun row' => (pr_pat row' =? pr_pat row) && forallb (fun c => negb (usedb g c)) (as_type (pr_class row'))) rows) rows.
Lemma stoppedb_ok : forall g rows, rows <> [] -> stoppedb g rows = true -> stopped g rows.
Proof.
  intros g rows N H. split; [exact N|]. intros row I. unfold stoppedb in H. rewrite forallb_forall in H. specialize (H row I). apply existsb_exists in H. destruct H as (row' & J & H). apply andb_prop in H. destruct H as (H1 & H2).
  exists row'. split; [exact J|]. split; [apply N.eqb_eq; exact H1|]. intros c Ic Uc. rewrite forallb_forall in H2. apply in_list_iff in Ic. specialize (H2 c Ic). rewrite (usedb_used g c Uc) in H2. discriminate.
Qed.
Lemma stopped_setting : uni_ok (e_uni ascii_env) /\ (forall r : mresult, rev [r] = [r]) /\ exists g rows, get_grammar ascii_env sample_atof w_grammar = Ok g /\
  parse_table (std_parse_address ascii_env w_addr w_lexicon en []) = Ok rows /\ stopped g rows /\ List.length rows = 176%nat.
Proof.
  split; [exact ascii_uni_ok|]. split; [reflexivity|]. do 2 eexists. split; [vm_compute; reflexivity|]. split; [vm_compute; reflexivity|]. split; [apply stoppedb_ok; [discriminate|vm_compute; reflexivity]|vm_compute; reflexivity].
Qed.
(** One tokenization with such a row is not enough. *)
Lemma stopped_first : exists g rows row a, get_grammar ascii_env sample_atof told_grammar = Ok g /\ parse_table (std_parse_address ascii_env w_addr w_lexicon en w_filter) = Ok rows /\
  In row rows /\ pr_pat row = 1 /\ (forall c, in_list (pr_class row) c -> ~ used g c) /\ std_standardize ascii_env sample_atof w_addr told_grammar w_lexicon en w_filter = Ok (Some a).
Proof.
  do 2 eexists. exists (mkRow 1 4 (s2t "PO BOX"%string) (s2t "BOXH"%string) []). eexists. split; [vm_compute; reflexivity|]. split; [vm_compute; reflexivity|]. split; [vm_compute; tauto|]. split; [reflexivity|]. split; [|vm_compute; reflexivity].
  intros c I. apply in_list_iff in I. vm_compute in I. destruct I as [<-|[]]. intros H. apply usedb_used in H. vm_compute in H. discriminate H.
Qed.
