(** Lemmas about what as_parse tells about the other functions. *)
From Coq Require Import String List NArith Bool Lia Arith.
From Verif Require Import Base_model Class_model Uni_model Token_model Lexicon_model Tokenizer_model Archive_model Float_model Rule_model Search_model Grammar_model Wrapper_model
  Sample_model Class_spec Grammar_spec Search_spec Loaded_spec LexText_spec Lexicon_spec Tokenizer_spec Address_spec Wrapper_spec Answer_spec End_spec Tells_spec
  Class_proofs Search_proofs SearchTop_proofs Loaded_proofs Pattern_proofs Score_proofs Wrapper_proofs WrapperTop_proofs TokExample_proofs WrapperEx_proofs End_proofs EndEx_proofs Filter_proofs.
Import ListNotations.
Local Open Scope N_scope.

Lemma phrase_rows_are : forall ks i j, Forall (fun r => pr_pat r = i) (fst (phrase_rows i j ks)) /\ map pr_class (fst (phrase_rows i j ks)) = map (fun k => iset_str (t_in k)) ks.
Proof.
  induction ks as [|k ks IH]; intros i j; [split; [constructor|reflexivity]|]. cbn [phrase_rows]. destruct (IH i (j + 1)) as (A & B). destruct (phrase_rows i (j + 1) ks) as (l, j'). cbn [fst map] in *.
  split; [constructor; [reflexivity|exact A]|]. cbn [pr_class]. rewrite B. reflexivity.
Qed.
Lemma rows_later : forall phs i j, Forall (fun r => i <= pr_pat r) (all_rows i j phs).
Proof.
  induction phs as [|p phs IH]; intros i j; [constructor|]. cbn [all_rows]. destruct (phrase_rows_are p i j) as (H & _). destruct (phrase_rows i j p) as (l, j'). cbn [fst] in H.
  apply Forall_app. split; [eapply Forall_impl; [|exact H]; intros r ->; apply N.le_refl|]. eapply Forall_impl; [|exact (IH (i + 1) j')]. intros r K. cbv beta in K. lia.
Qed.
Lemma filter_every : forall (f : prow -> bool) l, Forall (fun r => f r = true) l -> filter f l = l.
Proof. intros f l H. induction H as [|r l E H IH]; [reflexivity|]. cbn [filter]. rewrite E, IH. reflexivity. Qed.
Lemma filter_never : forall (f : prow -> bool) l, Forall (fun r => f r = false) l -> filter f l = [].
Proof. intros f l H. induction H as [|r l E H IH]; [reflexivity|]. cbn [filter]. rewrite E. exact IH. Qed.
Lemma rows_of_number : forall phs a i j ph, nth_error phs a = Some ph ->
  map pr_class (filter (fun r => pr_pat r =? i + N.of_nat a) (all_rows i j phs)) = map (fun k => iset_str (t_in k)) ph.
Proof.
  induction phs as [|p phs IH]; intros a i j ph H; [destruct a; discriminate|]. cbn [all_rows]. destruct (phrase_rows_are p i j) as (A & B). destruct (phrase_rows i j p) as (l, j'). cbn [fst] in *. rewrite filter_app.
  destruct a as [|a].
  - injection H as ->. change (N.of_nat 0) with 0. rewrite N.add_0_r. rewrite filter_every by (eapply Forall_impl; [|exact A]; intros r ->; apply N.eqb_refl).
    rewrite filter_never, app_nil_r by (eapply Forall_impl; [|exact (rows_later phs (i + 1) j')]; intros r K; cbv beta in K; apply N.eqb_neq; lia). exact B.
  - rewrite filter_never by (eapply Forall_impl; [|exact A]; intros r ->; apply N.eqb_neq; lia). cbn [app]. replace (i + N.of_nat (S a)) with ((i + 1) + N.of_nat a) by lia. apply IH. exact H.
Qed.
Lemma shown_filter : forall p l, map pr_class (filter (fun r => pr_pat r =? p + 1) (map shown l)) = map pr_class (filter (fun r => pr_pat r =? p) l).
Proof.
  intros p l. induction l as [|r l IH]; [reflexivity|]. cbn [map filter]. change (pr_pat (shown r)) with (pr_pat r + 1). destruct (N.eqb_spec (pr_pat r) p) as [->|N].
  - rewrite N.eqb_refl. cbn [map]. rewrite IH. reflexivity.
  - replace (pr_pat r + 1 =? p + 1) with false by (symmetry; apply N.eqb_neq; lia). exact IH.
Qed.
Lemma chosen_rows : forall phs ph pat rows, In ph phs -> chooses ph pat -> rows = map shown (all_rows 0 0 phs) ->
  exists p, Forall2 (fun row c => in_list (pr_class row) c) (filter (fun row => pr_pat row =? p) rows) pat.
Proof.
  intros phs ph pat rows I C ->. apply In_nth_error in I. destruct I as (a & I). exists (N.of_nat a + 1). assert (E := rows_of_number phs a 0 0 ph I). cbn [N.add] in E.
  rewrite <- shown_filter in E. revert E. generalize (filter (fun r => pr_pat r =? N.of_nat a + 1) (map shown (all_rows 0 0 phs))). clear - C. intros l. revert l. unfold chooses in C. induction C as [|k c ks cs K C IH]; intros l E.
  - destruct l; [constructor|discriminate].
  - destruct l as [|r l]; [discriminate|]. cbn [map] in E. injection E as E1 E2. constructor; [|exact (IH l E2)]. rewrite E1. apply (proj2 (names_in (t_in k) c)). exact K.
Qed.
Lemma outputs_length : forall g names k rs, rules_balanced g -> derives g names k rs -> List.length (rule_outputs rs) = List.length (rule_inputs rs).
Proof.
  intros g names k rs B D. induction D as [|ms refs rest k rs I J D IH|sec r rest k rs I J D IH]; [reflexivity|exact IH|]. unfold rule_outputs, rule_inputs in *. cbn [map concat]. rewrite !app_length, IH, (B sec r I J). reflexivity.
Qed.
Lemma found_in : forall g phs found p, Forall2 (fun ph ps => search g ph = Ok ps) phs found -> In p (List.concat found) -> exists ph ps, In ph phs /\ search g ph = Ok ps /\ In p ps.
Proof.
  intros g phs found p F. induction F as [|ph ps phs found E F IH]; intros I; [destruct I|]. cbn [List.concat] in I. apply in_app_or in I. destruct I as [I|I]; [exists ph, ps; split; [left; reflexivity|auto]|].
  destruct (IH I) as (ph' & ps' & A & B). exists ph', ps'. split; [right; exact A|exact B].
Qed.
Lemma Forall2_back : forall A B (R : A -> B -> Prop) l l' y, Forall2 R l l' -> In y l' -> exists x, In x l /\ R x y.
Proof. intros A B R l l' y F. induction F as [|a b l l' H F IH]; intros I; [destruct I|]. destruct I as [<-|I]; [exists a; split; [left; reflexivity|exact H]|]. destruct (IH I) as (z & J & K). exists z. split; [right; exact J|exact K]. Qed.
Lemma row_taken : forall g phs rows out r, is_loaded g -> rows = map shown (all_rows 0 0 phs) -> search_all g phs = Ok out -> In r out ->
  m_matched r = s2t "Failed to match to grammar!"%string \/ taken_from rows (m_matched r).
Proof.
  intros g phs rows out r G E S I. assert (L := loaded_linked g G). assert (B := loaded_balanced g G).
  destruct (search_all_spec g phs L B (loaded_address g G)) as (found & out' & F & S' & N1 & N2). rewrite S in S'. injection S' as <-.
  destruct (List.concat found) as [|p0 pl] eqn:Q; [rewrite (N1 eq_refl) in I; destruct I as [<-|[]]; left; reflexivity|]. right. rewrite <- Q in N2. specialize (N2 ltac:(rewrite Q; discriminate)).
  destruct (Forall2_back _ _ _ _ _ _ N2 I) as (p & Ip & (M & _)). destruct (found_in _ _ _ _ F Ip) as (ph & ps & Iph & Es & Ips).
  destruct (search_sound g ADDRESS ph ps p L Es Ips) as (k & (D & C) & _). destruct (chosen_rows phs ph _ rows Iph C E) as (n & K).
  exists n, (rule_inputs (p_rules p)), (rule_outputs (p_rules p)). split; [exact M|]. split; [exact (outputs_length _ _ _ _ B D)|exact K].
Qed.
Lemma match_told : forall e atof sort address gr arg locale filt rows out r, uni_ok (e_uni e) -> (forall (l : list mresult) q, In q (sort l) -> In q l) ->
  parse_table (std_parse_address e address arg locale filt) = Ok rows -> match_table (std_match_address e atof sort address gr arg locale filt) = Ok out -> In r out ->
  m_matched r = s2t "Failed to match to grammar!"%string \/ taken_from rows (m_matched r).
Proof.
  intros e atof sort address gr arg locale filt rows out r U S P M I. unfold std_parse_address, std_match_address in *.
  destruct (grammar_cases e atof gr U) as [(g & E & _ & GL)|(m & E & _)]; rewrite E in M; cbn [obind match_table] in M; [|injection M as <-; destruct I].
  destruct (get_lexicon e arg) as [x|m|]; cbn [obind match_table] in M; [|injection M as <-; destruct I|discriminate M]. cbn [obind] in P. unfold parse_addr, match_addr in *.
  destruct (make_phrases e x locale filt address) as [phs|m|]; cbn [obind match_table] in M; [|injection M as <-; destruct I|discriminate M]. cbn [obind parse_table] in P. injection P as <-.
  destruct (search_all g phs) as [q|m|] eqn:Q; cbn [obind match_table] in M; [|injection M as <-; destruct I|discriminate M]. injection M as <-. apply S in I. exact (row_taken g phs _ q r GL eq_refl Q I).
Qed.
Lemma standardize_told : forall e atof address gr arg locale filt rows a, uni_ok (e_uni e) ->
  parse_table (std_parse_address e address arg locale filt) = Ok rows -> std_standardize e atof address gr arg locale filt = Ok (Some a) -> taken_from rows (sa_pattern a).
Proof.
  intros e atof address gr arg locale filt rows a U P M. unfold std_parse_address, std_standardize in *.
  destruct (grammar_cases e atof gr U) as [(g & E & _ & GL)|(m & E & _)]; rewrite E in M; cbn [obind] in M; [|discriminate M].
  destruct (get_lexicon e arg) as [x|m|]; cbn [obind] in M; [|discriminate M|discriminate M]. cbn [obind] in P. unfold parse_addr, standardize_addr in *.
  destruct (make_phrases e x locale filt address) as [phs|m|]; cbn [obind] in M; [|discriminate M|discriminate M]. cbn [obind parse_table] in P. injection P as <-.
  destruct (search_best g phs) as [b|m|] eqn:Q; cbn [obind] in M; [|discriminate M|discriminate M]. destruct (f_le f_zero (b_score b)) eqn:Z; [|discriminate M].
  destruct (collect x (repeat [] 16) (b_tokens b)) as [v|m|]; cbn [obind] in M; [|discriminate M|discriminate M]. injection M as <-. cbn [sa_pattern].
  destruct (best_loop_from g phs _ b Q) as [->|(ph & Iph & B)]; [discriminate Z|]. destruct (best1_from g [] ph b B Z) as (ps & p & S & Ip & R & ->).
  assert (L := loaded_linked g GL). assert (Ba := loaded_balanced g GL). destruct (reclass_faithful g ADDRESS ph ps p L Ba S Ip) as (ts & R' & _ & _ & _ & _ & T & C & K).
  rewrite R in R'. injection R' as R'. rewrite R'. rewrite (pattern_str_spec ts _ T). destruct (chosen_rows phs ph _ _ Iph C eq_refl) as (n & F). exists n, (rule_inputs (p_rules p)), (map t_out ts).
  split; [reflexivity|]. split; [|exact F]. rewrite map_length. rewrite <- (map_length (fun c : intype => [c]) (rule_inputs (p_rules p))), <- T, map_length. reflexivity.
Qed.
Lemma told_setting : uni_ok (e_uni ascii_env) /\ (forall (l : list mresult) q, In q (rev l) -> In q l) /\
  exists rows r, parse_table (std_parse_address ascii_env w_addr w_lexicon en w_filter) = Ok rows /\
    match_table (std_match_address ascii_env sample_atof (@rev mresult) w_addr w_grammar w_lexicon en w_filter) = Ok [r] /\
    m_matched r = s2t "NUMBER WORD TYPE BOXH NUMBER -> HOUSE STREET SUFTYP BOXH BOXT"%string /\
    map pr_class (filter (fun row => pr_pat row =? 1) rows) = map s2t ["NUMBER"; "WORD"; "TYPE"; "BOXH"; "NUMBER"]%string.
Proof.
  split; [exact ascii_uni_ok|]. split; [intros l q; apply in_rev|]. do 2 eexists. split; [vm_compute; reflexivity|]. split; [vm_compute; reflexivity|]. split; vm_compute; reflexivity.
Qed.
Definition told_grammar : text := s2t "[ADDRESS]
NUMBER WORD TYPE DOUBLE WORD NUMBER -> HOUSE STREET SUFTYP CITY CITY POSTAL -> 0.5
".
Lemma told_second : exists rows a, parse_table (std_parse_address ascii_env w_addr w_lexicon en w_filter) = Ok rows /\
  std_standardize ascii_env sample_atof w_addr told_grammar w_lexicon en w_filter = Ok (Some a) /\
  sa_pattern a = join [32] (pattern_words [I_NUMBER; I_WORD; I_TYPE; I_DOUBLE; I_WORD; I_NUMBER] [O_HOUSE; O_STREET; O_SUFTYP; O_CITY; O_CITY; O_POSTAL]) /\
  List.length (filter (fun row => pr_pat row =? 1) rows) = 5%nat /\
  map pr_class (filter (fun row => pr_pat row =? 2) rows) = map s2t ["NUMBER"; "WORD"; "TYPE"; "WORD,DOUBLE"; "WORD"; "NUMBER"]%string.
Proof. do 2 eexists. split; [vm_compute; reflexivity|]. split; [vm_compute; reflexivity|]. split; [vm_compute; reflexivity|]. split; vm_compute; reflexivity. Qed.
Lemma told_standard_setting : uni_ok (e_uni ascii_env) /\ exists rows a, parse_table (std_parse_address ascii_env w_addr w_lexicon en w_filter) = Ok rows /\
  std_standardize ascii_env sample_atof w_addr w_grammar w_lexicon en w_filter = Ok (Some a) /\ sa_pattern a = s2t "NUMBER WORD TYPE BOXH NUMBER -> HOUSE STREET SUFTYP BOXH BOXT"%string.
Proof. split; [exact ascii_uni_ok|]. do 2 eexists. split; [vm_compute; reflexivity|]. split; vm_compute; reflexivity. Qed.
