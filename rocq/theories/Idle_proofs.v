(** Lemmas about rules that an address leaves idle. *)
From Coq Require Import String List NArith Bool Lia Arith.
From Verif Require Import Base_model Class_model Uni_model Regex_model Token_model Lexicon_model Tokenizer_model Archive_model Float_model Rule_model Search_model Grammar_model Wrapper_model
  Sample_model Class_spec Search_spec Grammar_spec LexText_spec Lexicon_spec Tokenizer_spec Address_spec Idle_spec
  Filter_proofs Enum_proofs Search_proofs SearchTop_proofs TokExample_proofs WrapperEx_proofs Tells_proofs Words_proofs.
Import ListNotations.
Local Open Scope N_scope.

(** A class that some row shows. *)
Definition met (rows : list prow) (c : intype) : Prop := exists row, In row rows /\ in_list (pr_class row) c.
Definition path_met (rows : list prow) (p : spath) : Prop := Forall (met rows) (p_rem p).
Lemma strip_parts : forall ins pat rest, strip_prefix ins pat = Some rest -> pat = (ins ++ rest)%list.
Proof.
  induction ins as [|i ins IH]; intros [|x pat] rest H; cbn [strip_prefix] in H; try discriminate; try (injection H as <-; reflexivity). destruct (in_eqb x i) eqn:E; [|discriminate]. apply in_eqb_eq in E. subst. cbn [app]. f_equal. apply IH. exact H.
Qed.
Lemma rule_met : forall rows r p q, path_met rows p -> match_rule r p = Some q -> path_met rows q /\ forall c, In c (r_in r) -> met rows c.
Proof.
  intros rows r p q P M. unfold match_rule in M. destruct (Nat.ltb _ _); [discriminate|]. destruct (strip_prefix _ _) as [rest|] eqn:S; [|discriminate]. injection M as <-. apply strip_parts in S. unfold path_met in *. rewrite S in P. cbn [p_rem].
  apply Forall_app in P. destruct P as (P1 & P2). split; [exact P2|]. rewrite Forall_forall in P1. exact P1.
Qed.
Lemma idle_fails : forall rows r p, path_met rows p -> idle rows r -> match_rule r p = None.
Proof.
  intros rows r p P (c & I & N). destruct (match_rule r p) as [q|] eqn:M; [|reflexivity]. exfalso. destruct (proj2 (rule_met rows r p q P M) c I) as (row & J & L). exact (N row J L).
Qed.
Lemma rules_same : forall rows l l' p, without rows l l' -> path_met rows p -> match_rules l p = match_rules l' p.
Proof.
  intros rows l l' p W P. induction W as [|r l l' W IH|r l l' I W IH]; [reflexivity| |]; cbn [match_rules]; [rewrite IH; reflexivity|]. rewrite (idle_fails rows r p P I). exact IH.
Qed.
Lemma rules_met : forall rows l p, path_met rows p -> Forall (path_met rows) (match_rules l p).
Proof. intros rows l p P. induction l as [|r l IH]; cbn [match_rules]; [constructor|]. destruct (match_rule r p) as [q|] eqn:M; [|exact IH]. constructor; [apply (rule_met rows r p q P M)|exact IH]. Qed.
Lemma same_place : forall rows l l' i, Forall2 (fun s s' => rs_name s' = rs_name s /\ without rows (rs_rules s) (rs_rules s')) l l' ->
  (nth_error l i = None /\ nth_error l' i = None) \/ exists s s', nth_error l i = Some s /\ nth_error l' i = Some s' /\ rs_name s' = rs_name s /\ without rows (rs_rules s) (rs_rules s').
Proof.
  intros rows l l' i F. revert i. induction F as [|s s' l l' (H1 & H2) F IH]; intros [|i]; [left; auto|left; auto| |apply IH]. right. exists s, s'. auto.
Qed.
Lemma sconcat_met : forall {A} rows (f : A -> sres (list spath)) l r, (forall x a, In x l -> f x = Done a -> Forall (path_met rows) a) -> sconcat f l = Done r -> Forall (path_met rows) r.
Proof.
  intros A rows f l r H S. apply Forall_forall. intros q I. apply (proj1 (sconcat_In f l r S q)) in I. destruct I as (x & a & I1 & I2 & I3). assert (F := H x a I1 I2). rewrite Forall_forall in F. exact (F q I3).
Qed.
Lemma match_same : forall rows g g', pruned rows g g' -> forall fuel,
  (forall lim sp p level, path_met rows p -> do_match fuel g lim sp p level = do_match fuel g' lim sp p level /\ forall l, do_match fuel g lim sp p level = Done l -> Forall (path_met rows) l) /\
  (forall lim p level, path_met rows p -> match_next fuel g lim p level = match_next fuel g' lim p level /\ forall l, match_next fuel g lim p level = Done l -> Forall (path_met rows) l).
Proof.
  intros rows g g' (M & _ & R). induction fuel as [|f (IH1 & IH2)]; [split; intros; cbn; split; [reflexivity|discriminate|reflexivity|discriminate]|]. split.
  - intros lim sp p level P. cbn [do_match]. destruct (Nat.ltb lim level); [split; [reflexivity|intros l H; injection H as <-; constructor]|]. destruct (f_meta sp) as [i|].
    + rewrite M. destruct (nth_error (g_metas g) i) as [ms|]; [|split; [reflexivity|discriminate]]. split.
      * apply sconcat_ext. intros refs _. destruct (refs ++ p_next p)%list; [reflexivity|]. apply IH2. exact P.
      * intros l. apply sconcat_met. intros refs a _. destruct (refs ++ p_next p)%list as [|s nx]; [intros H; injection H as <-; constructor|]. apply (IH2 lim (mkPath (p_rules p) (s :: nx) (p_rem p)) level P).
    + destruct (f_rule sp) as [i|]; [|split; [reflexivity|intros l H; injection H as <-; constructor]]. destruct (same_place rows _ _ i R) as [(-> & ->)|(s & s' & -> & -> & _ & W)]; [split; [reflexivity|discriminate]|]. split.
      * rewrite (rules_same rows _ _ p W P). reflexivity.
      * intros l H. injection H as <-. apply rules_met. exact P.
  - intros lim p level P. cbn [match_next]. destruct (p_next p) as [|sp rest]; [split; [reflexivity|intros l H; injection H as <-; constructor]|].
    destruct (IH1 lim sp (mkPath (p_rules p) rest (p_rem p)) (S level) P) as (E & F). rewrite <- E. destruct (do_match f g lim sp _ (S level)) as [mr| |]; cbn [sbind]; [|split; [reflexivity|discriminate]|split; [reflexivity|discriminate]].
    assert (Fm := F mr eq_refl). rewrite Forall_forall in Fm. split.
    + apply sconcat_ext. intros q _. destruct (p_next q); [reflexivity|]. apply sconcat_ext. intros q' I'. destruct (p_next q'); [reflexivity|]. apply IH2. exact (Fm q' I').
    + intros l. apply sconcat_met. intros q a I. destruct (p_next q); [intros H; injection H as <-; constructor; [exact (Fm q I)|constructor]|]. apply sconcat_met. intros q' a' I'. destruct (p_next q'); [intros H; injection H as <-; constructor|].
      apply (IH2 lim q' level). exact (Fm q' I').
Qed.
Lemma ptr_same : forall rows g g' n, pruned rows g g' -> section_ptr g n = section_ptr g' n.
Proof.
  intros rows g g' n (M & I & R). unfold section_ptr. rewrite M, I. destruct (index_find (g_index g) n) as [i|]; [|reflexivity]. destruct (same_place rows _ _ i R) as [(-> & ->)|(s & s' & -> & -> & -> & _)]; reflexivity.
Qed.
Lemma pruned_search : forall rows g g' ph, pruned rows g g' -> (forall k c, In k ph -> In c (t_in k) -> met rows c) -> search g ph = search g' ph.
Proof.
  intros rows g g' ph P H. unfold search, search_node. rewrite <- (ptr_same rows g g' ADDRESS P). destruct (section_ptr g ADDRESS) as [sp|]; [|reflexivity].
  assert (F : search_fuel g' (List.length ph) = search_fuel g (List.length ph)) by (destruct P as (M & _); unfold search_fuel, max_refs; rewrite M; reflexivity). rewrite F.
  rewrite (sconcat_ext (fun pat => do_match (search_fuel g (List.length ph)) g (List.length ph + 2) sp (mkPath [] [] pat) 0) (fun pat => do_match (search_fuel g (List.length ph)) g' (List.length ph + 2) sp (mkPath [] [] pat) 0)); [reflexivity|].
  intros pat I. apply (match_same rows g g' P). unfold path_met. cbn [p_rem]. apply enumerate_sound in I. clear - H I. unfold chooses in I. induction I as [|k c ph pat J I IH]; constructor; [apply (H k c); [left; reflexivity|exact J]|].
  apply IH. intros k' c' K. apply H. right. exact K.
Qed.
Lemma rows_met : forall phs ph k c, In ph phs -> In k ph -> In c (t_in k) -> met (all_rows 0 0 phs) c.
Proof.
  intros phs ph k c I J K. apply In_nth_error in I. destruct I as (a & H). assert (E := rows_of_number phs a 0 0 ph H). assert (L : In (iset_str (t_in k)) (map (fun k => iset_str (t_in k)) ph)) by (apply (in_map (fun k => iset_str (t_in k))); exact J).
  rewrite <- E in L. apply in_map_iff in L. destruct L as (row & R & L). apply filter_In in L. exists row. split; [apply L|]. rewrite R. apply (proj2 (names_in (t_in k) c)). exact K.
Qed.
Lemma pruned_all : forall g g' phs, (forall ph, In ph phs -> search g ph = search g' ph) -> search_all g phs = search_all g' phs.
Proof.
  intros g g' phs H. unfold search_all. assert (E : omap (all_phrase g) phs = omap (all_phrase g') phs); [|rewrite E; reflexivity]. induction phs as [|ph phs IH]; [reflexivity|]. cbn [omap].
  assert (A : all_phrase g ph = all_phrase g' ph) by (unfold all_phrase; rewrite (H ph (or_introl eq_refl)); reflexivity). rewrite A. destruct (all_phrase g' ph); cbn [obind]; [|reflexivity|reflexivity]. rewrite IH; [reflexivity|]. intros ph' I. apply H. right. exact I.
Qed.
Lemma pruned_best : forall g g' phs, (forall ph, In ph phs -> search g ph = search g' ph) -> search_best g phs = search_best g' phs.
Proof.
  intros g g' phs H. unfold search_best. generalize (mkBest [] f32_m1 [] f32_m1). induction phs as [|ph phs IH]; intros cur; [reflexivity|]. cbn [search_best_loop].
  assert (A : search_best1 g [] ph = search_best1 g' [] ph) by (unfold search_best1; rewrite (H ph (or_introl eq_refl)); reflexivity). rewrite A. destruct (search_best1 g' [] ph); cbn [obind]; [|reflexivity|reflexivity]. apply IH. intros ph' I. apply H. right. exact I.
Qed.
Lemma idle_calls : forall e atof sort address gr gr' arg locale filt g g' rows, get_grammar e atof gr = Ok g -> get_grammar e atof gr' = Ok g' ->
  std_parse_address e address arg locale filt = Ok rows -> pruned rows g g' ->
  std_match_address e atof sort address gr arg locale filt = std_match_address e atof sort address gr' arg locale filt /\
  std_standardize e atof address gr arg locale filt = std_standardize e atof address gr' arg locale filt.
Proof.
  intros e atof sort address gr gr' arg locale filt g g' rows Gr Gr' P T. destruct (parsed _ _ _ _ _ _ P) as (x & phs & X & M & ->).
  assert (H : forall ph, In ph phs -> search g ph = search g' ph) by (intros ph I; apply (pruned_search _ _ _ _ T); intros k c J K; exact (rows_met phs ph k c I J K)).
  unfold std_match_address, std_standardize. rewrite Gr, Gr', X. cbn [obind]. unfold match_addr, standardize_addr. rewrite M. cbn [obind]. rewrite (pruned_all g g' phs H), (pruned_best g g' phs H). split; reflexivity.
Qed.
(** [w_grammar] with two rules more, for classes that are not in the address. *)
Definition wide_grammar : text := s2t "[ADDRESS]
@house @street @box
@house @street
[house]
FRACT -> HOUSE -> 0.95
NUMBER -> HOUSE -> 0.9
[street]
WORD TYPE -> STREET SUFTYP -> 0.8
DIRECT WORD TYPE -> PREDIR STREET SUFTYP -> 0.9
[box]
BOXH NUMBER -> BOXH BOXT -> 0.5
"%string.
Lemma not_shown : forall rows (css : list inset) c, map pr_class rows = map iset_str css -> Forall (fun cs => ~ In c cs) css -> forall row, In row rows -> ~ in_list (pr_class row) c.
Proof.
  intros rows css c E F row I L. assert (J : In (pr_class row) (map iset_str css)) by (rewrite <- E; apply in_map; exact I). apply in_map_iff in J. destruct J as (cs & R & J). rewrite <- R in L. apply (proj1 (names_in cs c)) in L. rewrite Forall_forall in F. exact (F cs J L).
Qed.
Definition shown_classes : list inset := [[I_NUMBER]; [I_WORD]; [I_TYPE]; [I_BOXH]; [I_NUMBER]; [I_NUMBER]; [I_WORD]; [I_TYPE]; [I_WORD; I_DOUBLE]; [I_WORD]; [I_NUMBER]].
Lemma idle_setting : exists g g' rows a, get_grammar ascii_env sample_atof wide_grammar = Ok g /\ get_grammar ascii_env sample_atof w_grammar = Ok g' /\
  std_parse_address ascii_env w_addr w_lexicon en w_filter = Ok rows /\ pruned rows g g' /\ g <> g' /\
  std_standardize ascii_env sample_atof w_addr w_grammar w_lexicon en w_filter = Ok (Some a).
Proof.
  do 4 eexists. split; [vm_compute; reflexivity|]. split; [vm_compute; reflexivity|]. split; [vm_compute; reflexivity|]. split; [|split; [discriminate|vm_compute; reflexivity]].
  split; [reflexivity|]. split; [reflexivity|]. cbn [g_rules].
  assert (K : forall rows c, map pr_class rows = map iset_str shown_classes -> Forall (fun cs => ~ In c cs) shown_classes -> forall row, In row rows -> ~ in_list (pr_class row) c) by (intros rows c; apply not_shown).
  constructor; [split; [reflexivity|]|constructor; [split; [reflexivity|]|constructor; [split; [reflexivity|]|constructor]]]; cbn [rs_rules].
  - apply wo_drop; [|apply wo_keep, wo_nil]. exists I_FRACT. split; [left; reflexivity|]. apply K; [vm_compute; reflexivity|]. unfold shown_classes. repeat constructor; cbn [In]; intuition discriminate.
  - apply wo_keep, wo_drop, wo_nil. exists I_DIRECT. split; [left; reflexivity|]. apply K; [vm_compute; reflexivity|]. unfold shown_classes. repeat constructor; cbn [In]; intuition discriminate.
  - apply wo_keep, wo_nil.
Qed.
(** Not with the rows of the first tokenization only. *)
Definition both_grammar : text := s2t "[ADDRESS]
NUMBER WORD TYPE DOUBLE WORD NUMBER -> HOUSE STREET SUFTYP CITY CITY POSTAL -> 0.5
NUMBER -> HOUSE -> 0.9
"%string.
Definition one_grammar : text := s2t "[ADDRESS]
NUMBER -> HOUSE -> 0.9
"%string.
Lemma idle_first : exists g g' rows a, get_grammar ascii_env sample_atof both_grammar = Ok g /\ get_grammar ascii_env sample_atof one_grammar = Ok g' /\
  std_parse_address ascii_env w_addr w_lexicon en w_filter = Ok rows /\ pruned (filter (fun row => pr_pat row =? 0) rows) g g' /\
  std_standardize ascii_env sample_atof w_addr both_grammar w_lexicon en w_filter = Ok (Some a) /\ std_standardize ascii_env sample_atof w_addr one_grammar w_lexicon en w_filter = Ok None.
Proof.
  do 4 eexists. split; [vm_compute; reflexivity|]. split; [vm_compute; reflexivity|]. split; [vm_compute; reflexivity|]. split; [|split; vm_compute; reflexivity].
  split; [reflexivity|]. split; [reflexivity|]. cbn [g_rules]. constructor; [split; [reflexivity|]|constructor]. cbn [rs_rules].
  apply wo_drop; [|apply wo_keep, wo_nil]. exists I_DOUBLE. split; [do 3 right; left; reflexivity|]. apply (not_shown _ (firstn 5 shown_classes)); [vm_compute; reflexivity|]. unfold shown_classes. cbn [firstn]. repeat constructor; cbn [In]; intuition discriminate.
Qed.
