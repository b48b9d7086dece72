(** Lemmas about the rows of as_match from those of as_parse. *)
From Coq Require Import String List NArith Bool Lia Arith.
From Verif Require Import Base_model Class_model Uni_model Regex_model Token_model Lexicon_model Tokenizer_model Archive_model Float_model Rule_model Search_model Grammar_model Wrapper_model
  Sample_model Class_spec Grammar_spec Search_spec Loaded_spec LexText_spec Lexicon_spec Tokenizer_spec Address_spec Wrapper_spec Answer_spec End_spec PMatch_spec
  Class_proofs Address_proofs Search_proofs SearchTop_proofs Loaded_proofs Pattern_proofs Score_proofs Wrapper_proofs WrapperTop_proofs TokSplit_proofs TokExample_proofs WrapperEx_proofs End_proofs Filter_proofs Tells_proofs Words_proofs Stop_proofs.
Import ListNotations.
Local Open Scope N_scope.

Lemma row_number : forall phs i j row, In row (all_rows i j phs) -> exists a ph, nth_error phs a = Some ph /\ pr_pat row = i + N.of_nat a.
Proof.
  induction phs as [|p phs IH]; intros i j row I; [destruct I|]. cbn [all_rows] in I. destruct (phrase_rows_are p i j) as (A & _). destruct (phrase_rows i j p) as (l, j'). cbn [fst] in A. apply in_app_or in I. destruct I as [I|I].
  - rewrite Forall_forall in A. exists 0%nat, p. split; [reflexivity|]. rewrite (A row I). lia.
  - destruct (IH (i + 1) j' row I) as (a & ph & E & P). exists (S a), ph. split; [exact E|]. lia.
Qed.
Lemma choice_of : forall ks (rows : list prow) cs, map pr_class rows = map (fun k => iset_str (t_in k)) ks -> (Forall2 (fun row c => in_list (pr_class row) c) rows cs <-> chooses ks cs).
Proof.
  unfold chooses. induction ks as [|k ks IH]; intros [|row rows] cs E; try discriminate.
  - split; intros H; inversion H; constructor.
  - cbn [map] in E. injection E as E1 E2. split; intros H; inversion H as [|a c l cs' H1 H2]; subst; constructor.
    + rewrite E1 in H1. apply (proj1 (names_in (t_in k) c)). exact H1.
    + apply (IH rows cs' E2). exact H2.
    + rewrite E1. apply (proj2 (names_in (t_in k) c)). exact H1.
    + apply (IH rows cs' E2). exact H2.
Qed.
Lemma commas_join : forall l, Forall no_comma l -> l <> [] -> List.length l = S (count_occ N.eq_dec (join [44] l) 44).
Proof.
  induction l as [|a l IH]; intros F N; [congruence|]. inversion F as [|x y F1 F2]; subst. assert (Z : count_occ N.eq_dec a 44 = 0%nat) by (apply count_occ_not_In; exact F1).
  destruct l as [|b l]; [cbn [join List.length]; rewrite Z; reflexivity|]. change (join [44] (a :: b :: l)) with (a ++ [44] ++ join [44] (b :: l)). rewrite !count_occ_app, Z. cbn [List.length] in *. rewrite (IH F2 ltac:(discriminate)). reflexivity.
Qed.
Lemma class_count : forall s, (List.length s <= 1 + count_occ N.eq_dec (iset_str s) 44%N)%nat.
Proof. intros [|c s]; [apply Nat.le_0_l|]. unfold iset_str. change COMMA_CH with 44. rewrite <- (map_length in_str (c :: s)). rewrite (commas_join _ (plain_names (c :: s)) ltac:(discriminate)). lia. Qed.
Lemma choices_bound : forall ks rows, map pr_class rows = map (fun k => iset_str (t_in k)) ks -> combinations ks <= choices rows.
Proof.
  induction ks as [|k ks IH]; intros [|row rows] E; [apply N.le_refl|discriminate E|discriminate E|]. cbn [map] in E. injection E as E1 E2. unfold combinations, choices in *. cbn [fold_right]. apply N.mul_le_mono; [|apply IH; exact E2].
  rewrite E1. assert (H := class_count (t_in k)). lia.
Qed.
Lemma numbered_rows : forall phs a ph, nth_error phs a = Some ph -> map pr_class (with_number (N.of_nat a + 1) (map shown (all_rows 0 0 phs))) = map (fun k => iset_str (t_in k)) ph.
Proof. intros phs a ph H. unfold with_number. rewrite shown_filter. exact (rows_of_number phs a 0 0 ph H). Qed.
Lemma numbered_some : forall phs p, with_number p (map shown (all_rows 0 0 phs)) <> [] -> exists a ph, nth_error phs a = Some ph /\ p = N.of_nat a + 1.
Proof.
  intros phs p N. destruct (with_number p (map shown (all_rows 0 0 phs))) as [|row l] eqn:E; [congruence|]. assert (I : In row (row :: l)) by (left; reflexivity). rewrite <- E in I. unfold with_number in I. apply filter_In in I. destruct I as (I & P).
  apply N.eqb_eq in P. apply in_map_iff in I. destruct I as (r & <- & I). destruct (row_number _ _ _ _ I) as (a & ph & H & K). exists a, ph. split; [exact H|]. change (pr_pat r + 1 = p) in P. lia.
Qed.
Lemma same_length : forall (rows : list prow) (ks : list token), map pr_class rows = map (fun k => iset_str (t_in k)) ks -> List.length rows = List.length ks.
Proof. intros rows ks E. rewrite <- (map_length pr_class rows), E. apply map_length. Qed.
Lemma explains_search : forall g phs rs, is_loaded g -> Forall (fun p => p <> []) phs -> (forall p, choices (with_number p (map shown (all_rows 0 0 phs))) <= 2 ^ 32) ->
  (explains g (map shown (all_rows 0 0 phs)) rs <-> exists ph ps p, In ph phs /\ search g ph = Ok ps /\ In p ps /\ p_rules p = rs).
Proof.
  intros g phs rs G F B. split.
  - intros (p & k & N & D & K & C). destruct (numbered_some phs p N) as (a & ph & H & ->). assert (E := numbered_rows phs a ph H). assert (L := same_length _ _ E). apply (proj1 (choice_of ph _ _ E)) in C. rewrite L in K.
    assert (Bo : combinations ph <= 2 ^ 32) by (eapply N.le_trans; [apply (choices_bound ph _ E)|apply B]).
    destruct (search_complete g ADDRESS ph k rs (loaded_linked g G) Bo (conj D C) K) as (ps & q & S & I & R). exists ph, ps, q. split; [eapply nth_error_In; exact H|]. auto.
  - intros (ph & ps & p & I & S & J & <-). rewrite Forall_forall in F. assert (N := F ph I). apply In_nth_error in I. destruct I as (a & H). destruct (search_sound g ADDRESS ph ps p (loaded_linked g G) S J) as (k & (D & C) & K).
    assert (E := numbered_rows phs a ph H). assert (L := same_length _ _ E). exists (N.of_nat a + 1), k. split; [intros Z; rewrite Z in L; destruct ph; [congruence|discriminate]|]. split; [exact D|]. split; [rewrite L; exact K|].
    apply (proj2 (choice_of ph _ _ E)). exact C.
Qed.
Lemma found_all : forall g phs found ph ps p, Forall2 (fun ph ps => search g ph = Ok ps) phs found -> In ph phs -> search g ph = Ok ps -> In p ps -> In p (List.concat found).
Proof.
  intros g phs found ph ps p F. induction F as [|q qs phs found E F IH]; intros I S J; [destruct I|]. cbn [List.concat]. apply in_or_app. destruct I as [->|I]; [left; rewrite E in S; injection S as ->; exact J|right; auto].
Qed.
Lemma Forall2_forth : forall A B (R : A -> B -> Prop) l l' x, Forall2 R l l' -> In x l -> exists y, In y l' /\ R x y.
Proof. intros A B R l l' x F. induction F as [|a b l l' H F IH]; intros I; [destruct I|]. destruct I as [<-|I]; [exists b; split; [left; reflexivity|exact H]|]. destruct (IH I) as (y & J & K). exists y. split; [right; exact J|exact K]. Qed.
Lemma parse_match : forall e atof sort address gr arg locale filt g rows out, uni_ok (e_uni e) -> (forall (l : list mresult) q, In q (sort l) <-> In q l) -> get_grammar e atof gr = Ok g ->
  parse_table (std_parse_address e address arg locale filt) = Ok rows -> rows <> [] -> (forall p, choices (with_number p rows) <= 2 ^ 32) ->
  match_table (std_match_address e atof sort address gr arg locale filt) = Ok out ->
  (forall rs, explains g rows rs -> exists r, In r out /\ reports rs (m_matched r) (m_score r) (m_nrules r)) /\
  (forall r, In r out -> (exists rs, explains g rows rs /\ reports rs (m_matched r) (m_score r) (m_nrules r)) \/
     ((forall rs, ~ explains g rows rs) /\ m_matched r = s2t "Failed to match to grammar!"%string)).
Proof.
  intros e atof sort address gr arg locale filt g rows out U So Gr P N B M. destruct (grammar_cases e atof gr U) as [(g' & E & _ & G)|(m & E & _)]; rewrite Gr in E; [injection E as <-|discriminate].
  destruct (table_rows _ _ P N) as (l & Q & ->). destruct (parsed _ _ _ _ _ _ Q) as (x & phs & X & Mp & ->).
  assert (F : Forall (fun p => p <> []) phs) by (destruct (phrases_some _ _ _ _ _ _ Mp) as [->|F]; [exfalso; apply N; reflexivity|exact F]).
  unfold std_match_address in M. rewrite Gr, X in M. cbn [obind] in M. unfold match_addr in M. rewrite Mp in M. cbn [obind] in M.
  destruct (search_all_spec g phs (loaded_linked g G) (loaded_balanced g G) (loaded_address g G)) as (found & o & Fo & S & A1 & A2). rewrite S in M. cbn [obind match_table] in M. injection M as <-.
  assert (K := fun rs => explains_search g phs rs G F B). split.
  - intros rs H. apply K in H. destruct H as (ph & ps & p & I & Se & J & <-). assert (C := found_all _ _ _ _ _ _ Fo I Se J). assert (Z : List.concat found <> []) by (intros Z; rewrite Z in C; destruct C).
    destruct (Forall2_forth _ _ _ _ _ _ (A2 Z) C) as (r & I' & R). exists r. split; [apply So; exact I'|exact R].
  - intros r I. apply (proj1 (So _ _)) in I. destruct (List.concat found) as [|p0 pl] eqn:Z.
    + right. rewrite (A1 eq_refl) in I. destruct I as [<-|[]]. split; [|reflexivity]. intros rs H. apply K in H. destruct H as (ph & ps & p & I & Se & J & _). assert (C := found_all _ _ _ _ _ _ Fo I Se J). rewrite Z in C. destruct C.
    + left. rewrite <- Z in A2. destruct (Forall2_back _ _ _ _ _ _ (A2 ltac:(rewrite Z; discriminate)) I) as (p & Ip & R). destruct (found_in _ _ _ _ Fo Ip) as (ph & ps & I1 & I2 & I3). exists (p_rules p). split; [|exact R]. apply K. exists ph, ps, p. auto.
Qed.
Lemma nonempty_in : forall A (x : A) l, In x l -> l <> [].
Proof. intros A x l I E. rewrite E in I. exact I. Qed.
Lemma parse_standardize : forall e atof address gr arg locale filt g rows, uni_ok (e_uni e) -> get_grammar e atof gr = Ok g ->
  parse_table (std_parse_address e address arg locale filt) = Ok rows -> rows <> [] -> (forall p, choices (with_number p rows) <= 2 ^ 32) ->
  ((exists a, std_standardize e atof address gr arg locale filt = Ok (Some a)) <-> exists rs, explains g rows rs).
Proof.
  intros e atof address gr arg locale filt g rows U Gr P N B. destruct (grammar_cases e atof gr U) as [(g' & E & _ & G)|(m & E & _)]; rewrite Gr in E; [injection E as <-|discriminate].
  destruct (table_rows _ _ P N) as (l & Q & ->). destruct (parsed _ _ _ _ _ _ Q) as (x & phs & X & Mp & ->).
  assert (F : Forall (fun p => p <> []) phs) by (destruct (phrases_some _ _ _ _ _ _ Mp) as [->|F]; [exfalso; apply N; reflexivity|exact F]).
  assert (K := fun rs => explains_search g phs rs G F B). unfold std_standardize. rewrite Gr, X. cbn [obind]. unfold standardize_addr. rewrite Mp. cbn [obind].
  destruct (choice_all g phs G) as (rs0 & b & _ & Bs & Y1 & Y2 & _). rewrite Bs. cbn [obind]. split.
  - intros (a & H). destruct (f_le f_zero (b_score b)) eqn:Z; [|discriminate H]. destruct (best_loop_from g phs _ b Bs) as [->|(ph & Iph & B1)]; [discriminate Z|].
    destruct (best1_from g [] ph b B1 Z) as (ps & p & S & Ip & _). exists (p_rules p). apply K. exists ph, ps, p. auto.
  - intros (rs & H). apply K in H. destruct H as (ph & ps & p & I & S & J & _). destruct (Y1 (ex_intro _ ph (ex_intro _ ps (conj I (conj S (nonempty_in _ p ps J)))))) as (_ & NN).
    assert (Z : f_le f_zero (b_score b) = true) by (exact (nonneg_le _ NN)). rewrite Z. destruct (fields_there g phs b x G Bs Z) as (v & ->). eexists. reflexivity.
Qed.
Lemma choices_pos : forall rows, 1 <= choices rows.
Proof. induction rows as [|row rows IH]; [apply N.le_refl|]. unfold choices in *. cbn [fold_right]. change 1 with (1 * 1). apply N.mul_le_mono; [lia|exact IH]. Qed.
Lemma choices_part : forall p rows, choices (with_number p rows) <= choices rows.
Proof.
  intros p. induction rows as [|row rows IH]; [apply N.le_refl|]. unfold with_number in *. cbn [filter]. unfold choices in *. destruct (pr_pat row =? p); cbn [fold_right]; [apply N.mul_le_mono; [apply N.le_refl|exact IH]|].
  eapply N.le_trans; [exact IH|]. rewrite <- (N.mul_1_l (fold_right _ 1 rows)) at 1. apply N.mul_le_mono; [lia|apply N.le_refl].
Qed.
Lemma pmatch_setting : uni_ok (e_uni ascii_env) /\ (forall (l : list mresult) q, In q (rev l) <-> In q l) /\ exists g rows r a, get_grammar ascii_env sample_atof w_grammar = Ok g /\
  parse_table (std_parse_address ascii_env w_addr w_lexicon en w_filter) = Ok rows /\ rows <> [] /\ (forall p, choices (with_number p rows) <= 2 ^ 32) /\
  match_table (std_match_address ascii_env sample_atof (@rev mresult) w_addr w_grammar w_lexicon en w_filter) = Ok [r] /\
  m_matched r = s2t "NUMBER WORD TYPE BOXH NUMBER -> HOUSE STREET SUFTYP BOXH BOXT"%string /\
  std_standardize ascii_env sample_atof w_addr w_grammar w_lexicon en w_filter = Ok (Some a).
Proof.
  split; [exact ascii_uni_ok|]. split; [intros l q; split; apply in_rev|]. do 4 eexists. split; [vm_compute; reflexivity|]. split; [vm_compute; reflexivity|]. split; [discriminate|].
  split; [intros p; eapply N.le_trans; [apply choices_part|vm_compute; discriminate]|]. split; [vm_compute; reflexivity|]. split; vm_compute; reflexivity.
Qed.
(** Without rows it is false: a rule without classes takes an address without tokens. *)
Definition bare_grammar : text := s2t "[ADDRESS]
-> -> 0.9
"%string.
Lemma pmatch_none : exists g a, get_grammar ascii_env sample_atof bare_grammar = Ok g /\ parse_table (std_parse_address ascii_env [] w_lexicon en w_filter) = Ok [] /\
  std_standardize ascii_env sample_atof [] bare_grammar w_lexicon en w_filter = Ok (Some a) /\ forall rs, ~ explains g [] rs.
Proof. do 2 eexists. split; [vm_compute; reflexivity|]. split; [vm_compute; reflexivity|]. split; [vm_compute; reflexivity|]. intros rs (p & k & N & _). apply N. reflexivity. Qed.
