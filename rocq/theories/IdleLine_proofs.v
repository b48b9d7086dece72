(** Lemmas about a line added to a grammar text for classes that an address does not have. *)
From Coq Require Import String List NArith Bool Lia Arith.
From Verif Require Import Base_model Class_model Uni_model Regex_model Token_model Lexicon_model Tokenizer_model Archive_model Float_model Rule_model Search_model Grammar_model Wrapper_model
  Sample_model Class_spec Search_spec Grammar_spec Loaded_spec LexText_spec Lexicon_spec Tokenizer_spec Address_spec Alike_spec Insert_spec Idle_spec
  GrammarLine_proofs Loaded_proofs Alike_proofs Insert_proofs InsertEx_proofs TokExample_proofs WrapperEx_proofs End_proofs Words_proofs Idle_proofs.
Import ListNotations.
Local Open Scope N_scope.

Lemma aligned_self : forall A (P Q : A -> Prop) l, aligned eq P Q l l.
Proof. intros A P Q l. induction l as [|a l IH]; [apply al_nil|apply al_both; [reflexivity|exact IH]]. Qed.
Lemma aligned_behind : forall A (P Q : A -> Prop) (x y : A) l l', Q y -> behind x y l l' -> aligned eq P Q l l'.
Proof.
  intros A P Q x y l l' H (l1 & l2 & -> & ->). induction l1 as [|a l1 IH]; cbn [app]; [apply al_both; [reflexivity|]; apply al_right; [exact H|apply aligned_self]|apply al_both; [reflexivity|exact IH]].
Qed.
Lemma changed_in : forall A (S : A -> A -> Prop) l l' x, one_changed S l l' -> In x l -> exists x', In x' l' /\ (x' = x \/ S x x').
Proof.
  intros A S l l' x (l1 & a & a' & l2 & -> & -> & H) I. apply in_app_or in I. destruct I as [I|[<-|I]].
  - exists x. split; [apply in_or_app; left; exact I|left; reflexivity].
  - exists a'. split; [apply in_or_app; right; left; reflexivity|right; exact H].
  - exists x. split; [apply in_or_app; right; right; exact I|left; reflexivity].
Qed.
Lemma plain_in : forall ms ms' m, plain ms' = plain ms -> In m ms -> exists m', In m' ms' /\ ms_name m' = ms_name m /\ map (map f_name) (ms_rules m') = map (map f_name) (ms_rules m).
Proof.
  intros ms ms' m E I. apply (in_map (fun m => (ms_name m, map (map f_name) (ms_rules m)))) in I. change (In (ms_name m, map (map f_name) (ms_rules m)) (plain ms)) in I. rewrite <- E in I. unfold plain in I.
  apply in_map_iff in I. destruct I as (m' & H & I). injection H as H1 H2. exists m'. auto.
Qed.
Lemma aligned_names : forall (N : text -> Prop) (P Q : metarule -> Prop) l l', map (map f_name) l' = map (map f_name) l -> (forall refs r, In refs l -> In r refs -> N (f_name r)) ->
  aligned (fun refs refs' => Forall2 (fun n n' => n = n' /\ N n) (ref_names refs) (ref_names refs')) P Q l l'.
Proof.
  intros N P Q. induction l as [|refs l IH]; intros [|refs' l'] E H; try discriminate; [apply al_nil|]. cbn [map] in E. injection E as E1 E2. apply al_both; [|apply IH; [exact E2|intros a r I; apply H; right; exact I]].
  unfold ref_names. rewrite E1. assert (F : Forall N (map f_name refs)) by (apply Forall_map, Forall_forall; intros r I; exact (H refs r (or_introl eq_refl) I)).
  clear - F. induction F as [|n l K F IH]; constructor; [auto|exact IH].
Qed.
Lemma ref_section : forall g r, ref_ok g r -> In (f_name r) (section_names g).
Proof.
  intros g r [(i & ms & _ & E & <-)|(_ & i & rs & _ & E & <-)]; apply in_or_app; [left|right]; apply in_map; eapply nth_error_In; exact E.
Qed.
Lemma line_same : forall g g' r0 r ph, linked g -> In ADDRESS (section_names g) -> plain (g_metas g') = plain (g_metas g) ->
  one_changed (fun s s' => rs_name s' = rs_name s /\ behind r0 r (rs_rules s) (rs_rules s')) (g_rules g) (g_rules g') -> unfit ph r -> say_same ph g g'.
Proof.
  intros g g' r0 r ph L A P C Un. exists (fun n n' => n = n' /\ In n (section_names g)). split; [auto|]. intros n n' (<- & I). apply in_app_or in I. destruct I as [I|I]; apply in_map_iff in I.
  - left. destruct I as (m & <- & I). destruct (plain_in _ _ m P I) as (m' & I' & N' & R'). exists m, m'. split; [exact I|]. split; [reflexivity|]. split; [exact I'|]. split; [exact N'|].
    apply (aligned_names (fun n => In n (section_names g))); [exact R'|]. intros refs q J K. apply ref_section. exact (lk_refs g L m refs q I J K).
  - right. destruct I as (s & <- & I). destruct (changed_in _ _ _ _ s C I) as (s' & I' & [->|(N' & B)]).
    + exists s, s. split; [exact I|]. split; [reflexivity|]. split; [exact I'|]. split; [reflexivity|]. apply aligned_self.
    + exists s, s'. split; [exact I|]. split; [reflexivity|]. split; [exact I'|]. split; [exact N'|]. apply (aligned_behind _ _ _ r0 r); assumption.
Qed.
Lemma idle_line : forall e atof sort l0 l r0 r gr gr' g address arg locale filt rows, uni_ok (e_uni e) -> with_line_behind l0 l gr gr' -> ~ has_bom gr -> data_line (e_uni e) l0 -> data_line (e_uni e) l ->
  ~ at_line l0 -> ~ at_line l -> rule_line atof l0 r0 -> rule_line atof l r -> get_grammar e atof gr = Ok g ->
  std_parse_address e address arg locale filt = Ok rows -> idle rows r ->
  std_match_address e atof sort address gr' arg locale filt = std_match_address e atof sort address gr arg locale filt /\
  std_standardize e atof address gr' arg locale filt = std_standardize e atof address gr arg locale filt.
Proof.
  intros e atof sort l0 l r0 r gr gr' g address arg locale filt rows U W B D0 D A0 A R0 R Gr P Id. destruct (call_rule e atof U l0 l r0 r gr gr' g W B D0 D A0 A R0 R Gr) as (g' & Gr' & Pl & C).
  destruct (grammar_cases e atof gr U) as [(h & E & _ & G)|(m & E & _)]; rewrite Gr in E; [injection E as <-|discriminate]. destruct (grammar_cases e atof gr' U) as [(h & E & _ & G')|(m & E & _)]; rewrite Gr' in E; [injection E as <-|discriminate].
  destruct (parsed _ _ _ _ _ _ P) as (x & phs & X & M & ->).
  assert (S : Forall (fun ph => say_same ph g g') phs).
  { apply Forall_forall. intros ph I. apply (line_same g g' r0 r ph (loaded_linked g G) (loaded_address g G) Pl C). destruct Id as (c & J & N). exists c. split; [exact J|]. intros (k & K1 & K2). destruct (rows_met phs ph k c I K1 K2) as (row & Ir & Il). exact (N row Ir Il). }
  unfold std_match_address, std_standardize. rewrite Gr, Gr', X. cbn [obind]. unfold match_addr, standardize_addr. rewrite M. cbn [obind]. rewrite (same_all g g' phs G G' S), (same_best g g' phs G G' S). split; reflexivity.
Qed.
Local Open Scope string_scope.
Definition dir_l : text := s2t "DIRECT WORD TYPE -> PREDIR STREET SUFTYP -> 0.9".
Local Close Scope string_scope.
Definition dir_grammar : text := (ins_a ++ ins_l0 ++ 10 :: dir_l ++ 10 :: ins_b)%list.
Lemma idle_line_setting : uni_ok (e_uni ascii_env) /\ with_line_behind ins_l0 dir_l w_grammar dir_grammar /\ ~ has_bom w_grammar /\ data_line (e_uni ascii_env) ins_l0 /\ data_line (e_uni ascii_env) dir_l /\ ~ at_line ins_l0 /\ ~ at_line dir_l /\
  exists r0 r g rows a, rule_line sample_atof ins_l0 r0 /\ rule_line sample_atof dir_l r /\ get_grammar ascii_env sample_atof w_grammar = Ok g /\
    std_parse_address ascii_env w_addr w_lexicon en w_filter = Ok rows /\ idle rows r /\ std_standardize ascii_env sample_atof w_addr w_grammar w_lexicon en w_filter = Ok (Some a).
Proof.
  split; [exact ascii_uni_ok|]. split.
  { split; [apply no_lf_in; vm_compute; reflexivity|]. split; [apply no_lf_in; vm_compute; reflexivity|]. exists ins_a, ins_b. split; [vm_compute; reflexivity|]. split; [reflexivity|]. right. apply ends_lf. vm_compute. reflexivity. }
  split; [exact (proj1 ins_marks)|]. split; [apply data_ok; vm_compute; reflexivity|]. split; [apply data_ok; vm_compute; reflexivity|]. split; [vm_compute; intuition discriminate|]. split; [vm_compute; intuition discriminate|].
  do 5 eexists. split; [apply rule_parse_spec; vm_compute; reflexivity|]. split; [apply rule_parse_spec; vm_compute; reflexivity|]. split; [vm_compute; reflexivity|]. split; [vm_compute; reflexivity|]. split; [|vm_compute; reflexivity].
  exists I_DIRECT. split; [left; reflexivity|]. apply (not_shown _ shown_classes); [vm_compute; reflexivity|]. unfold shown_classes. repeat constructor; cbn [In]; intuition discriminate.
Qed.
(** ** Lines of references *)
Lemma aligned_added : forall (N : text -> Prop) (P Q : metarule -> Prop) x y l1 l2 l l', map ref_names l = (l1 ++ x :: l2)%list -> map ref_names l' = (l1 ++ x :: y :: l2)%list ->
  (forall refs r, In refs l -> In r refs -> N (f_name r)) -> (forall refs, ref_names refs = y -> Q refs) ->
  aligned (fun refs refs' => Forall2 (fun n n' => n = n' /\ N n) (ref_names refs) (ref_names refs')) P Q l l'.
Proof.
  intros N P Q x y. assert (K : forall l refs refs', (forall refs r, In refs (refs' :: l) -> In r refs -> N (f_name r)) -> ref_names refs = ref_names refs' -> Forall2 (fun n n' => n = n' /\ N n) (ref_names refs') (ref_names refs)).
  { intros l refs refs' H ->. assert (F : Forall N (ref_names refs')) by (apply Forall_map, Forall_forall; intros r I; exact (H refs' r (or_introl eq_refl) I)). clear - F. induction F as [|n m J F IH]; constructor; [auto|exact IH]. }
  induction l1 as [|z l1 IH]; intros l2 [|refs l] [|refs' l'] E E' H HQ; try discriminate; cbn [app map] in E, E'; injection E as E1 E2; injection E' as E1' E2'.
  - apply al_both; [apply (K l); [exact H|congruence]|]. destruct l' as [|added l']; [discriminate|]. cbn [map] in E2'. injection E2' as E3 E4. apply al_right; [apply HQ; exact E3|].
    apply (aligned_names N P Q l l'); [exact (eq_trans E4 (eq_sym E2))|]. intros a r I. apply H. right. exact I.
  - apply al_both; [apply (K l); [exact H|congruence]|]. apply (IH l2); try assumption. intros a r I. apply H. right. exact I.
Qed.
Lemma plain_changed : forall ns0 ns ms ms' m, one_changed (fun s s' => fst s' = fst s /\ behind ns0 ns (snd s) (snd s')) (plain ms) (plain ms') -> In m ms ->
  exists m', In m' ms' /\ ms_name m' = ms_name m /\ (map ref_names (ms_rules m') = map ref_names (ms_rules m) \/ behind ns0 ns (map ref_names (ms_rules m)) (map ref_names (ms_rules m'))).
Proof.
  intros ns0 ns ms ms' m C I. apply (in_map (fun m => (ms_name m, map (map f_name) (ms_rules m)))) in I. change (In (ms_name m, map (map f_name) (ms_rules m)) (plain ms)) in I.
  destruct (changed_in _ _ _ _ _ C I) as (q & J & K). unfold plain in J. apply in_map_iff in J. destruct J as (m' & <- & J). exists m'. split; [exact J|]. cbn [fst snd] in K. destruct K as [K|(K1 & K2)].
  - injection K as K1 K2. split; [exact K1|]. left. exact K2.
  - split; [exact K1|]. right. exact K2.
Qed.
Lemma idle_hopeless : forall g g' rows ph n, linked g' -> g_rules g' = g_rules g -> (forall k c, In k ph -> In c (t_in k) -> met rows c) -> idle_section rows g n -> hopeless g' ph n.
Proof.
  intros g g' rows ph n L E M (I & H) k rs D. inversion D as [|ms refs rest k' rs' J1 J2 D'|s r rest k' rs' J1 J2 D']; subst.
  - exfalso. rewrite <- E in I. apply in_map_iff in I. destruct I as (s & X & I). assert (U := lk_unique g' L). unfold section_names in U. apply (in_map ms_name) in J1. apply (in_map rs_name) in I. rewrite X in I.
    apply in_split in J1. destruct J1 as (a & b & J1). rewrite J1 in U. rewrite <- app_assoc in U. apply NoDup_remove_2 in U. apply U. apply in_or_app. right. apply in_or_app. right. exact I.
  - exists r. split; [left; reflexivity|]. rewrite E in J1. destruct (H s r J1 eq_refl J2) as (c & C1 & C2). exists c. split; [exact C1|]. intros (q & Q1 & Q2). destruct (M q c Q1 Q2) as (row & R1 & R2). exact (C2 row R1 R2).
Qed.
Lemma idle_references : forall e atof sort l0 l ns0 ns n gr gr' g address arg locale filt rows, uni_ok (e_uni e) -> with_line_behind l0 l gr gr' -> ~ has_bom gr ->
  meta_line (e_uni e) l0 ns0 -> meta_line (e_uni e) l ns -> Forall (fun n => In n (section_names g)) ns -> get_grammar e atof gr = Ok g ->
  std_parse_address e address arg locale filt = Ok rows -> In n ns -> idle_section rows g n ->
  std_match_address e atof sort address gr' arg locale filt = std_match_address e atof sort address gr arg locale filt /\
  std_standardize e atof address gr' arg locale filt = std_standardize e atof address gr arg locale filt.
Proof.
  intros e atof sort l0 l ns0 ns n gr gr' g address arg locale filt rows U W B M0 M1 Kn Gr P In_n Id. destruct (call_meta e atof U l0 l ns0 ns gr gr' g W B M0 M1 Kn Gr) as (g' & Gr' & Ru & C).
  destruct (grammar_cases e atof gr U) as [(h & E & _ & G)|(m & E & _)]; rewrite Gr in E; [injection E as <-|discriminate]. destruct (grammar_cases e atof gr' U) as [(h & E & _ & G')|(m & E & _)]; rewrite Gr' in E; [injection E as <-|discriminate].
  destruct (parsed _ _ _ _ _ _ P) as (x & phs & X & M & ->). assert (L := loaded_linked g G).
  assert (S : Forall (fun ph => say_same ph g g') phs).
  { apply Forall_forall. intros ph I. exists (fun n n' => n = n' /\ In n (section_names g)). split; [split; [reflexivity|exact (loaded_address g G)]|]. intros z z' (<- & J). apply in_app_or in J. destruct J as [J|J]; apply in_map_iff in J.
    - left. destruct J as (m & <- & J). destruct (plain_changed ns0 ns _ _ m C J) as (m' & J' & N' & R'). exists m, m'. split; [exact J|]. split; [reflexivity|]. split; [exact J'|]. split; [exact N'|].
      assert (F : forall refs q, In refs (ms_rules m) -> In q refs -> In (f_name q) (section_names g)) by (intros refs q K1 K2; apply ref_section; exact (lk_refs g L m refs q J K1 K2)).
      destruct R' as [R'|(l1 & l2 & R1 & R2)]; [apply (aligned_names (fun n => In n (section_names g))); assumption|].
      apply (aligned_added (fun n => In n (section_names g)) _ _ ns0 ns l1 l2); try assumption. intros refs Y. exists n. rewrite Y. split; [exact In_n|].
      apply (idle_hopeless g g' _ ph n (loaded_linked g' G') Ru (fun k c => rows_met phs ph k c I) Id).
    - right. destruct J as (s & <- & J). exists s, s. split; [exact J|]. split; [reflexivity|]. rewrite Ru. split; [exact J|]. split; [reflexivity|]. apply aligned_self. }
  unfold std_match_address, std_standardize. rewrite Gr, Gr', X. cbn [obind]. unfold match_addr, standardize_addr. rewrite M. cbn [obind]. rewrite (same_all g g' phs G G' S), (same_best g g' phs G G' S). split; reflexivity.
Qed.
Definition short_addr : text := s2t "12 Main st"%string.
Definition short_classes : list inset := [[I_NUMBER]; [I_WORD]; [I_TYPE]].
Lemma idle_references_setting : uni_ok (e_uni ascii_env) /\ with_line_behind ins_m0 ins_m w_grammar ins_mgrammar /\ ~ has_bom w_grammar /\ meta_line (e_uni ascii_env) ins_m0 [s2t "house"%string; s2t "street"%string] /\
  meta_line (e_uni ascii_env) ins_m [s2t "street"%string; s2t "box"%string] /\ Forall (fun n => In n (section_names w_g)) [s2t "street"%string; s2t "box"%string] /\ get_grammar ascii_env sample_atof w_grammar = Ok w_g /\
  exists rows a, std_parse_address ascii_env short_addr w_lexicon en w_filter = Ok rows /\ idle_section rows w_g (s2t "box"%string) /\ std_standardize ascii_env sample_atof short_addr w_grammar w_lexicon en w_filter = Ok (Some a).
Proof.
  destruct ins_meta as (H1 & H2 & H3 & H4 & H5 & H6 & H7). repeat (split; [assumption|]). do 2 eexists. split; [vm_compute; reflexivity|]. split; [|vm_compute; reflexivity]. split; [vm_compute; tauto|].
  intros s r I E J. assert (K : exists c, In c (r_in r) /\ c = I_BOXH).
  { exists I_BOXH. split; [|reflexivity]. vm_compute in I. destruct I as [<-|[<-|[<-|[]]]]; try (vm_compute in E; discriminate E). vm_compute in J. destruct J as [<-|[]]. left. reflexivity. }
  destruct K as (c & C & ->). exists I_BOXH. split; [exact C|]. apply (not_shown _ short_classes); [vm_compute; reflexivity|]. unfold short_classes. repeat constructor; cbn [In]; intuition discriminate.
Qed.
