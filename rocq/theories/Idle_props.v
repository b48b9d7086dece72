(** Rules that an address leaves idle (src/as_wrapper.cpp:52-98, 302-408, 414-524, src/search.cpp:97-208, 225-456). *)
From Coq Require Import String List NArith.
From Verif Require Import Base_model Class_model Uni_model Token_model Rule_model Search_model Float_model Lexicon_model Tokenizer_model Archive_model Wrapper_model Sample_model
  Grammar_spec LexText_spec Lexicon_spec Tokenizer_spec Split_spec Address_spec End_spec Local_spec Class_spec Search_spec Insert_spec Idle_spec TokExample_proofs WrapperEx_proofs InsertEx_proofs Idle_proofs IdleLine_proofs.
Import ListNotations.
Local Open Scope N_scope.

(** ** C133 *)
(** Rules with a class that no row of as_parse shows can be left out: as_match and as_standardize give the same. *)
Theorem C133_calls : forall e atof sort address gr gr' arg locale filt g g' rows, get_grammar e atof gr = Ok g -> get_grammar e atof gr' = Ok g' ->
  std_parse_address e address arg locale filt = Ok rows -> pruned rows g g' ->
  std_match_address e atof sort address gr arg locale filt = std_match_address e atof sort address gr' arg locale filt /\
  std_standardize e atof address gr arg locale filt = std_standardize e atof address gr' arg locale filt.
Proof. exact idle_calls. Qed.
Print Assumptions C133_calls.
Example C133_calls_example : exists g g' rows a, get_grammar ascii_env sample_atof wide_grammar = Ok g /\ get_grammar ascii_env sample_atof w_grammar = Ok g' /\
  std_parse_address ascii_env w_addr w_lexicon en w_filter = Ok rows /\ pruned rows g g' /\ g <> g' /\
  std_standardize ascii_env sample_atof w_addr w_grammar w_lexicon en w_filter = Ok (Some a).
Proof. exact idle_setting. Qed.
(** So can a line be added to a grammar text behind another rule. *)
Theorem C133_line : forall e atof sort l0 l r0 r gr gr' g address arg locale filt rows, uni_ok (e_uni e) -> with_line_behind l0 l gr gr' -> ~ has_bom gr -> data_line (e_uni e) l0 -> data_line (e_uni e) l ->
  ~ at_line l0 -> ~ at_line l -> rule_line atof l0 r0 -> rule_line atof l r -> get_grammar e atof gr = Ok g ->
  std_parse_address e address arg locale filt = Ok rows -> idle rows r ->
  std_match_address e atof sort address gr' arg locale filt = std_match_address e atof sort address gr arg locale filt /\
  std_standardize e atof address gr' arg locale filt = std_standardize e atof address gr arg locale filt.
Proof. exact idle_line. Qed.
Print Assumptions C133_line.
Example C133_line_example : uni_ok (e_uni ascii_env) /\ with_line_behind ins_l0 dir_l w_grammar dir_grammar /\ ~ has_bom w_grammar /\ data_line (e_uni ascii_env) ins_l0 /\ data_line (e_uni ascii_env) dir_l /\ ~ at_line ins_l0 /\ ~ at_line dir_l /\
  exists r0 r g rows a, rule_line sample_atof ins_l0 r0 /\ rule_line sample_atof dir_l r /\ get_grammar ascii_env sample_atof w_grammar = Ok g /\
    std_parse_address ascii_env w_addr w_lexicon en w_filter = Ok rows /\ idle rows r /\ std_standardize ascii_env sample_atof w_addr w_grammar w_lexicon en w_filter = Ok (Some a).
Proof. exact idle_line_setting. Qed.
(** So can a line of references with the name of a section of such rules, behind another line of references. *)
Theorem C133_references : forall e atof sort l0 l ns0 ns n gr gr' g address arg locale filt rows, uni_ok (e_uni e) -> with_line_behind l0 l gr gr' -> ~ has_bom gr ->
  meta_line (e_uni e) l0 ns0 -> meta_line (e_uni e) l ns -> Forall (fun n => In n (section_names g)) ns -> get_grammar e atof gr = Ok g ->
  std_parse_address e address arg locale filt = Ok rows -> In n ns -> idle_section rows g n ->
  std_match_address e atof sort address gr' arg locale filt = std_match_address e atof sort address gr arg locale filt /\
  std_standardize e atof address gr' arg locale filt = std_standardize e atof address gr arg locale filt.
Proof. exact idle_references. Qed.
Print Assumptions C133_references.
Example C133_references_example : uni_ok (e_uni ascii_env) /\ with_line_behind ins_m0 ins_m w_grammar ins_mgrammar /\ ~ has_bom w_grammar /\ meta_line (e_uni ascii_env) ins_m0 [s2t "house"%string; s2t "street"%string] /\
  meta_line (e_uni ascii_env) ins_m [s2t "street"%string; s2t "box"%string] /\ Forall (fun n => In n (section_names w_g)) [s2t "street"%string; s2t "box"%string] /\ get_grammar ascii_env sample_atof w_grammar = Ok w_g /\
  exists rows a, std_parse_address ascii_env short_addr w_lexicon en w_filter = Ok rows /\ idle_section rows w_g (s2t "box"%string) /\ std_standardize ascii_env sample_atof short_addr w_grammar w_lexicon en w_filter = Ok (Some a).
Proof. exact idle_references_setting. Qed.
(** Not rules with a class that no row of the first tokenization shows. *)
Theorem C133_first_refuted : exists g g' rows a, get_grammar ascii_env sample_atof both_grammar = Ok g /\ get_grammar ascii_env sample_atof one_grammar = Ok g' /\
  std_parse_address ascii_env w_addr w_lexicon en w_filter = Ok rows /\ pruned (filter (fun row => pr_pat row =? 0) rows) g g' /\
  std_standardize ascii_env sample_atof w_addr both_grammar w_lexicon en w_filter = Ok (Some a) /\ std_standardize ascii_env sample_atof w_addr one_grammar w_lexicon en w_filter = Ok None.
Proof. exact idle_first. Qed.
Print Assumptions C133_first_refuted.
