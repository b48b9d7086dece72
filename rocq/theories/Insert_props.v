(** Properties of lines inserted into the text of a grammar (properties.jsonl C105). *)
From Coq Require Import String List NArith.
From Verif Require Import Base_model Class_model Float_model Uni_model Token_model Rule_model Search_model Grammar_model Lexicon_model Tokenizer_model Archive_model Wrapper_model
  Search_spec Grammar_spec Loaded_spec Growth_spec Order_spec Wrapper_spec Insert_spec Lexicon_spec Sample_model WrapperEx_proofs AnswerEx_proofs Growth_proofs Insert_proofs InsertEx_proofs.
Import ListNotations.
Local Open Scope N_scope.

(** ** C105 *)
(** A further line that is not a header takes nothing away. *)
Theorem C105_line_grows : forall e atof l gr gr' g g', uni_ok (e_uni e) -> with_line l gr gr' -> ~ has_bom gr -> ~ has_bom gr' -> (forall n, ~ header_line (e_uni e) l n) ->
  get_grammar e atof gr = Ok g -> get_grammar e atof gr' = Ok g' -> contains g' g.
Proof. exact (fun e atof l gr gr' g g' U => call_grows e atof U l gr gr' g g'). Qed.
Print Assumptions C105_line_grows.
Example C105_line_grows_example : uni_ok ascii_uni /\ with_line ins_l w_grammar ins_grammar /\ ~ has_bom w_grammar /\ ~ has_bom ins_grammar /\ (forall n, ~ header_line ascii_uni ins_l n) /\
  get_grammar ascii_env sample_atof w_grammar = Ok w_g /\ get_grammar ascii_env sample_atof ins_grammar = Ok ins_g.
Proof. exact ins_grows. Qed.
(** An address that is standardized stays so. *)
Theorem C105_standardized : forall e atof l gr gr' g' address lx locale filt r, uni_ok (e_uni e) -> with_line l gr gr' -> ~ has_bom gr -> ~ has_bom gr' -> (forall n, ~ header_line (e_uni e) l n) ->
  get_grammar e atof gr' = Ok g' -> no_nan_scores g' ->
  (forall x phs, get_lexicon e lx = Ok x -> make_phrases e x locale filt address = Ok phs -> Forall (sizes_ok g') phs /\ Forall (fun ph => combinations ph <= 2 ^ 32) phs) ->
  std_standardize e atof address gr lx locale filt = Ok (Some r) -> exists r', std_standardize e atof address gr' lx locale filt = Ok (Some r').
Proof. exact (fun e atof l gr gr' g' address lx locale filt r U => call_standardized e atof U l gr gr' g' address lx locale filt r). Qed.
Print Assumptions C105_standardized.
(** And another becomes so, in this example. *)
Example C105_standardized_example : no_nan_scores ins_g /\
  (forall x phs, get_lexicon ascii_env w_lexicon = Ok x -> make_phrases ascii_env x en w_filter w_addr = Ok phs -> Forall (sizes_ok ins_g) phs /\ Forall (fun ph => combinations ph <= 2 ^ 32) phs) /\
  (exists r, std_standardize ascii_env sample_atof w_addr w_grammar w_lexicon en w_filter = Ok (Some r)) /\
  std_standardize ascii_env sample_atof v_addr w_grammar w_lexicon en w_filter = Ok None /\ exists r, std_standardize ascii_env sample_atof v_addr ins_grammar w_lexicon en w_filter = Ok (Some r).
Proof. exact ins_call. Qed.
(** The rows of as_match stay. *)
Theorem C105_rows : forall e atof sort l gr gr' g' address lx locale filt out row, uni_ok (e_uni e) -> with_line l gr gr' -> ~ has_bom gr -> ~ has_bom gr' -> (forall n, ~ header_line (e_uni e) l n) ->
  get_grammar e atof gr' = Ok g' ->
  (forall x phs, get_lexicon e lx = Ok x -> make_phrases e x locale filt address = Ok phs -> Forall (fun ph => combinations ph <= 2 ^ 32) phs /\
     forall g rows, get_grammar e atof gr = Ok g -> search_all g phs = Ok rows \/ search_all g' phs = Ok rows -> sorted_rows rows (sort rows)) ->
  std_match_address e atof sort address gr lx locale filt = Ok out -> In row out ->
  out = [mkMR (s2t "Failed to match to grammar!"%string) f64_m1 f64_m1] \/ exists out', std_match_address e atof sort address gr' lx locale filt = Ok out' /\ In row out'.
Proof. exact (fun e atof sort l gr gr' g' address lx locale filt out row U => call_rows e atof U sort l gr gr' g' address lx locale filt out row). Qed.
Print Assumptions C105_rows.
Example C105_rows_example : (forall x phs, get_lexicon ascii_env w_lexicon = Ok x -> make_phrases ascii_env x en w_filter w_addr = Ok phs -> Forall (fun ph => combinations ph <= 2 ^ 32) phs /\
     forall g rows, get_grammar ascii_env sample_atof w_grammar = Ok g -> search_all g phs = Ok rows \/ search_all ins_g phs = Ok rows -> sorted_rows rows (by_score rows)) /\
  exists row, std_match_address ascii_env sample_atof by_score w_addr w_grammar w_lexicon en w_filter = Ok [row].
Proof. exact ins_match. Qed.
(** A header can take answers away. *)
Theorem C105_header_refuted : exists l gr gr' g' r, with_line l gr gr' /\ get_grammar ascii_env sample_atof gr' = Ok g' /\
  std_standardize ascii_env sample_atof v_addr gr w_lexicon en w_filter = Ok (Some r) /\ std_standardize ascii_env sample_atof v_addr gr' w_lexicon en w_filter = Ok None.
Proof. exact ins_header. Qed.
Print Assumptions C105_header_refuted.
(** A rule behind another is accepted and is the next rule of the section; nothing else changes. *)
Theorem C105_rule : forall e atof l0 l r0 r gr gr' g, uni_ok (e_uni e) -> with_line_behind l0 l gr gr' -> ~ has_bom gr -> data_line (e_uni e) l0 -> data_line (e_uni e) l ->
  ~ at_line l0 -> ~ at_line l -> rule_line atof l0 r0 -> rule_line atof l r -> get_grammar e atof gr = Ok g ->
  exists g', get_grammar e atof gr' = Ok g' /\ plain (g_metas g') = plain (g_metas g) /\
    one_changed (fun s s' => rs_name s' = rs_name s /\ behind r0 r (rs_rules s) (rs_rules s')) (g_rules g) (g_rules g').
Proof. exact (fun e atof l0 l r0 r gr gr' g U => call_rule e atof U l0 l r0 r gr gr' g). Qed.
Print Assumptions C105_rule.
Example C105_rule_example : uni_ok ascii_uni /\ with_line_behind ins_l0 ins_l w_grammar ins_grammar /\ ~ has_bom w_grammar /\ data_line ascii_uni ins_l0 /\ data_line ascii_uni ins_l /\ ~ at_line ins_l0 /\ ~ at_line ins_l /\
  (exists r0 r, rule_line sample_atof ins_l0 r0 /\ rule_line sample_atof ins_l r) /\ get_grammar ascii_env sample_atof w_grammar = Ok w_g.
Proof. exact ins_rule. Qed.
(** So is a line of references to sections that exist. *)
Theorem C105_references : forall e atof l0 l ns0 ns gr gr' g, uni_ok (e_uni e) -> with_line_behind l0 l gr gr' -> ~ has_bom gr ->
  meta_line (e_uni e) l0 ns0 -> meta_line (e_uni e) l ns -> Forall (fun n => In n (section_names g)) ns -> get_grammar e atof gr = Ok g ->
  exists g', get_grammar e atof gr' = Ok g' /\ g_rules g' = g_rules g /\
    one_changed (fun s s' => fst s' = fst s /\ behind ns0 ns (snd s) (snd s')) (plain (g_metas g)) (plain (g_metas g')).
Proof. exact (fun e atof l0 l ns0 ns gr gr' g U => call_meta e atof U l0 l ns0 ns gr gr' g). Qed.
Print Assumptions C105_references.
Example C105_references_example : uni_ok ascii_uni /\ with_line_behind ins_m0 ins_m w_grammar ins_mgrammar /\ ~ has_bom w_grammar /\ meta_line ascii_uni ins_m0 [s2t "house"%string; s2t "street"%string] /\
  meta_line ascii_uni ins_m [s2t "street"%string; s2t "box"%string] /\ Forall (fun n => In n (section_names w_g)) [s2t "street"%string; s2t "box"%string] /\ get_grammar ascii_env sample_atof w_grammar = Ok w_g.
Proof. exact ins_meta. Qed.
(** A comment or a blank line changes no answer. *)
Theorem C105_comment : forall e atof sort l gr gr' g address lx locale filt, uni_ok (e_uni e) -> with_line l gr gr' -> ~ has_bom gr -> ~ has_bom gr' -> comment_line (e_uni e) l ->
  get_grammar e atof gr = Ok g ->
  std_standardize e atof address gr' lx locale filt = std_standardize e atof address gr lx locale filt /\
  std_match_address e atof sort address gr' lx locale filt = std_match_address e atof sort address gr lx locale filt.
Proof. exact (fun e atof sort l gr gr' g address lx locale filt U => call_comment e atof U sort l gr gr' g address lx locale filt). Qed.
Print Assumptions C105_comment.
Example C105_comment_example : uni_ok ascii_uni /\ with_line ins_c w_grammar ins_cgrammar /\ ~ has_bom w_grammar /\ ~ has_bom ins_cgrammar /\ comment_line ascii_uni ins_c /\ get_grammar ascii_env sample_atof w_grammar = Ok w_g.
Proof. exact ins_comment. Qed.
