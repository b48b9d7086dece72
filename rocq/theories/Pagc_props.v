(** Properties of the converters of tools/ (properties.jsonl C120). *)
From Coq Require Import String List NArith ZArith.
From Verif Require Import Base_model Class_model Float_model Uni_model Rule_model Search_model Search_spec Grammar_model Grammar_spec Sample_model Docs_spec Pagc_model Pagc_spec Pagc_proofs.
Import ListNotations.
Local Open Scope N_scope.

(** ** C120 *)
(** The rules of PAGC become the rules of a grammar that loads without a complaint. *)
Theorem C120_rules : forall u atof rss ts, uni_ok u -> doc_tables u -> Forall2 pagc_file rss ts -> Forall in_range (concat rss) ->
  (forall k, k <= 4 -> exists r, In r (concat rss) /\ p_type r = k) ->
  (forall r s, In r (concat rss) -> twentieth (p_score r) s -> not_le_zero (atof s)) ->
  exists L, load_grammar u atof (convert_rules ts) = Ok L /\ gl_status L = CHECK_OK /\ plain (g_metas (gl_grammar L)) = the_metas /\
    Forall2 (section_is atof (concat rss)) the_sections (g_rules (gl_grammar L)).
Proof. exact converted_loads. Qed.
Print Assumptions C120_rules.
(** Without rules for buildings the grammar written is rejected; a score of 0 makes it so too. *)
Theorem C120_empty_section_refuted : exists rs t m, pagc_file rs t /\ Forall in_range rs /\ (forall k, k <= 3 -> exists r, In r rs /\ p_type r = k) /\
  load_grammar ascii_uni sample_atof (convert_rules [t]) = Throw m.
Proof. exact no_building. Qed.
Print Assumptions C120_empty_section_refuted.
Theorem C120_zero_score_refuted : exists rs t m, pagc_file rs t /\ Forall (fun r => Forall (fun n => n <= 33) (p_ins r) /\ Forall (fun n => n <= 17) (p_outs r)) rs /\
  (forall k, k <= 4 -> exists r, In r rs /\ p_type r = k) /\ load_grammar ascii_uni sample_atof (convert_rules [t]) = Throw m.
Proof. exact zero_score. Qed.
Print Assumptions C120_zero_score_refuted.
(** A line with three -1 in a row is no rule, but is not refused. *)
Theorem C120_malformed_refuted : exists l, (forall r, ~ pagc_line r l) /\ convert_line l = Some (3%Z, mkPagc [s2t "NUMBER"] [s2t "UNITT"] 20%Z).
Proof. exact three_minus. Qed.
Print Assumptions C120_malformed_refuted.
Example C120_example : uni_ok ascii_uni /\ doc_tables ascii_uni /\ Forall2 pagc_file [pg_rules] [pg_text] /\ Forall in_range (concat [pg_rules]) /\
  (forall k, k <= 4 -> exists r, In r (concat [pg_rules]) /\ p_type r = k) /\
  (forall r s, In r (concat [pg_rules]) -> twentieth (p_score r) s -> not_le_zero (sample_atof s)) /\
  convert_rules [pg_text] = s2t "[ADDRESS]
@MICRO @MACRO
@HOUSE @ARC @MACRO
@BUILDING @MICRO @MACRO
@BUILDING @HOUSE @ARC @MACRO

[MACRO]
CITY PROV QUAD -> CITY PROV POSTAL -> 0.85
CITY PROV -> CITY PROV -> 0.4
CITY NATION -> CITY NATION -> 0.2
CITY -> CITY -> 0.05

[MICRO]
NUMBER WORD TYPE -> HOUSE STREET SUFTYP -> 0.8

[ARC]
WORD TYPE -> STREET SUFTYP -> 0.5

[HOUSE]
NUMBER -> HOUSE -> 1

[BUILDING]
BUILDT NUMBER -> BLDNG BLDNG -> 0.45

".
Proof. exact pg_ex. Qed.
