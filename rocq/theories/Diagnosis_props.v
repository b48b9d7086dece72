(** Properties of the diagnosis of grammar texts (properties.jsonl C84). *)
From Coq Require Import String List NArith ZArith Bool Lia Floats.SpecFloat.
From Verif Require Import Base_model Class_model Float_model Uni_model Rule_model Search_model Grammar_model
  Sample_model Search_spec Grammar_spec Diagnosis_spec GrammarLine_proofs Loaded_proofs Diagnosis_proofs.
Import ListNotations.
Local Open Scope N_scope.

(** ** C84: the message of a rejected grammar, and the sections and warnings of an accepted one. *)
Theorem C84_rejection_message : forall u atof file m, uni_ok u -> (load_grammar u atof file = Throw m <->
  bad_mark file m \/ exists src, effective file src /\
    (stops u atof (seen_lines src) m \/
     exists ms rs, means u atof src ms rs /\ ~ (closed ms rs /\ In ADDRESS (names_of ms rs)) /\ m = report ms rs)).
Proof. exact rejected. Qed.
Print Assumptions C84_rejection_message.
Theorem C84_accepted_contents : forall u atof file L, uni_ok u -> load_grammar u atof file = Ok L ->
  exists src ms rs, effective file src /\ means u atof src ms rs /\ closed ms rs /\ In ADDRESS (names_of ms rs) /\
    plain (g_metas (gl_grammar L)) = plain ms /\ g_rules (gl_grammar L) = rs /\ gl_issues L = unused_lines ms rs.
Proof. exact accepted. Qed.
Print Assumptions C84_accepted_contents.
Theorem C84_never_reported : forall u atof file m, uni_ok u -> load_grammar u atof file = Throw m ->
  m <> s2t "Grammar-Empty-Section-Defined" /\ m <> s2t "Grammar-updatePointers-consistency-check-failed" /\
  ~ exists t, m = s2t "Invalid rule at [" ++ t.
Proof. exact never_reported. Qed.
Print Assumptions C84_never_reported.
Example C84_example : uni_ok ascii_uni /\
  load_sample "# no section yet
WORD -> STREET -> 0.5
" = Throw (s2t "Grammar-Syntax-Error") /\
  load_sample "[ADDRESS]
@a
[a]
WORD -> STREET -> 0.5
[a]
WORD -> CITY -> 0.5
" = Throw (s2t "Grammar-Duplicate-Section_Name") /\
  load_sample "[ADDRESS]
@a
WORD -> STREET -> 0.5
" = Throw (s2t "Grammar-Mixing-Rules-and-Metas") /\
  load_sample "[ADDRESS]
WORD -> STREET -> 0.5
WORD WORD -> STREET -> 0.5
@a
" = Throw (s2t "Rule-Not-Valid(WORD WORD -> STREET -> 0.5)") /\
  load_sample "[START]
@a @b
@a @c
[a]
WORD -> STREET -> 0.5
[d]
WORD -> STREET -> 0.5
" = Throw (s2t "Missing rule: b : referenced at [START]
Missing rule: c : referenced at [START]
Rule 'ADDRESS' is not defined!
Rule 'START' defined by not referenced!
Rule 'd' defined by not referenced!
") /\
  load_grammar ascii_uni sample_atof [0xFEFF; 91] = Throw (s2t "Rule 'ADDRESS' is not defined!" ++ [10]) /\
  load_grammar ascii_uni sample_atof [0xFEFF] = Throw (s2t "basic_string::substr") /\
  (exists L, load_sample "[ADDRESS]
WORD -> STREET -> 0.5
[a]
WORD -> CITY -> 0.5
" = Ok L /\ gl_issues L = s2t "Rule 'a' defined by not referenced!" ++ [10]).
Proof. split; [exact ascii_uni_ok|]. repeat split; try (vm_compute; reflexivity). eexists. split; vm_compute; reflexivity. Qed.
(** Lines that can be read, followed by one that cannot. *)
Example C84_fault_example : readable ascii_uni sample_atof [s2t "[ADDRESS]"; s2t "@a"] [(s2t "ADDRESS", [s2t "@a"])] /\
  fault ascii_uni sample_atof [(s2t "ADDRESS", [s2t "@a"])] (s2t "WORD -> STREET -> 0.5") (s2t "Grammar-Mixing-Rules-and-Metas").
Proof. exact mixed_example. Qed.
