(** Exact form of C60 (properties.jsonl): which printed grammars can be read back, and what is read. *)
From Coq Require Import String List NArith.
From Verif Require Import Base_model Uni_model Rule_model Search_model Grammar_model Sample_model Grammar_spec GrammarMore_proofs Reload_spec Reload_proofs.
Import ListNotations.

(** Exactly when ADDRESS and all referenced sections have rules; sections without rules are lost. *)
Theorem C60_exact : forall u atof fprint src L, uni_ok u -> ascii_upper_ok u -> load_grammar u atof src = Ok L ->
  let g := gl_grammar L in
  (forall s r, In s (g_rules g) -> In r (rs_rules s) -> prints_score atof fprint (r_score r)) ->
  ((exists L', load_grammar u atof (grammar_str fprint g) = Ok L') <-> solid g ADDRESS /\ forall n, refers (g_metas g) n -> solid g n) /\
  forall L', load_grammar u atof (grammar_str fprint g) = Ok L' ->
    plain (g_metas (gl_grammar L')) = with_rules (plain (g_metas g)) /\ g_rules (gl_grammar L') = reread atof fprint (g_rules g).
Proof. exact print_exact. Qed.
Print Assumptions C60_exact.
Example C60_exact_example : uni_ok ascii_uni /\ ascii_upper_ok ascii_uni /\ exists L, load_sample loose_src = Ok L /\ ~ no_empty_section (gl_grammar L) /\
  (forall s r, In s (g_rules (gl_grammar L)) -> In r (rs_rules s) -> prints_score sample_atof (fun _ => s2t "0.5") (r_score r)) /\
  exists L', load_grammar ascii_uni sample_atof (grammar_str (fun _ => s2t "0.5") (gl_grammar L)) = Ok L' /\
    plain (g_metas (gl_grammar L)) = [(ADDRESS, [[s2t "house"]]); (s2t "extra", [])] /\
    plain (g_metas (gl_grammar L')) = [(ADDRESS, [[s2t "house"]])].
Proof. exact loose_ex. Qed.
