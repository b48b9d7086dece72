(** Properties of grammar loading (properties.jsonl C33 (grammars), C36-C41, C60). *)
From Coq Require Import String List NArith ZArith Bool Lia Floats.SpecFloat.
From Verif Require Import Base_model Class_model Float_model Uni_model Token_model Rule_model Search_model Grammar_model
  Sample_model Search_spec Grammar_spec Loaded_spec GrammarLine_proofs GrammarPrint_proofs Loaded_proofs GrammarMore_proofs.
Import ListNotations.
Local Open Scope N_scope.

(** ** C36 *)
Theorem C36_loaded_grammar_closed : forall u atof file L, uni_ok u -> load_grammar u atof file = Ok L ->
  let g := gl_grammar L in
  linked g /\ In ADDRESS (section_names g) /\ rules_checked (g_rules g) /\
  (gl_status L = CHECK_OK <-> forall n, In n (section_names g) -> refers (g_metas g) n \/ n = ADDRESS) /\
  (gl_status L <> CHECK_OK -> gl_status L = CHECK_WARN) /\ (gl_status L = CHECK_OK -> gl_issues L = []).
Proof. exact loaded_well_formed. Qed.
Print Assumptions C36_loaded_grammar_closed.
Example C36_example : uni_ok ascii_uni /\ exists L, load_sample sample_src = Ok L /\ gl_status L = CHECK_OK /\
  List.length (section_names (gl_grammar L)) = 5%nat.
Proof. split; [exact ascii_uni_ok|]. eexists. split; [vm_compute; reflexivity|]. split; reflexivity. Qed.

(** ** C37: a text loads exactly when it means a closed grammar with an ADDRESS section; the meaning requires
    unique section names, well-formed rules, unmixed sections and no rule before the first header. *)
Theorem C37_load_iff_well_formed : forall u atof file, uni_ok u ->
  ((exists L, load_grammar u atof file = Ok L) <->
   exists src ms rs, effective file src /\ means u atof src ms rs /\ closed ms rs /\ In ADDRESS (names_of ms rs)) /\
  load_grammar u atof file <> UB.
Proof. exact load_iff. Qed.
Print Assumptions C37_load_iff_well_formed.
Theorem C37_rule_lines : forall atof l r, rule_parse atof l = Ok r <-> rule_line atof l r.
Proof. exact rule_parse_spec. Qed.
Print Assumptions C37_rule_lines.
Example C37_example : uni_ok ascii_uni /\
  (exists L, load_sample sample_src = Ok L) /\
  (exists m, load_sample "[ADDRESS]
@a
" = Throw m) /\
  (exists m, load_sample "[STREET]
WORD -> STREET -> 0.5
" = Throw m) /\
  (exists m, load_sample "[ADDRESS]
WORD WORD -> STREET -> 0.5
" = Throw m) /\
  (exists m, load_sample "[ADDRESS]
WORD -> STREET -> 0.5
[ADDRESS]
WORD -> CITY -> 0.5
" = Throw m) /\
  (exists m, load_sample "[ADDRESS]
WORD -> STREET -> 0
" = Throw m).
Proof. split; [exact ascii_uni_ok|]. repeat split; eexists; vm_compute; reflexivity. Qed.

(** ** C38 *)
Theorem C38_every_line_counts_refuted : exists u atof file L bs, uni_ok u /\ load_grammar u atof file = Ok L /\
  effective file file /\ doc u (seen_lines file) [] bs /\
  exists n ls m, In (n, ls) bs /\ In m (g_metas (gl_grammar L)) /\ ms_name m = n /\ List.length (ms_rules m) <> List.length ls.
Proof. exact junk_ignored. Qed.
Print Assumptions C38_every_line_counts_refuted.
(** Holds when every line with an "@" is a list of references. *)
Theorem C38_every_line_counts_partial : forall u atof file L, uni_ok u -> load_grammar u atof file = Ok L ->
  exists src bs, effective file src /\ doc u (seen_lines src) [] bs /\
   ((forall n ls l, In (n, ls) bs -> In l ls -> at_line l -> exists ns, meta_line u l ns) ->
    forall n ls, In (n, ls) bs -> ls <> [] ->
    (exists m, In m (g_metas (gl_grammar L)) /\ ms_name m = n /\
       Forall2 (fun l refs => meta_line u l (map f_name refs)) ls (ms_rules m)) \/
    (exists s, In s (g_rules (gl_grammar L)) /\ rs_name s = n /\ Forall2 (rule_line atof) ls (rs_rules s))).
Proof. exact every_line_counts. Qed.
Print Assumptions C38_every_line_counts_partial.
Example C38_example : uni_ok ascii_uni /\ (exists L, load_sample sample_src = Ok L) /\
  exists ns, meta_line ascii_uni (s2t "@house @street @city") ns.
Proof.
  split; [exact ascii_uni_ok|]. split; [eexists; vm_compute; reflexivity|].
  apply is_meta_spec; [exact ascii_uni_ok|]. vm_compute; reflexivity.
Qed.

(** ** C39 *)
Theorem C39_final_newline_refuted : exists u atof file L L', uni_ok u /\ load_grammar u atof file = Ok L /\
  load_grammar u atof (file ++ [10]) = Ok L' /\ g_rules (gl_grammar L) <> g_rules (gl_grammar L').
Proof. exact last_line_twice. Qed.
Print Assumptions C39_final_newline_refuted.
(** Holds when the last line is empty, a comment or a section header. *)
Theorem C39_final_newline_partial : forall u atof file src, uni_ok u -> effective file src ->
  (comment_line u (last (pieces src) []) \/ exists n, header_line u (last (pieces src) []) n) ->
  load_grammar u atof (file ++ [10]) = load_grammar u atof file.
Proof. exact final_newline. Qed.
Print Assumptions C39_final_newline_partial.
Example C39_example : effective (s2t sample_src) (s2t sample_src) /\ comment_line ascii_uni (last (pieces (s2t sample_src)) []).
Proof.
  split; [apply eff_plain; intros (t & K); vm_compute in K; discriminate|].
  apply is_comment_spec; [exact ascii_uni_ok|vm_compute; reflexivity].
Qed.

(** ** C40 *)
Theorem C40_misspelled_rejected_refuted : exists u atof file L sec r, uni_ok u /\ load_grammar u atof file = Ok L /\
  In sec (g_rules (gl_grammar L)) /\ In r (rs_rules sec) /\
  rule_line atof (s2t "WROD -> STREET -> 0.5") r /\ In (s2t "WROD -> STREET -> 0.5") (pieces file) /\
  forall c, in_str c <> s2t "WROD".
Proof. exact misspelled_accepted. Qed.
Print Assumptions C40_misspelled_rejected_refuted.

(** ** C41 *)
Theorem C41_rules_balanced : forall r, made r -> List.length (r_in r) = List.length (r_out r).
Proof. exact made_balanced. Qed.
Print Assumptions C41_rules_balanced.
Theorem C41_positive_score_refuted : exists atof l r, rule_parse atof l = Ok r /\ ~ positive_score (r_score r).
Proof. exact nan_rule. Qed.
Print Assumptions C41_positive_score_refuted.
(** Holds for every score except NaN. *)
Theorem C41_positive_score_partial : forall atof l r, rule_parse atof l = Ok r ->
  List.length (r_in r) = List.length (r_out r) /\ (r_score r <> S754_nan -> positive_score (r_score r)).
Proof. exact parsed_rule. Qed.
Print Assumptions C41_positive_score_partial.
Example C41_example : exists a b, rule_parse sample_atof (s2t "WORD TYPE -> STREET SUFTYP -> 0.75") = Ok a /\
  rule_parse sample_atof (s2t "NUMBER -> HOUSE -> 0.25") = Ok b /\ made (rule_concat a (rule_push_in_out b I_CITY O_CITY)) /\
  r_score (rule_concat a b) = f32_dec 5 1.
Proof.
  do 2 eexists. split; [vm_compute; reflexivity|]. split; [vm_compute; reflexivity|]. split; [|vm_compute; reflexivity].
  apply md_concat; [|apply md_push]; eapply md_line with (atof := sample_atof).
  - instantiate (1 := s2t "WORD TYPE -> STREET SUFTYP -> 0.75"). vm_compute. reflexivity.
  - instantiate (1 := s2t "NUMBER -> HOUSE -> 0.25"). vm_compute. reflexivity.
Qed.

(** ** C33 for grammars *)
Theorem C33_grammar_bom_refuted : exists u atof file L m, uni_ok u /\ load_grammar u atof file = Ok L /\
  load_grammar u atof (0xFEFF :: file) = Throw m.
Proof. exact bom_rejected. Qed.
Print Assumptions C33_grammar_bom_refuted.
(** What happens: the mark and one more one-byte character are dropped. *)
Theorem C33_grammar_bom_partial : forall u atof d t, d < 128 -> d <> 10 -> ~ has_bom t ->
  load_grammar u atof (0xFEFF :: d :: t) = load_grammar u atof t.
Proof. exact load_bom. Qed.
Print Assumptions C33_grammar_bom_partial.
Example C33_example : exists L, load_grammar ascii_uni sample_atof (0xFEFF :: 32 :: s2t sample_src) = Ok L /\ ~ has_bom (s2t sample_src).
Proof. eexists. split; [vm_compute; reflexivity|]. intros (t & K). vm_compute in K. discriminate. Qed.

(** ** C60 *)
(** Scores must print as one word that is read as a positive number, and no section may be without rules. *)
Theorem C60_print_reload_partial : forall u atof fprint src L, uni_ok u -> ascii_upper_ok u ->
  load_grammar u atof src = Ok L -> no_empty_section (gl_grammar L) ->
  (forall s r, In s (g_rules (gl_grammar L)) -> In r (rs_rules s) -> prints_score atof fprint (r_score r)) ->
  exists L', load_grammar u atof (grammar_str fprint (gl_grammar L)) = Ok L' /\
    plain (g_metas (gl_grammar L')) = plain (g_metas (gl_grammar L)) /\
    g_rules (gl_grammar L') = reread atof fprint (g_rules (gl_grammar L)) /\
    gl_status L' = gl_status L.
Proof. exact print_load. Qed.
Print Assumptions C60_print_reload_partial.
Theorem C60_print_reload_refuted : exists u atof fprint file L m, uni_ok u /\ ascii_upper_ok u /\ load_grammar u atof file = Ok L /\
  (forall s r, In s (g_rules (gl_grammar L)) -> In r (rs_rules s) -> prints_score atof fprint (r_score r)) /\
  load_grammar u atof (grammar_str fprint (gl_grammar L)) = Throw m.
Proof. exact empty_section_lost. Qed.
Print Assumptions C60_print_reload_refuted.
Example C60_example : uni_ok ascii_uni /\ ascii_upper_ok ascii_uni /\ exists L, load_sample sample_src = Ok L /\
  no_empty_section (gl_grammar L) /\
  (forall s r, In s (g_rules (gl_grammar L)) -> In r (rs_rules s) -> prints_score sample_atof (fun _ => s2t "0.5") (r_score r)).
Proof.
  split; [exact ascii_uni_ok|]. split; [exact ascii_uni_upper|]. eexists. split; [vm_compute; reflexivity|].
  split; [|intros; apply half_prints]. intros m H. simpl in H. destruct H as [<-|[<-|[]]]; discriminate.
Qed.
