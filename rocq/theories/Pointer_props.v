(** Properties of copied grammars (properties.jsonl C97). *)
From Coq Require Import String List NArith.
From Verif Require Import Base_model Class_model Float_model Uni_model Token_model Rule_model Search_model Grammar_model Pointer_model Sample_model
  Grammar_spec Search_spec Pointer_spec Pointer_proofs.
Import ListNotations.

(** ** C97 *)
(** A Search object finds, for every section, what the grammar says as long as the Grammar that was first read still exists. *)
Theorem C97_copy : forall u atof ops st i o src node phrase, run u atof ops [] = Ok st -> origin ops i o src -> ~ deleted ops i -> ~ deleted ops o ->
  exists L, load_grammar u atof src = Ok L /\ found (p_search_node st i node phrase) = expected (search_node (gl_grammar L) node phrase).
Proof. exact copy_searches. Qed.
Print Assumptions C97_copy.
Theorem C97_copy_address : forall u atof ops st i o src phrase, run u atof ops [] = Ok st -> origin ops i o src -> ~ deleted ops i -> ~ deleted ops o ->
  exists L, load_grammar u atof src = Ok L /\ found (p_search st i phrase) = expected (search (gl_grammar L) phrase).
Proof. exact copy_addresses. Qed.
Print Assumptions C97_copy_address.
Example C97_copy_example : run ascii_uni sample_atof copies [] = Ok (made copies) /\ origin copies 2 0 (s2t sample_src) /\ ~ deleted copies 2 /\ ~ deleted copies 0 /\
  exists rs, found (p_search (made copies) 2 sample_phrase) = Ok rs /\ rs <> [].
Proof. exact copies_setting. Qed.
(** Without it the search is undefined exactly when the section searched has references to follow and there is a pattern to try. *)
Theorem C97_orphan : forall u atof ops st i o src node phrase, uni_ok u -> run u atof ops [] = Ok st -> origin ops i o src -> ~ deleted ops i -> deleted ops o ->
  exists L, load_grammar u atof src = Ok L /\
    (by_reference (gl_grammar L) node -> some_pattern phrase -> p_search_node st i node phrase = UB) /\
    (~ (by_reference (gl_grammar L) node /\ some_pattern phrase) -> found (p_search_node st i node phrase) = expected (search_node (gl_grammar L) node phrase)).
Proof. exact copy_dangles. Qed.
Print Assumptions C97_orphan.
Example C97_orphan_example : uni_ok ascii_uni /\ run ascii_uni sample_atof orphan [] = Ok (made orphan) /\ origin orphan 1 0 (s2t sample_src) /\ ~ deleted orphan 1 /\ deleted orphan 0 /\
  by_reference (grammar_of (load_sample sample_src)) ADDRESS /\ some_pattern sample_phrase.
Proof. exact orphan_setting. Qed.
(** Making, copying and deleting succeeds exactly when the texts are accepted and only existing objects are used. *)
Theorem C97_objects : forall u atof ops, (exists st, run u atof ops [] = Ok st) <-> well_used (fun src => exists L, load_grammar u atof src = Ok L) ops.
Proof. exact run_used. Qed.
Print Assumptions C97_objects.
Example C97_objects_example : well_used (fun src => exists L, load_grammar ascii_uni sample_atof src = Ok L) copies /\
  ~ well_used (fun src => exists L, load_grammar ascii_uni sample_atof src = Ok L) (copies ++ [CopyOf 1]).
Proof. exact copies_used. Qed.
(** A copy is not independent of its original. *)
Theorem C97_independent_refuted : exists src ops st i o, run ascii_uni sample_atof ops [] = Ok st /\ origin ops i o src /\ ~ deleted ops i /\
  (exists L, load_grammar ascii_uni sample_atof src = Ok L) /\ p_search st i sample_phrase = UB.
Proof. exact orphan_undefined. Qed.
Print Assumptions C97_independent_refuted.
