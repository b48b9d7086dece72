(** Operations on rules, tokens and sections (C69-C71). *)
From Coq Require Import String List NArith ZArith Bool Sorted.
From Verif Require Import Base_model Class_model Float_model Token_model Rule_model Parts_spec Parts_proofs.
Import ListNotations.

(** ** C69: Rule::concat *)
Theorem C69_concat : forall a b,
  r_in (rule_concat a b) = r_in a ++ r_in b /\ r_out (rule_concat a b) = r_out a ++ r_out b /\
  r_score (rule_concat a b) = r_score (rule_concat b a).
Proof. exact concat_parts. Qed.
Print Assumptions C69_concat.
(** The sequences it matches are those of the first rule followed by the second. *)
Theorem C69_match : forall a b pat, rule_match (rule_concat a b) pat = true <-> exists rest, pat = r_in a ++ r_in b ++ rest.
Proof. exact concat_match. Qed.
Print Assumptions C69_match.
(** Inputs and outputs stay at the same positions. *)
Theorem C69_positions : forall a b i, List.length (r_in a) = List.length (r_out a) ->
  (i < List.length (r_in a) -> rule_in (rule_concat a b) i = rule_in a i /\ rule_out (rule_concat a b) i = rule_out a i) /\
  rule_in (rule_concat a b) (List.length (r_in a) + i) = rule_in b i /\
  rule_out (rule_concat a b) (List.length (r_in a) + i) = rule_out b i.
Proof. exact concat_pos. Qed.
Print Assumptions C69_positions.
Example C69_example :
  let a := mkRule [I_NUMBER] [O_HOUSE] (f32_dec 1 1) in
  let b := mkRule [I_WORD; I_TYPE] [O_STREET; O_SUFTYP] (f32_dec 3 1) in
  rule_concat a b = mkRule [I_NUMBER; I_WORD; I_TYPE] [O_HOUSE; O_STREET; O_SUFTYP] (f32_dec 2 1) /\
  rule_match (rule_concat a b) [I_NUMBER; I_WORD; I_TYPE; I_CITY] = true /\ rule_match (rule_concat b a) [I_NUMBER; I_WORD; I_TYPE] = false /\
  rule_out (rule_concat a b) (1 + 1) = O_SUFTYP.
Proof. vm_compute. auto. Qed.

(** ** C70: classes of a token *)
Theorem C70_add : forall k c,
  (forall d, In d (t_in (add_in k c)) <-> d = c \/ In d (t_in k)) /\
  (class_set (t_in k) -> class_set (t_in (add_in k c))) /\ but_classes (add_in k c) = but_classes k.
Proof. exact add_in_spec. Qed.
Print Assumptions C70_add.
Theorem C70_query : forall k c s,
  (is_in_class k c = true <-> In c (t_in k)) /\ (is_in_class_set k s = true <-> exists d, In d s /\ In d (t_in k)).
Proof. exact queries_spec. Qed.
Print Assumptions C70_query.
Theorem C70_size : forall k, class_set (t_in k) -> NoDup (t_in k) /\ in_size k = N.of_nat (List.length (t_in k)).
Proof. exact size_spec. Qed.
Print Assumptions C70_size.
Example C70_example :
  let k := token_of_text (s2t "OAK") in
  t_in (add_in (add_in (add_in k I_WORD) I_TYPE) I_NUMBER) = [I_NUMBER; I_WORD; I_TYPE] /\
  add_in (add_in k I_WORD) I_WORD = add_in k I_WORD /\ is_in_class_set (add_in k I_WORD) [I_TYPE; I_WORD] = true /\
  class_set (t_in (add_in (add_in k I_WORD) I_TYPE)).
Proof. repeat split; try (vm_compute; reflexivity). vm_compute. repeat constructor. Qed.

(** ** C71: positions in sections and rules *)
Theorem C71_meta_rule : forall m i,
  (forall r, meta_rule_at m i = Ok r <-> at_pos (ms_rules m) i r) /\
  (List.length (ms_rules m) <= i -> meta_rule_at m i = Throw (s2t "MetaSection-Range-Error")) /\
  (i < List.length (ms_rules m) -> exists r, meta_rule_at m i = Ok r).
Proof. exact meta_index. Qed.
Print Assumptions C71_meta_rule.
Theorem C71_rule : forall m i,
  (forall r, rule_rule_at m i = Ok r <-> at_pos (rs_rules m) i r) /\
  (List.length (rs_rules m) <= i -> rule_rule_at m i = Throw (s2t "RuleSection-Range-Error")) /\
  (i < List.length (rs_rules m) -> exists r, rule_rule_at m i = Ok r).
Proof. exact rule_index. Qed.
Print Assumptions C71_rule.
Theorem C71_class : forall r i,
  (forall c, at_pos (r_in r) i c -> rule_in r i = c) /\ (List.length (r_in r) <= i -> rule_in r i = I_BADTOKEN) /\
  (forall c, at_pos (r_out r) i c -> rule_out r i = c) /\ (List.length (r_out r) <= i -> rule_out r i = O_BADTOKEN).
Proof. exact class_index. Qed.
Print Assumptions C71_class.
Example C71_example :
  let a := mkRule [I_NUMBER] [O_HOUSE] (f32_dec 1 1) in
  let b := mkRule [I_WORD; I_TYPE] [O_STREET; O_SUFTYP] (f32_dec 3 1) in
  rule_rule_at (mkRules (s2t "S") [a; b]) 1 = Ok b /\
  rule_rule_at (mkRules (s2t "S") [a; b]) 2 = Throw (s2t "RuleSection-Range-Error") /\
  meta_rule_at (mkMeta (s2t "M") [[new_ref (s2t "S")]]) 0 = Ok [new_ref (s2t "S")] /\
  rule_in b 1 = I_TYPE /\ rule_out b 2 = O_BADTOKEN.
Proof. vm_compute. auto. Qed.
