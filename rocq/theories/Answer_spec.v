(** The answers of as_standardize, as_parse and as_match, exactly. *)
From Coq Require Import String List NArith ZArith Sorting.Sorted Sorting.Permutation Floats.SpecFloat.
From Verif Require Import Base_model Class_model Class_spec Float_model Token_model Rule_model Search_model Lexicon_model Wrapper_model Search_spec Wrapper_spec Order_spec.
Import ListNotations.

(** The matches of tokenization number [i]. *)
Definition candidate (g : grammar) (phs : list (list token)) (i : nat) (m : listing) : Prop :=
  exists ph, nth_error phs i = Some ph /\ listed_match g ADDRESS ph m.
(** The first of the best: no match has a larger average, and all matches before it (in an earlier tokenization, or earlier in this
    one) have a smaller one. *)
Definition first_best (g : grammar) (phs : list (list token)) (i : nat) (m : listing) : Prop :=
  candidate g phs i m /\
  forall i' m', candidate g phs i' m' ->
    SFltb (average32 (l_rules m)) (average32 (l_rules m')) = false /\
    (i' < i \/ (i' = i /\ earlier m' m) -> SFltb (average32 (l_rules m')) (average32 (l_rules m)) = true).
(** The row of as_standardize; no row if nothing matches. *)
Definition answer (g : grammar) (x : lexicon) (phs : list (list token)) (o : option stdaddr) : Prop :=
  match o with
  | None => forall i m, ~ candidate g phs i m
  | Some r => exists i m ph ws, first_best g phs i m /\ nth_error phs i = Some ph /\ standards x ph (l_classes m) ws /\
      sa_fields r = map (fun c => content c (combine (rule_outputs (l_rules m)) ws)) columns /\
      sa_pattern r = join [SP] (pattern_words (l_classes m) (rule_outputs (l_rules m)))
  end.
(** The rows of as_parse. *)
Definition parse_report (phs : list (list token)) (rows : list prow) : Prop :=
  forall n r, nth_error rows n = Some r <->
    exists a p ph k, nth_error phs a = Some ph /\ nth_error ph p = Some k /\ n = (before_count phs a + p)%nat /\
      r = mkRow (N.of_nat (S a)) (N.of_nat (S n)) (t_text k) (iset_str (t_in k)) (aset_str (t_att k)).
(** The rows of as_match: every match of every tokenization, as often as it is listed; the largest averages first. *)
Definition match_report (g : grammar) (phs : list (list token)) (out : list mresult) : Prop :=
  (forall l1 a l2 b l3, out = l1 ++ a :: l2 ++ b :: l3 -> SFltb (m_score a) (m_score b) = false) /\
  exists dss ms, Forall2 (fun ph ds => NoDup ds /\ forall m, In m ds <-> listed_match g ADDRESS ph m) phs dss /\
    Permutation ms (flat_map (fun m => repeat m (l_times m)) (concat dss)) /\
    ((forall i m, ~ candidate g phs i m) -> out = [mkMR (s2t "Failed to match to grammar!"%string) f64_m1 f64_m1]) /\
    ((exists i m, candidate g phs i m) ->
      Forall2 (fun m row => reports (l_rules m) (m_matched row) (m_score row) (m_nrules row)) ms out).
