(** Changing the scores of a grammar (data/README.md, 54-59): what may change in the answer, and what may not. *)
From Coq Require Import String List NArith ZArith Floats.SpecFloat.
From Verif Require Import Base_model Class_model Float_model Token_model Rule_model Search_spec Order_spec Answer_spec.
Import ListNotations.

(** A number of the type float of C++: an IEEE 754 binary32 value which is not NaN. *)
Definition float_number (f : spec_float) : Prop := valid_binary 24 128 f = true /\ f <> S754_nan.
Definition float_scores (g : grammar) : Prop :=
  forall sec r, In sec (g_rules g) -> In r (rs_rules sec) -> float_number (r_score r).
(** [g'] is [g] with other scores. *)
Definition same_but_score (r r' : rule) : Prop := r_in r' = r_in r /\ r_out r' = r_out r.
Definition rescored (g g' : grammar) : Prop :=
  g_metas g' = g_metas g /\ g_index g' = g_index g /\
  Forall2 (fun s s' => rs_name s' = rs_name s /\ Forall2 same_but_score (rs_rules s) (rs_rules s')) (g_rules g) (g_rules g').
(** The rule [r] of [g] is the rule [r'] of [g']: rule [j] of section [i]. *)
Definition becomes (g g' : grammar) (r r' : rule) : Prop :=
  exists i j s s', nth_error (g_rules g) i = Some s /\ nth_error (g_rules g') i = Some s' /\
    nth_error (rs_rules s) j = Some r /\ nth_error (rs_rules s') j = Some r'.
(** The same match with the other scores. *)
Definition counterpart (g g' : grammar) (m m' : listing) : Prop :=
  l_classes m' = l_classes m /\ l_choices m' = l_choices m /\ l_times m' = l_times m /\ Forall2 (becomes g g') (l_rules m) (l_rules m').
(** [a] is at most [b]. *)
Definition at_most (a b : spec_float) : Prop := SFleb a b = true.
(** Only the rule [a] gets another score. *)
Definition only_changes (g g' : grammar) (a : rule) : Prop := forall r r', becomes g g' r r' -> r <> a -> r' = r.
(** No match but [m] of tokenization [i] uses [a]. *)
Definition only_user (g : grammar) (phs : list (list token)) (i : nat) (m : listing) (a : rule) : Prop :=
  candidate g phs i m /\ In a (l_rules m) /\ forall i' m', candidate g phs i' m' -> In a (l_rules m') -> i' = i /\ m' = m.
(** One, and 2^25. *)
Definition float_one : spec_float := f32_dec 1 0.
Definition float_2_25 : spec_float := f32_dec 33554432 0.
