(** Exact values of scores and averages, and what it means for a float to be accurate. *)
From Coq Require Import List ZArith QArith Qpower Floats.SpecFloat.
From Verif Require Import Rule_model.
Import ListNotations.
Local Open Scope Q_scope.

Definition p2 (e : Z) : Q := (2#1) ^ e.
(** The rational number a finite float stands for. *)
Definition fval (f : spec_float) : Q :=
  match f with
  | S754_finite s m e => inject_Z (if s then Z.neg m else Z.pos m) * p2 e
  | _ => 0
  end.
(** The exact average of the scores of some rules. *)
Definition exact_sum (rs : list rule) : Q := fold_right (fun r s => fval (r_score r) + s) 0 rs.
Definition exact_average (rs : list rule) : Q := exact_sum rs / inject_Z (Z.of_nat (List.length rs)).
(** A single precision score between 2^-100 and 2^100. *)
Definition usual_score (f : spec_float) : Prop :=
  exists m e, f = S754_finite false m e /\ (Z.pos m < 2 ^ 24)%Z /\ p2 (-100) <= fval f <= p2 100.
Definition usual_scores (rs : list rule) : Prop := Forall (fun r => usual_score (r_score r)) rs.
Definition finite_float (f : spec_float) : Prop := match f with S754_finite _ _ _ => True | _ => False end.
(** [f] is a finite float which equals [x] up to [n] roundings to [prec] bits. *)
Definition accurate (prec : Z) (n : nat) (f : spec_float) (x : Q) : Prop :=
  finite_float f /\
  (1 - p2 (- prec)) ^ Z.of_nat n * x <= fval f <= (1 + p2 (- prec)) ^ Z.of_nat n * x.
(** All scores of a grammar. *)
Definition usual_grammar (g : grammar) : Prop :=
  forall sec r, In sec (g_rules g) -> In r (rs_rules sec) -> usual_score (r_score r).
