(** IEEE-754 binary32 / binary64 arithmetic used for rule scores, on the standard library's
    [SpecFloat] (round to nearest, ties to even; no primitive floats, no axioms).
    [-frounding-math] in src/Makefile does not change the default rounding mode. *)
From Coq Require Import ZArith Bool Floats.SpecFloat.
Local Open Scope Z_scope.

Definition flt := spec_float.

(** float operations *)
Definition f32_add (a b : flt) : flt := SFadd 24 128 a b.
Definition f32_div (a b : flt) : flt := SFdiv 24 128 a b.
(** double operations *)
Definition f64_add (a b : flt) : flt := SFadd 53 1024 a b.
Definition f64_div (a b : flt) : flt := SFdiv 53 1024 a b.

(** comparisons; false when an operand is NaN *)
Definition f_lt (a b : flt) : bool := SFltb a b.
Definition f_le (a b : flt) : bool := SFleb a b.

(** conversions: an integer count to float/double, float to double (exact), double to float (rounded) *)
Definition f32_of_nat (n : nat) : flt := binary_normalize 24 128 (Z.of_nat n) 0 false.
Definition f64_of_nat (n : nat) : flt := binary_normalize 53 1024 (Z.of_nat n) 0 false.
Definition f_conv (prec emax : Z) (a : flt) : flt :=
  match a with
  | S754_finite s m e => binary_normalize prec emax (cond_Zopp s (Zpos m)) e s
  | _ => a
  end.
Definition f64_of_f32 (a : flt) : flt := f_conv 53 1024 a.
Definition f32_of_f64 (a : flt) : flt := f_conv 24 128 a.

Definition f_zero : flt := S754_zero false.
Definition f_minus (n : Z) (prec emax : Z) : flt := binary_normalize prec emax (- n) 0 false.
Definition f32_m1 : flt := f_minus 1 24 128.
Definition f32_m2 : flt := f_minus 2 24 128.
Definition f64_m1 : flt := f_minus 1 53 1024.
Definition f64_m2 : flt := f_minus 2 53 1024.

(** The decimal m / 10^k correctly rounded to double and then to float: what
    [static_cast<float>(atof("..."))] yields for a plain decimal numeral (used in examples only). *)
Definition f32_dec (m : Z) (k : Z) : flt :=
  match m with
  | Z0 => S754_zero false
  | _ => f32_of_f64 (f64_div (S754_finite (m <? 0) (Z.to_pos (Z.abs m)) 0)
                             (S754_finite false (Z.to_pos (10 ^ k)) 0))
  end.
