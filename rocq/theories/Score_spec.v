(** What std::sort asks of its comparison, and the score that counts for a match. *)
From Coq Require Import List Bool Floats.SpecFloat.
Import ListNotations.
(** A strict weak order on the elements of a list, as std::sort requires: nothing goes before itself, going before is
    transitive, and so is not being ordered either way. *)
Definition unordered {A} (lt : A -> A -> bool) (a b : A) : Prop := lt a b = false /\ lt b a = false.
Definition strict_weak {A} (lt : A -> A -> bool) (l : list A) : Prop :=
  (forall a, In a l -> lt a a = false) /\
  (forall a b c, In a l -> In b l -> In c l -> lt a b = true -> lt b c = true -> lt a c = true) /\
  (forall a b c, In a l -> In b l -> In c l -> unordered lt a b -> unordered lt b c -> unordered lt a c).
(** A score counts if it is above zero; one that is not a number counts as zero. *)
Definition counted (s : spec_float) : spec_float := if SFltb (S754_zero false) s then s else S754_zero false.
