(** The order of texts, by code points or by bytes: the first difference decides; a beginning comes before the whole. *)
From Coq Require Import List NArith.
Import ListNotations.
Local Open Scope N_scope.

Inductive text_lt : list N -> list N -> Prop :=
| tl_end : forall c t, text_lt [] (c :: t)
| tl_char : forall c d a b, c < d -> text_lt (c :: a) (d :: b)
| tl_next : forall c a b, text_lt a b -> text_lt (c :: a) (c :: b).
