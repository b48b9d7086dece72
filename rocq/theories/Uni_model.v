(** Unicode character tables used through boost::u32regex (ICU): parameters of the model. *)
From Coq Require Import List NArith Bool.
From Verif Require Import Base_model.
Local Open Scope N_scope.

(** The answers of ICU for the character classes occurring in the patterns of the code:
    [\s], [\w], [[:alpha:]] = [\p{L}], [\d] = [\p{Nd}], [[:punct:]] and the case-insensitive comparison. *)
Record uni := mkUni {
  u_space : N -> bool; u_word : N -> bool; u_alpha : N -> bool; u_digit : N -> bool;
  u_punct : N -> bool; u_fold : N -> N }.

(** The ASCII part of those tables (ICU general categories; [$+<=>^`|~] are symbols, not punctuation). *)
Definition a_upper (c : N) : bool := (65 <=? c) && (c <=? 90).
Definition a_lower (c : N) : bool := (97 <=? c) && (c <=? 122).
Definition a_alpha (c : N) : bool := a_upper c || a_lower c.
Definition a_digit (c : N) : bool := (48 <=? c) && (c <=? 57).
Definition a_word (c : N) : bool := a_alpha c || a_digit c || (c =? 95).
Definition a_space (c : N) : bool := c_isspace c.
Definition a_punct (c : N) : bool :=
  existsb (N.eqb c) (33 :: 34 :: 35 :: 37 :: 38 :: 39 :: 40 :: 41 :: 42 :: 44 :: 45 :: 46 :: 47 :: 58 :: 59
                     :: 63 :: 64 :: 91 :: 92 :: 93 :: 95 :: 123 :: 125 :: nil).
Definition a_fold (c : N) : N := if a_upper c then c + 32 else c.
Definition ascii_uni : uni := mkUni a_space a_word a_alpha a_digit a_punct a_fold.
