(** Sets of words in [std::set] order. *)
From Coq Require Import List NArith Sorting.Sorted.
From Verif Require Import Base_model TextOrder_spec.
Import ListNotations.

(** Strictly increasing: every word occurs at most once. *)
Definition sorted_words (l : list text) : Prop := StronglySorted text_lt l.
Definition prefix_of (p w : text) : Prop := exists s, w = p ++ s.
