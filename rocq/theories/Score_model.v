(** The comparison that as_match hands to std::sort. *)
From Coq Require Import Bool List.
From Verif Require Import Base_model Float_model Search_model.
(** sortByScoresDesc, src/as_wrapper.cpp:463-465: [lhs.score > rhs.score] on doubles (false if one is not a number). *)
Definition goes_before (lhs rhs : mresult) : bool := f_lt (m_score rhs) (m_score lhs).
