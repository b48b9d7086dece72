(** What the pattern of a word with carets matches. *)
From Coq Require Import NArith List.
From Verif Require Import Base_model.
Import ListNotations.
Local Open Scope N_scope.

(** Line ends of boost::regex: LF, CR, FF, NEL, LS, PS. *)
Definition ends_line (c : N) : Prop := In c [10; 13; 12; 133; 8232; 8233].
(** The place between [before] and [after] is the start of a line: nothing, or a line end, lies before; CR LF is one line end. *)
Definition line_start (before after : text) : Prop :=
  before = [] \/ exists b c, before = b ++ [c] /\ ends_line c /\ ~ (c = 13 /\ exists a, after = 10 :: a).
(** Every character but the caret stands for itself; a caret for the start of a line. *)
Inductive caret_reads : text -> text -> text -> Prop :=
| cr_end : forall before, caret_reads before [] []
| cr_char : forall before c w s, c <> 94 -> caret_reads (before ++ [c]) w s -> caret_reads before (c :: w) (c :: s)
| cr_caret : forall before w s, line_start before s -> caret_reads before w s -> caret_reads before (94 :: w) s.
