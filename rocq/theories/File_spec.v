(** Files and texts as the constructors see them. *)
From Coq Require Import List NArith.
From Verif Require Import Base_model File_model.
Import ListNotations.
Local Open Scope N_scope.

(** [p] is what a C string shows of [t]. *)
Definition up_to_nul (t p : text) : Prop := ~ In 0 p /\ (t = p \/ exists r, t = p ++ 0 :: r).
(** What can be read under the name [file]: nothing counts as the empty text. *)
Definition file_text (fs : files) (file t : text) : Prop :=
  exists n, up_to_nul file n /\ (fs n = Contents t \/ (t = [] /\ (fs n = Missing \/ fs n = Unreadable))).
