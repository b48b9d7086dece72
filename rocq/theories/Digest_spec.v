(** What is digested of a text that is read line by line. *)
From Coq Require Import String List NArith Bool.
From Verif Require Import Base_model Grammar_spec.
Import ListNotations.
Local Open Scope N_scope.

(** The text without its line feeds. *)
Definition run_together (src : text) : text := filter (fun c => negb (c =? 10)) src.
(** The rest behind the last line feed. *)
Definition last_piece (src : text) : text := last (pieces src) [].
