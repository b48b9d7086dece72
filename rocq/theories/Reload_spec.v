(** Words for the exact form of C60. *)
From Coq Require Import List NArith.
From Verif Require Import Base_model Rule_model Search_model.
Import ListNotations.
(** The sections of a grammar that have rules. *)
Definition with_rules (p : list (text * list (list text))) : list (text * list (list text)) :=
  filter (fun m => match snd m with [] => false | _ => true end) p.
(** A section of this name has rules. *)
Definition solid (g : grammar) (n : text) : Prop :=
  (exists m, In m (g_metas g) /\ ms_name m = n /\ ms_rules m <> []) \/ (exists s, In s (g_rules g) /\ rs_name s = n /\ rs_rules s <> []).
