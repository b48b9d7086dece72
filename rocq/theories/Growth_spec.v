(** Grammars that contain other grammars. *)
From Coq Require Import List NArith.
From Verif Require Import Base_model Class_model Token_model Rule_model.
Import ListNotations.

(** Every rule of [g] stands in [g'] under the same name; [g'] may have more sections and rules, in any order. *)
Definition contains (g' g : grammar) : Prop :=
  (forall ms refs, In ms (g_metas g) -> In refs (ms_rules ms) ->
     exists ms' refs', In ms' (g_metas g') /\ ms_name ms' = ms_name ms /\ In refs' (ms_rules ms') /\ map f_name refs' = map f_name refs) /\
  (forall sec r, In sec (g_rules g) -> In r (rs_rules sec) -> exists sec', In sec' (g_rules g') /\ rs_name sec' = rs_name sec /\ In r (rs_rules sec')).
