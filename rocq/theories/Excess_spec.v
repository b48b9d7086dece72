(** When the limit on meta rule replacements (number of tokens + 2) cannot lose a match. *)
From Coq Require Import List NArith ZArith.
From Verif Require Import Base_model Class_model Token_model Rule_model Search_spec.
Import ListNotations.

(** Sum of the excesses of some sections; none if one of them has none. *)
Definition total (v : text -> option Z) (names : list text) : option Z :=
  fold_right (fun n a => match v n, a with Some x, Some y => Some (x + y)%Z | _, _ => None end) (Some 0%Z) names.
(** [v] gives for every section that can be replaced by rules at all a number that no replacement exceeds: the number of meta rules used,
    less the number of classes read. *)
Definition excess (g : grammar) (v : text -> option Z) : Prop :=
  (forall ms refs x, In ms (g_metas g) -> In refs (ms_rules ms) -> total v (map f_name refs) = Some x ->
     exists y, v (ms_name ms) = Some y /\ (1 + x <= y)%Z) /\
  (forall sec r, In sec (g_rules g) -> In r (rs_rules sec) ->
     exists y, v (rs_name sec) = Some y /\ (- Z.of_nat (List.length (r_in r)) <= y)%Z).
(** The limit is never in the way of a match of [node]. *)
Definition within_limit (g : grammar) (node : text) : Prop :=
  exists v, excess g v /\ forall x, v node = Some x -> (x <= 2)%Z.
