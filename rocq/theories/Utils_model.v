(** src/utils.cpp:16-39, src/utils.h:36-42: the event counters. *)
From Coq Require Import List NArith.
From Verif Require Import Base_model Token_model Lexicon_model.
Import ListNotations.
Local Open Scope N_scope.

(** Utils::counts_, src/utils.cpp:16: a std::map from names to unsigned long (64 bits). *)
Definition counters := list (text * N).
(** Utils::count, src/utils.cpp:18-26. *)
Definition count (m : counters) (key : text) : counters :=
  match map_get key m with
  | None => map_put key 1 m
  | Some n => map_put key ((n + 1) mod U64) m
  end.
(** Utils::clear, src/utils.cpp:29-31. *)
Definition clear (m : counters) (key : text) : counters := map_del key m.
(** Utils::getCount, src/utils.cpp:33-39. *)
Definition get_count (m : counters) (key : text) : N :=
  match map_get key m with
  | None => 0
  | Some n => n
  end.
