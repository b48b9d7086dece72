(** What is said of the grammars in data/sample/. *)
From Coq Require Import String List NArith ZArith.
From Verif Require Import Base_model Class_model Token_model Rule_model Grammar_model Utf8_model.
Import ListNotations.

(** The code points of UTF-8 bytes. *)
Definition utf8 (s : string) : text := match walk_forward (S (String.length s)) (s2t s) 0 with Ok t => t | _ => [] end.
(** Every class name in the rules is one of the lists of names. *)
Definition known_inputs (g : grammar) : Prop :=
  forall sec r, In sec (g_rules g) -> In r (rs_rules sec) -> ~ In I_BADTOKEN (r_in r).
Definition known_outputs (g : grammar) : Prop :=
  forall sec r, In sec (g_rules g) -> In r (rs_rules sec) -> ~ In O_BADTOKEN (r_out r).
(** The columns of a row by name, numbered as in src/address_standardizer.c:241-257. *)
Definition col_house := 1.
Definition col_street := 5.
Definition col_extra := 9.
Definition col_unit := 15.
