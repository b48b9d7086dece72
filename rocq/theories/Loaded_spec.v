(** Grammars as the loader produces them. *)
From Coq Require Import List NArith ZArith Floats.SpecFloat.
From Verif Require Import Base_model Class_model Float_model Uni_model Token_model Rule_model Grammar_model
  Search_spec Grammar_spec.
Import ListNotations.

(** [g] was loaded from some text, with some character tables and some number reader. *)
Definition is_loaded (g : grammar) : Prop :=
  exists u atof file L, uni_ok u /\ load_grammar u atof file = Ok L /\ gl_grammar L = g.
(** No score was read as NaN. *)
Definition no_nan_scores (g : grammar) : Prop :=
  forall sec r, In sec (g_rules g) -> In r (rs_rules sec) -> r_score r <> S754_nan.
(** Every meta rule has at most [w] references. *)
Definition width (g : grammar) (w : nat) : Prop :=
  forall ms refs, In ms (g_metas g) -> In refs (ms_rules ms) -> List.length refs <= w.
(** Every meta rule has at least two references, every terminal rule at least one input class. *)
Definition branching_grammar (g : grammar) : Prop :=
  (forall ms refs, In ms (g_metas g) -> In refs (ms_rules ms) -> 2 <= List.length refs) /\
  (forall sec r, In sec (g_rules g) -> In r (rs_rules sec) -> r_in r <> []).

(** Rule objects obtained by reading a line, by default construction, clearing, concatenating and pushing. *)
Inductive made : rule -> Prop :=
| md_line : forall atof l r, rule_parse atof l = Ok r -> made r
| md_empty : made empty_rule
| md_clear : forall r, made (rule_clear r)
| md_concat : forall a b, made a -> made b -> made (rule_concat a b)
| md_push : forall r i o, made r -> made (rule_push_in_out r i o).
