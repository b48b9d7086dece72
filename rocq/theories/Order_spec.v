(** In which order, and how often, the search lists the matches. *)
From Coq Require Import List NArith ZArith Arith.
From Verif Require Import Base_model Class_model Token_model Rule_model Search_spec.
Import ListNotations.

Definition class_dec : forall a b : intype, {a = b} + {a <> b}.
Proof. decide equality. Defined.
(** The number of rules that fit the beginning of [pat]. *)
Definition fitting (rs : list rule) (pat : list intype) : nat :=
  List.length (filter (fun r => if list_eq_dec class_dec (firstn (List.length (r_in r)) pat) (r_in r) then true else false) rs).

(** [traced g names pat k cs rs n rem]: replacing [names] from left to right produces the rules [rs], with [k] meta rule replacements; [cs]
    are the positions of the alternatives used in their sections.  The rules read [pat] up to [rem].  [n] is the number of times such a
    match is listed: after every rule but the last, as often as there are rules in its section that fit. *)
Inductive traced (g : grammar) : list text -> list intype -> nat -> list nat -> list rule -> nat -> list intype -> Prop :=
| tr_nil : forall rem, traced g [] rem 0 [] [] 1 rem
| tr_meta : forall ms i refs rest pat k cs rs n rem, In ms (g_metas g) -> nth_error (ms_rules ms) i = Some refs ->
    traced g (map f_name refs ++ rest) pat k cs rs n rem ->
    traced g (ms_name ms :: rest) pat (S k) (i :: cs) rs n rem
| tr_rule : forall sec i r rest pat k cs rs n rem, In sec (g_rules g) -> nth_error (rs_rules sec) i = Some r ->
    traced g rest pat k cs rs n rem ->
    traced g (rs_name sec :: rest) (r_in r ++ pat) k (i :: cs) (r :: rs)
      (match rest with [] => n | _ => fitting (rs_rules sec) (r_in r ++ pat) * n end) rem.

(** A match: classes of the tokens, positions of the alternatives, rules, and how often it is listed. *)
Record listing := mkL { l_classes : list intype; l_choices : list nat; l_rules : list rule; l_times : nat }.
Definition listed_match (g : grammar) (node : text) (phrase : list token) (m : listing) : Prop :=
  chooses phrase (l_classes m) /\
  exists k, k <= List.length phrase + 2 /\ traced g [node] (l_classes m) k (l_choices m) (l_rules m) (l_times m) [].
(** Earlier: by classes first, then by alternatives. *)
Inductive choice_lt : list nat -> list nat -> Prop :=
| choice_head : forall a b x y, a < b -> choice_lt (a :: x) (b :: y)
| choice_tail : forall a x y, choice_lt x y -> choice_lt (a :: x) (a :: y).
Definition earlier (a b : listing) : Prop :=
  lex_lt (l_classes a) (l_classes b) \/ (l_classes a = l_classes b /\ choice_lt (l_choices a) (l_choices b)).
(** [l] lists [ds] in order, but may list again what it (or [seen]) had already. *)
Inductive echoes {A} : list A -> list A -> list A -> Prop :=
| echo_end : forall seen, echoes seen [] []
| echo_new : forall x seen ds l, echoes (x :: seen) ds l -> echoes seen (x :: ds) (x :: l)
| echo_old : forall x seen ds l, In x seen -> echoes seen ds l -> echoes seen ds (x :: l).
