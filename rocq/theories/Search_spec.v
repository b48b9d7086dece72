(** Specification of the search: grammars as plain data, leftmost derivations by section name. *)
From Coq Require Import List NArith ZArith Floats.SpecFloat.
From Verif Require Import Base_model Class_model Token_model Rule_model.
Import ListNotations.

(** [derives g names k rs]: replacing the section names of [names] from left to right by the alternatives
    the grammar gives for them produces the terminal rules [rs], using [k] meta rule replacements. *)
Inductive derives (g : grammar) : list text -> nat -> list rule -> Prop :=
| d_nil : derives g [] 0 []
| d_meta : forall ms refs rest k rs,
    In ms (g_metas g) -> In refs (ms_rules ms) ->
    derives g (map f_name refs ++ rest) k rs ->
    derives g (ms_name ms :: rest) (S k) rs
| d_rule : forall sec r rest k rs,
    In sec (g_rules g) -> In r (rs_rules sec) ->
    derives g rest k rs ->
    derives g (rs_name sec :: rest) k (r :: rs).

(** What loading establishes (C36): unique names, non-empty meta rules, and references and the section
    index designate the section of their name. *)
Definition section_names (g : grammar) : list text :=
  map ms_name (g_metas g) ++ map rs_name (g_rules g).
Definition ref_ok (g : grammar) (r : sref) : Prop :=
  (exists i ms, f_meta r = Some i /\ nth_error (g_metas g) i = Some ms /\ ms_name ms = f_name r) \/
  (f_meta r = None /\
   exists i rs, f_rule r = Some i /\ nth_error (g_rules g) i = Some rs /\ rs_name rs = f_name r).
Record linked (g : grammar) : Prop := {
  lk_unique : NoDup (section_names g);
  lk_refs : forall ms refs r,
      In ms (g_metas g) -> In refs (ms_rules ms) -> In r refs -> ref_ok g r;
  lk_nonempty : forall ms refs, In ms (g_metas g) -> In refs (ms_rules ms) -> refs <> [];
  lk_index_unique : NoDup (map fst (g_index g));
  lk_index : forall n i, In (n, i) (g_index g) ->
      (exists ms, nth_error (g_metas g) i = Some ms /\ ms_name ms = n) \/
      (exists rs, nth_error (g_rules g) i = Some rs /\ rs_name rs = n);
  lk_indexed : forall n, In n (section_names g) -> exists i, In (n, i) (g_index g) }.

(** One class per token. *)
Definition chooses (phrase : list token) (pat : list intype) : Prop :=
  Forall2 (fun k c => In c (t_in k)) phrase pat.
Definition rule_inputs (rs : list rule) : list intype := concat (map r_in rs).
Definition rule_outputs (rs : list rule) : list outtype := concat (map r_out rs).

(** A match of the phrase from section [node]. *)
Definition matches (g : grammar) (node : text) (phrase : list token) (k : nat) (rs : list rule) : Prop :=
  derives g [node] k rs /\ chooses phrase (rule_inputs rs).

(** Number of class combinations, in unbounded arithmetic. *)
Definition combinations (phrase : list token) : N :=
  fold_right (fun k a => (N.of_nat (List.length (t_in k)) * a)%N) 1%N phrase.

(** All choices in lexicographic order, the first position most significant. *)
Fixpoint cart {A} (l : list (list A)) : list (list A) :=
  match l with
  | [] => [[]]
  | s :: l' => flat_map (fun c => map (cons c) (cart l')) s
  end.

(** Order of classes (enum values; the order of [std::set<InClass::Type>]) and lexicographic order. *)
Definition class_lt (a b : intype) : Prop := (in_code a < in_code b)%Z.
Inductive lex_lt : list intype -> list intype -> Prop :=
| lex_head : forall x y a b, class_lt x y -> lex_lt (x :: a) (y :: b)
| lex_tail : forall x a b, lex_lt a b -> lex_lt (x :: a) (x :: b).

(** Every rule of the grammar has as many outputs as inputs. *)
Definition rules_balanced (g : grammar) : Prop :=
  forall sec r, In sec (g_rules g) -> In r (rs_rules sec) -> List.length (r_in r) = List.length (r_out r).

(** float -> double. *)
Definition widen (a : spec_float) : spec_float :=
  match a with
  | S754_finite s m e => binary_normalize 53 1024 (if s then Zneg m else Zpos m) e s
  | _ => a
  end.
Definition ARROW : text := [45%N; 62%N].

(** Average score of a rule sequence in single and in double precision. *)
Definition average32 (rs : list rule) : spec_float :=
  SFdiv 24 128 (fold_left (fun s r => SFadd 24 128 s (r_score r)) rs (S754_zero false))
        (binary_normalize 24 128 (Z.of_nat (List.length rs)) 0 false).
Definition average64 (rs : list rule) : spec_float :=
  SFdiv 53 1024 (fold_left (fun s r => SFadd 53 1024 s (widen (r_score r))) rs (S754_zero false))
        (binary_normalize 53 1024 (Z.of_nat (List.length rs)) 0 false).

(** A usable score: positive and not NaN (infinity included). *)
Definition positive_score (f : spec_float) : Prop :=
  match f with S754_finite false _ _ | S754_infinity false => True | _ => False end.
Definition scores_positive (g : grammar) : Prop :=
  forall sec r, In sec (g_rules g) -> In r (rs_rules sec) -> positive_score (r_score r).

(** The pattern string of a match. *)
Definition pattern_words (ins : list intype) (outs : list outtype) : list text :=
  map in_str ins ++ [ARROW] ++ map out_str outs.

(** A row of as_match. *)
Definition reports (rs : list rule) (matched : text) (score nrules : spec_float) : Prop :=
  matched = join [SP] (pattern_words (rule_inputs rs) (rule_outputs rs)) /\
  score = average64 rs /\ nrules = binary_normalize 53 1024 (Z.of_nat (List.length rs)) 0 false.

(** [pick] selects from [l] the first element whose [v] is not exceeded. *)
Definition first_max {A} (v : A -> spec_float) (l : list A) (x : A) : Prop :=
  exists l1 l2, l = l1 ++ x :: l2 /\
    Forall (fun y => SFltb (v y) (v x) = true) l1 /\
    Forall (fun y => SFltb (v x) (v y) = false) l2.

(** Sizes any machine can represent: the number of rules in a match stays below 2^127. *)
Definition sizes_ok (g : grammar) (phrase : list token) : Prop :=
  exists w, (forall ms refs, In ms (g_metas g) -> In refs (ms_rules ms) -> List.length refs <= w) /\
            (Z.of_nat ((List.length phrase + 2) * w + 1) < 2 ^ 127)%Z.

(** Derivations as data: the replacement steps in order. *)
Inductive step := by_meta (section : text) (refs : list text) | by_rule (section : text) (r : rule).
Inductive derivation (g : grammar) : list text -> list step -> Prop :=
| dv_nil : derivation g [] []
| dv_meta : forall ms refs rest ss,
    In ms (g_metas g) -> In refs (ms_rules ms) ->
    derivation g (map f_name refs ++ rest) ss ->
    derivation g (ms_name ms :: rest) (by_meta (ms_name ms) (map f_name refs) :: ss)
| dv_rule : forall sec r rest ss,
    In sec (g_rules g) -> In r (rs_rules sec) ->
    derivation g rest ss ->
    derivation g (rs_name sec :: rest) (by_rule (rs_name sec) r :: ss).
Definition step_rules (ss : list step) : list rule :=
  flat_map (fun s => match s with by_meta _ _ => [] | by_rule _ r => [r] end) ss.
Definition matching_derivation (g : grammar) (node : text) (phrase : list token) (ss : list step) : Prop :=
  derivation g [node] ss /\ chooses phrase (rule_inputs (step_rules ss)).
