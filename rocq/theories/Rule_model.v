(** src/rule.h, src/rule.cpp, src/metarule.cpp, src/sectionptr.h, src/metasection.h, src/rulesection.h. *)
From Coq Require Import String List NArith ZArith Bool Floats.SpecFloat.
From Verif Require Import Base_model Class_model Float_model.
Import ListNotations.

(** class Rule: inClass_, outClass_, score_ (float). *)
Record rule := mkRule { r_in : list intype; r_out : list outtype; r_score : flt }.

Definition empty_rule : rule := mkRule [] [] f_zero.

(** Rule::isValid, src/rule.cpp:72-77: [score_ <= 0] is false for NaN. *)
Definition rule_valid (r : rule) : bool :=
  negb (negb (Nat.eqb (List.length (r_in r)) (List.length (r_out r))) || f_le (r_score r) f_zero).

(** One step of the loop of Rule::Rule(line), src/rule.cpp:27-46, on the current value of [token]. *)
Definition rule_word (atof : text -> flt) (w : text) (st : nat * rule) : nat * rule :=
  let (state, r) := st in
  if teqb w (s2t "->") then (S state, r)
  else match state with
       | O => (state, mkRule (r_in r ++ [as_one_type w]) (r_out r) (r_score r))
       | 1%nat => (state, mkRule (r_in r) (r_out r ++ [out_as_type w]) (r_score r))
       | 2%nat => (state, mkRule (r_in r) (r_out r) (atof w))
       | _ => (state, r)
       end.

(** [while (not buffer.eof()) { buffer >> token; ... }], src/rule.cpp:27-46.  A failed extraction (trailing
    white space) leaves [token] unchanged, so the last word is processed again.  Fuel: every
    successful extraction consumes a character, so length+2 rounds always reach eof. *)
Fixpoint rule_loop (fuel : nat) (atof : text -> flt) (s : stream) (w : text) (st : nat * rule)
  : option (nat * rule) :=
  match fuel with
  | O => None
  | S f => if s_eof s then Some st
           else let (s', w') := read_word s w in rule_loop f atof s' w' (rule_word atof w' st)
  end.

(** Rule::Rule(line), src/rule.cpp:21-51.  [atof] stands for [static_cast<float>(atof(...))]. *)
Definition rule_parse (atof : text -> flt) (line : text) : outcome rule :=
  match rule_loop (List.length line + 2) atof (open_stream line) [] (O, empty_rule) with
  | Some (_, r) =>
      if rule_valid r then Ok r
      else Throw (s2t "Rule-Not-Valid(" ++ line ++ s2t ")")
  | None => UB
  end.

(** Rule::in(pos) / Rule::out(pos), src/rule.cpp:54-65. *)
Definition rule_in (r : rule) (pos : nat) : intype := nth pos (r_in r) I_BADTOKEN.
Definition rule_out (r : rule) (pos : nat) : outtype := nth pos (r_out r) O_BADTOKEN.

(** Rule::concat, src/rule.cpp:82-96: the float sum is halved in double and cast back. *)
Definition rule_concat (a b : rule) : rule :=
  mkRule (r_in a ++ r_in b) (r_out a ++ r_out b)
         (f32_of_f64 (f64_div (f64_of_f32 (f32_add (r_score a) (r_score b))) (f64_of_nat 2))).

(** Rule::match, src/rule.cpp:101-112. *)
Fixpoint match_from (ins pat : list intype) : bool :=
  match ins, pat with
  | [], _ => true
  | e :: ins', x :: pat' => if in_eqb e x then match_from ins' pat' else false
  | _ :: _, [] => false
  end.
Definition rule_match (r : rule) (pat : list intype) : bool :=
  if Nat.ltb (List.length pat) (List.length (r_in r)) then false else match_from (r_in r) pat.

(** Rule::clear, pushInOut, src/rule.cpp:117-137. *)
Definition rule_clear (r : rule) : rule := empty_rule.
Definition rule_push_in_out (r : rule) (i : intype) (o : outtype) : rule :=
  mkRule (r_in r ++ [i]) (r_out r ++ [o]) (r_score r).

(** operator<<, src/rule.cpp:145-156; [fprint] renders the score (ostream << float). *)
Definition rule_str (fprint : flt -> text) (r : rule) : text :=
  concat (map (fun i => in_str i ++ [SP]) (r_in r)) ++ s2t "-> "
  ++ concat (map (fun o => out_str o ++ [SP]) (r_out r)) ++ s2t "-> " ++ fprint (r_score r).

(** class SectionPtr, src/sectionptr.h: a name and two raw pointers, here indices into the vectors
    [metas_] / [rules_] of the grammar. *)
Record sref := mkRef { f_name : text; f_meta : option nat; f_rule : option nat }.
Definition new_ref (n : text) : sref := mkRef n None None.

(** class MetaRule: the references; MetaSection / RuleSection: a name and the rules. *)
Definition metarule := list sref.
Record metasection := mkMeta { ms_name : text; ms_rules : list metarule }.
Record rulesection := mkRules { rs_name : text; rs_rules : list rule }.

(** The data part of class Grammar used by Search: metas_, rules_, sectionIndex_ (src/grammar.h). *)
Record grammar := mkGrammar {
  g_metas : list metasection; g_rules : list rulesection; g_index : list (text * nat) }.

(** MetaSection::rule(index) / RuleSection::rule(index), src/metasection.cpp:17-21, src/rulesection.cpp:17-21. *)
Definition meta_rule_at (m : metasection) (i : nat) : outcome metarule :=
  match nth_error (ms_rules m) i with
  | Some r => Ok r
  | None => Throw (s2t "MetaSection-Range-Error")
  end.
Definition rule_rule_at (m : rulesection) (i : nat) : outcome rule :=
  match nth_error (rs_rules m) i with
  | Some r => Ok r
  | None => Throw (s2t "RuleSection-Range-Error")
  end.
