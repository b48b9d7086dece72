(** tools/convert-pagc-rules: rules of PAGC, numbers on lines, to a grammar file.

    Whole numbers only: a word is read by its sign and leading digits (Perl also knows fractions and exponents). A score of 16 or more digits, which
    Perl would round when it prints the quotient, is printed in full. *)
From Coq Require Import String List NArith ZArith Bool.
From Verif Require Import Base_model Grammar_model Tools_model.
Import ListNotations.
Local Open Scope N_scope.

(** The tables of lines 11-18. *)
Definition pagc_in_names : list text := map s2t
  ["NUMBER"; "WORD"; "TYPE"; "QUALIF"; "BADTOKEN"; "TYPE"; "ROAD"; "STOPWORD"; "RR"; "DASH"; "CITY"; "PROV"; "NATION"; "AMPERS"; "BOXH"; "ORD"; "UNITH";
   "UNITT"; "SINGLE"; "BUILDH"; "MILE"; "DOUBLE"; "DIRECT"; "MIXED"; "BUILDT"; "FRACT"; "PCT"; "PCH"; "QUINT"; "QUAD"; "PUNCT"; "SPACE"; "PLACEN";
   "EMDASH"]%string.
Definition pagc_out_names : list text := map s2t
  ["BLDNG"; "HOUSE"; "PREDIR"; "QUALIF"; "PRETYP"; "STREET"; "SUFTYP"; "SUFDIR"; "RR"; "EXTRA"; "CITY"; "PROV"; "NATION"; "POSTAL"; "BOXH"; "BOXT";
   "UNITH"; "UNITT"]%string.
Definition pagc_sections : list text := map s2t ["MACRO"; "MICRO"; "ARC"; "HOUSE"; "BUILDING"]%string.

(** split(/\s+/), lines 47-49, with the empty word at the end if the text ends in white space. *)
Fixpoint perl_words (t : text) : list text :=
  match t with
  | [] => [[]]
  | c :: t' =>
      if perl_space c then match t' with d :: _ => if perl_space d then perl_words t' else [] :: perl_words t' | [] => [] :: perl_words t' end
      else match perl_words t' with p :: ps => (c :: p) :: ps | [] => [[c]] end
  end.
(** split(/\s+-1\s+/), line 42, on words: -1 separates if white space that no earlier separator has used stands before it, and white space behind it. *)
Definition MINUS_ONE : text := [45; 49].
Fixpoint groups (cur ws : list text) : list (list text) :=
  match ws with
  | [] => [cur]
  | w :: ws' =>
      if teqb w MINUS_ONE && match cur with [] => false | _ => true end && match ws' with [] => false | _ => true end then cur :: groups [] ws'
      else groups (cur ++ [w]) ws'
  end.
(** Trailing empty words and parts are dropped by split. *)
Definition pagc_parts (ws : list text) : list (list text) :=
  match rev (groups [] ws) with
  | g :: gs => match filter (fun w => match w with [] => false | _ => true end) g with [] => rev gs | g' => rev (g' :: gs) end
  | [] => []
  end.
(** \d on bytes. *)
Definition perl_digit (c : N) : bool := (48 <=? c) && (c <=? 57).
(** /^\d+\s+[-\d]+\s+/, line 41. *)
Definition all_chars (f : N -> bool) (w : text) : bool := match w with [] => false | _ => forallb f w end.
Definition rule_like (ws : list text) : bool :=
  match ws with
  | w0 :: w1 :: _ :: _ => all_chars perl_digit w0 && all_chars (fun c => perl_digit c || (c =? 45)) w1
  | _ => false
  end.
(** The number a word is read as. *)
Fixpoint leading (v : N) (w : text) : N := match w with c :: w' => if perl_digit c then leading (10 * v + (c - 48)) w' else v | [] => v end.
Definition perl_int (w : text) : Z := match w with c :: w' => if c =? 45 then (- Z.of_N (leading 0 w'))%Z else Z.of_N (leading 0 w) | [] => 0%Z end.
(** $table[$_], lines 58-59: a negative index counts from the end, an undefined element is joined as nothing. *)
Definition perl_at (tab : list text) (i : Z) : text :=
  if (i <? 0)%Z then (if (Z.of_nat (List.length tab) + i <? 0)%Z then [] else nth (Z.to_nat (Z.of_nat (List.length tab) + i)) tab [])
  else nth (Z.to_nat i) tab [].

(** A line, lines 40-60: the number of its section and the rule; None where it is skipped, with a warning or without. *)
Record pagc_rule := mkPagc { pg_ins : list text; pg_outs : list text; pg_score : Z }.
Definition convert_line (l : text) : option (Z * pagc_rule) :=
  let ws := perl_words l in
  if negb (rule_like ws) then None
  else match pagc_parts ws with
  | [ins; outs; rest] =>
      let ty := perl_int (nth 0 rest []) in
      if negb (Nat.eqb (List.length ins) (List.length outs)) then None
      else if (ty <? 0)%Z || (4 <? ty)%Z then None
      else Some (ty, mkPagc (map (fun w => perl_at pagc_in_names (perl_int w)) ins) (map (fun w => perl_at pagc_out_names (perl_int w)) outs)
                            (perl_int (nth 1 rest [])))
  | _ => None
  end.
(** $score/20.0 as it is printed, line 60. *)
Definition hundredths (v : N) : text :=
  if v =? 0 then [] else if v mod 10 =? 0 then [46; 48 + v / 10] else [46; 48 + v / 10; 48 + v mod 10].
Definition perl_twentieth (s : Z) : text :=
  (if (s <? 0)%Z then [45] else []) ++ dec_text (Z.abs_N s / 20) ++ hundredths (Z.abs_N s mod 20 * 5).
(** The sort of line 79; sort in Perl is a merge sort and keeps the order of equals. *)
Fixpoint longer_first (r : pagc_rule) (l : list pagc_rule) : list pagc_rule :=
  match l with
  | [] => [r]
  | x :: l' => if Nat.leb (List.length (pg_ins x)) (List.length (pg_ins r)) then r :: l else x :: longer_first r l'
  end.
Definition sort_rules (l : list pagc_rule) : list pagc_rule := fold_right longer_first [] l.
(** writelexicon, lines 66-86, and the main program, lines 28-34; the files given. *)
Definition rule_line (r : pagc_rule) : text :=
  join [SP] (pg_ins r) ++ s2t " -> " ++ join [SP] (pg_outs r) ++ s2t " -> " ++ perl_twentieth (pg_score r) ++ [LF].
Definition pagc_head : text :=
  s2t "[ADDRESS]" ++ [LF] ++ s2t "@MICRO @MACRO" ++ [LF] ++ s2t "@HOUSE @ARC @MACRO" ++ [LF] ++ s2t "@BUILDING @MICRO @MACRO" ++ [LF] ++
  s2t "@BUILDING @HOUSE @ARC @MACRO" ++ [LF] ++ [LF].
Definition of_section (k : Z) (rs : list (Z * pagc_rule)) : list pagc_rule :=
  flat_map (fun r => if (fst r =? k)%Z then [snd r] else []) rs.
Definition read_rules (fs : list text) : list (Z * pagc_rule) :=
  flat_map (fun t => flat_map (fun l => match convert_line l with Some r => [r] | None => [] end) (file_lines t)) fs.
Definition section_text (rs : list (Z * pagc_rule)) (k : nat) : text :=
  s2t "[" ++ nth k pagc_sections [] ++ s2t "]" ++ [LF] ++ flat_map rule_line (sort_rules (of_section (Z.of_nat k) rs)) ++ [LF].
Definition convert_rules (fs : list text) : text := pagc_head ++ flat_map (section_text (read_rules fs)) (seq 0 5).
