(** src/grammar.h, src/grammar.cpp, src/metarule.cpp, printing of src/metasection.cpp and src/rulesection.cpp. *)
From Coq Require Import String List NArith ZArith Bool.
From Verif Require Import Base_model Class_model Float_model Uni_model Rule_model Search_model.
Import ListNotations.
Local Open Scope N_scope.

Definition BOM : N := 0xFEFF.
Definition HASH : N := 35.
Definition LBRACK : N := 91.
Definition RBRACK : N := 93.
Definition AT : N := 64.
Definition UNDERSCORE : N := 95.

Fixpoint drop_while (p : N -> bool) (t : text) : text :=
  match t with
  | c :: t' => if p c then drop_while p t' else t
  | [] => []
  end.
Fixpoint span (p : N -> bool) (t : text) : text * text :=
  match t with
  | c :: t' => if p c then let (a, r) := span p t' in (c :: a, r) else ([], t)
  | [] => ([], [])
  end.
(** [line.find(c) != npos] *)
Definition has_char (c : N) (t : text) : bool := existsb (N.eqb c) t.
(** [\w_] *)
Definition name_char (u : uni) (c : N) : bool := u_word u c || (c =? UNDERSCORE).

(** u32regex_match with "^\s*#.*|^\s*$", src/grammar.cpp:52,75 ([.] matches every character). *)
Definition is_comment (u : uni) (line : text) : bool :=
  match drop_while (u_space u) line with
  | [] => true
  | c :: _ => c =? HASH
  end.

(** u32regex_match with "^\s*\[(.+)\]\s*$", src/grammar.cpp:53,78: what[1] if it matches.  The bracket that
    closes the name is the last character that is not white space ([.+] is greedy, "]" is not white space). *)
Definition section_header (u : uni) (line : text) : option text :=
  match drop_while (u_space u) line with
  | c :: t =>
      if c =? LBRACK then
        match drop_while (u_space u) (rev t) with
        | d :: r => if d =? RBRACK then match r with [] => None | _ => Some (rev r) end else None
        | [] => None
        end
      else None
  | [] => None
  end.

(** u32regex_match with "^(?:\s*@(?:[\w_])+)+\s*$", src/grammar.cpp:54,122.  "@", white space and name
    characters exclude each other, so the match can be read off from left to right.  [fuel]: one unit
    per reference is enough, each consumes a character. *)
Fixpoint meta_rest (fuel : nat) (u : uni) (t : text) : bool :=
  match fuel with
  | O => false
  | S f =>
      match drop_while (u_space u) t with
      | [] => true
      | c :: t' => if c =? AT then
                     match span (name_char u) t' with
                     | ([], _) => false
                     | (_ :: _, r) => meta_rest f u r
                     end
                   else false
      end
  end.
Definition is_meta (u : uni) (line : text) : bool :=
  match drop_while (u_space u) line with
  | [] => false
  | _ => meta_rest (S (List.length line)) u line
  end.

(** MetaRule::MetaRule, src/metarule.cpp:19-35: repeated search for "@([\w_]+)".  [fuel] as above. *)
Fixpoint meta_refs (fuel : nat) (u : uni) (t : text) : list sref :=
  match fuel with
  | O => []
  | S f =>
      match drop_while (fun c => negb (c =? AT)) t with
      | [] => []
      | _ :: t' => match span (name_char u) t' with
                   | ([], _) => meta_refs f u t'
                   | (n, r) => new_ref n :: meta_refs f u r
                   end
      end
  end.
Definition meta_rule_of (u : uni) (line : text) : metarule := meta_refs (S (List.length line)) u line.

(** enum RuleType, src/grammar.h:77-81. *)
Inductive ruletype := ISMETA | ISRULE | UNKNWN.

(** Locals of Grammar::initialize and the members it fills. *)
Record loadst := mkLoad {
  l_sec : text; l_type : ruletype; l_mrules : list metarule; l_rules : list rule;
  l_metas : list metasection; l_rsecs : list rulesection; l_index : list (text * nat) }.
Definition load0 : loadst := mkLoad [] UNKNWN [] [] [] [] [].

(** Saving the current section, src/grammar.cpp:83-100 and 141-152 ([sectionIndex_[name] = i] shadows earlier
    bindings; the type is left to the caller). *)
Definition flush (s : loadst) : loadst :=
  match l_type s with
  | ISMETA => mkLoad (l_sec s) UNKNWN [] [] (l_metas s ++ [mkMeta (l_sec s) (l_mrules s)]) (l_rsecs s)
                     ((l_sec s, List.length (l_metas s)) :: l_index s)
  | ISRULE => mkLoad (l_sec s) UNKNWN [] [] (l_metas s) (l_rsecs s ++ [mkRules (l_sec s) (l_rules s)])
                     ((l_sec s, List.length (l_rsecs s)) :: l_index s)
  | UNKNWN => s
  end.

(** The body of the reading loop, src/grammar.cpp:74-137. *)
Definition load_line (u : uni) (atof : text -> flt) (s : loadst) (line : text) : outcome loadst :=
  if is_comment u line then Ok s
  else match section_header u line with
       | Some name =>
           match l_type s, l_sec s with
           | ISMETA, [] | ISRULE, [] => Throw (s2t "Grammar-Empty-Section-Defined")
           | _, _ =>
               let s' := flush s in
               match index_find (l_index s') name with
               | Some _ => Throw (s2t "Grammar-Duplicate-Section_Name")
               | None => Ok (mkLoad name (l_type s') (l_mrules s') (l_rules s') (l_metas s') (l_rsecs s') (l_index s'))
               end
           end
       | None =>
           match l_sec s with
           | [] => Throw (s2t "Grammar-Syntax-Error")
           | _ :: _ =>
               if has_char AT line then
                 match l_type s with
                 | ISRULE => Throw (s2t "Grammar-Mixing-Rules-and-Metas")
                 | _ => Ok (mkLoad (l_sec s) ISMETA
                              (if is_meta u line then l_mrules s ++ [meta_rule_of u line] else l_mrules s)
                              (l_rules s) (l_metas s) (l_rsecs s) (l_index s))
                 end
               else
                 match l_type s with
                 | ISMETA => Throw (s2t "Grammar-Mixing-Rules-and-Metas")
                 | _ => obind (rule_parse atof line) (fun r =>
                          Ok (mkLoad (l_sec s) ISRULE (l_mrules s) (l_rules s ++ [r])
                                     (l_metas s) (l_rsecs s) (l_index s)))
                 end
           end
       end.

(** Removal of a byte order mark, src/grammar.cpp:71-72: [substr(4)] removes the three bytes of the mark and one
    more; it throws when there is no further byte, and cutting inside a character leaves
    ill-formed UTF-8 on which the regex iterator throws. *)
Definition strip_bom (line : text) : outcome text :=
  match line with
  | c :: t =>
      if c =? BOM then
        match t with
        | [] => Throw (s2t "basic_string::substr")
        | d :: t' => if Nat.eqb (utf8_len d) 1 then Ok t'
                     else Throw (s2t "Invalid UTF-8 sequence")
        end
      else Ok line
  | [] => Ok line
  end.

(** [while (is) { ++line_cnt; getline(is, line); ... }], src/grammar.cpp:64-138: when the text does not end in a
    newline, the last getline fails without touching [line], which is processed once more. *)
Fixpoint load_loop (fuel : nat) (u : uni) (atof : text -> flt) (first : bool) (is : stream) (line : text)
  (s : loadst) : outcome loadst :=
  match fuel with
  | O => UB
  | S f =>
      if s_fail is then Ok s
      else let (is', raw) := getline LF is line in
           obind (if first then strip_bom raw else Ok raw) (fun line' =>
           obind (load_line u atof s line') (fun s' => load_loop f u atof false is' line' s'))
  end.

(** Grammar::initialize up to line 157 (sections as read, pointers not yet set). *)
Definition load_sections (u : uni) (atof : text -> flt) (src : text) : outcome loadst :=
  obind (load_loop (List.length src + 3) u atof true (open_stream src) [] load0)
        (fun s => match l_sec s with [] => Ok s | _ => Ok (flush s) end).

(** enum Status, src/grammar.h:55-59. *)
Inductive gstatus := CHECK_FATAL | CHECK_OK | CHECK_WARN.

(** Setting one reference, src/grammar.cpp:184-222. *)
Definition link_ref (metas : list metasection) (rules : list rulesection) (ix : list (text * nat))
  (self : nat) (selfname : text) (r : sref) : outcome (sref * text) :=
  let w := f_name r in
  if teqb w selfname then Ok (mkRef w (Some self) (f_rule r), [])
  else match index_find ix w with
       | Some i =>
           let is_m := match nth_error metas i with Some ms => teqb (ms_name ms) w | None => false end in
           let is_r := match nth_error rules i with Some rs => teqb (rs_name rs) w | None => false end in
           if is_m then Ok (mkRef w (Some i) (f_rule r), [])
           else if is_r then Ok (mkRef w (f_meta r) (Some i), [])
           else Throw (s2t "Grammar-updatePointers-consistency-check-failed")
       | None => Ok (r, s2t "Missing rule: " ++ w ++ s2t " : referenced at [" ++ selfname ++ s2t "]" ++ [LF])
       end.

(** Loops collecting the updated elements and the issues text. *)
Fixpoint link_all {A} (f : A -> outcome (A * text)) (l : list A) : outcome (list A * text) :=
  match l with
  | [] => Ok ([], [])
  | x :: l' => obind (f x) (fun '(y, t) =>
               obind (link_all f l') (fun '(ys, ts) => Ok (y :: ys, t ++ ts)))
  end.
Definition link_rule metas rules ix self selfname (r : metarule) : outcome (metarule * text) :=
  link_all (link_ref metas rules ix self selfname) r.
Definition link_section metas rules ix self (m : metasection) : outcome (metasection * text) :=
  obind (link_all (link_rule metas rules ix self (ms_name m)) (ms_rules m))
        (fun '(rs, t) => Ok (mkMeta (ms_name m) rs, t)).
Fixpoint link_metas metas rules ix (self : nat) (l : list metasection) : outcome (list metasection * text) :=
  match l with
  | [] => Ok ([], [])
  | m :: l' => obind (link_section metas rules ix self m) (fun '(m', t) =>
               obind (link_metas metas rules ix (S self) l') (fun '(ms, ts) => Ok (m' :: ms, t ++ ts)))
  end.

(** [references_]: the names of all references. *)
Definition all_refs (metas : list metasection) : list text :=
  concat (map (fun m => concat (map (map f_name) (ms_rules m))) metas).
Definition text_mem (w : text) (l : list text) : bool := existsb (teqb w) l.

(** std::to_string of a positive int. *)
Fixpoint dec_digits (fuel : nat) (n : N) : text :=
  match fuel with
  | O => []
  | S f => (if n <? 10 then [] else dec_digits f (n / 10)) ++ [48 + n mod 10]
  end.
Definition dec_text (n : N) : text := dec_digits (S (N.to_nat (N.log2 n))) n.

Definition unref_issue (refs : list text) (name : text) : text :=
  if negb (text_mem name refs) && negb (teqb name ADDRESS)
  then s2t "Rule '" ++ name ++ s2t "' defined by not referenced!" ++ [LF] else [].
(** src/grammar.cpp:269-277; [checked_] skips a second section of the same name. *)
Fixpoint invalid_issues (name : text) (pos : N) (rs : list rule) : text :=
  match rs with
  | [] => []
  | r :: rs' => (if rule_valid r then [] else
                   s2t "Invalid rule at [" ++ name ++ s2t "][" ++ dec_text pos ++ s2t "]" ++ [LF])
                ++ invalid_issues name (pos + 1) rs'
  end.
Fixpoint rule_issues (refs checked : list text) (l : list rulesection) : text * text :=   (* all issues, fatal ones *)
  match l with
  | [] => ([], [])
  | e :: l' =>
      let inv := if text_mem (rs_name e) checked then [] else invalid_issues (rs_name e) 1 (rs_rules e) in
      let (a, b) := rule_issues refs (rs_name e :: checked) l' in
      (unref_issue refs (rs_name e) ++ inv ++ a, inv ++ b)
  end.
Definition nonempty (t : text) : bool := match t with [] => false | _ => true end.

(** Grammar::updatePointers, src/grammar.cpp:171-285. *)
Definition update_pointers (g : grammar) : outcome (grammar * gstatus * text) :=
  obind (link_metas (g_metas g) (g_rules g) (g_index g) 0 (g_metas g)) (fun '(metas, missing) =>
    let refs := all_refs (g_metas g) in
    let noaddr := match index_find (g_index g) ADDRESS with
                  | Some _ => []
                  | None => s2t "Rule 'ADDRESS' is not defined!" ++ [LF]
                  end in
    let munref := concat (map (fun e => unref_issue refs (ms_name e)) metas) in
    let (rissues, rfatal) := rule_issues refs [] (g_rules g) in
    let status :=
      if nonempty missing || nonempty noaddr || nonempty rfatal then CHECK_FATAL
      else if nonempty munref || nonempty rissues then CHECK_WARN else CHECK_OK in
    Ok (mkGrammar metas (g_rules g) (g_index g), status, missing ++ noaddr ++ munref ++ rissues)).

(** Grammar::Grammar / initialize, src/grammar.cpp:23-168 (without md5_). *)
Record loaded := mkLoaded { gl_grammar : grammar; gl_status : gstatus; gl_issues : text }.
Definition load_grammar (u : uni) (atof : text -> flt) (src : text) : outcome loaded :=
  obind (load_sections u atof src) (fun s =>
  obind (update_pointers (mkGrammar (l_metas s) (l_rsecs s) (l_index s))) (fun '(g, st, issues) =>
    match st with
    | CHECK_FATAL => Throw issues
    | _ => Ok (mkLoaded g st issues)
    end)).

(** operator<< : src/metarule.cpp:39-49, src/metasection.cpp:24-29, src/rulesection.cpp:24-29, src/grammar.cpp:289-298. *)
Definition metarule_str (r : metarule) : text := join [SP] (map (fun x => AT :: f_name x) r).
Definition metasection_str (m : metasection) : text :=
  [LBRACK] ++ ms_name m ++ [RBRACK; LF] ++ concat (map (fun r => metarule_str r ++ [LF]) (ms_rules m)).
Definition rulesection_str (fprint : flt -> text) (m : rulesection) : text :=
  [LBRACK] ++ rs_name m ++ [RBRACK; LF] ++ concat (map (fun r => rule_str fprint r ++ [LF]) (rs_rules m)).
Definition grammar_str (fprint : flt -> text) (g : grammar) : text :=
  concat (map (fun m => metasection_str m ++ [LF]) (g_metas g))
  ++ concat (map (fun m => rulesection_str fprint m ++ [LF]) (g_rules g)).
