(** Reading of grammars and lexicons with the regular expressions of the source: src/grammar.cpp:48-157, src/metarule.cpp:19-35,
    src/lexicon.cpp:113-143.  Grammar_model and Lexicon_model contain functions written by hand in their place. *)
From Coq Require Import String List NArith Bool.
From Verif Require Import Base_model Class_model Float_model Uni_model Rule_model Search_model Grammar_model Regex_model Md5_model Lexicon_model.
Import ListNotations.
Local Open Scope N_scope.

(** make_u32regex: the rest of the program gets the expression. *)
Definition with_regex {A} (pat : string) (k : re -> outcome A) : outcome A :=
  match parse_re (s2t pat) with Some r => k r | None => Throw regex_error end.

(** re_comment, re_section (with what[1]) and re_ismeta, src/grammar.cpp:52-54, 75, 78, 122. *)
Definition comment_re (u : uni) (line : text) : outcome bool := u32regex_match u false (s2t "^\s*#.*|^\s*$") line.
Definition section_re (u : uni) (line : text) : outcome (option text) :=
  with_regex "^\s*\[(.+)\]\s*$" (fun r => Ok (match match_all u false r line with Some s => Some (cap 1 s) | None => None end)).
Definition ismeta_re (u : uni) (line : text) : outcome bool := u32regex_match u false (s2t "^(?:\s*@(?:[\w_])+)+\s*$") line.

(** MetaRule::MetaRule, src/metarule.cpp:19-35: search, push what[1] if it is not empty, go on behind what[0].  [fuel]: every match
    takes a character. *)
Fixpoint meta_search (fuel : nat) (u : uni) (r : re) (t : text) : outcome metarule :=
  match fuel with
  | O => UB
  | S f =>
      match regex_search u false r t with
      | None => Ok []
      | Some (_, s) => obind (meta_search f u r (m_rest s)) (fun l => Ok (match cap 1 s with [] => l | n => new_ref n :: l end))
      end
  end.
Definition metarule_re (u : uni) (line : text) : outcome metarule :=
  with_regex "@([\w_]+)" (fun r => meta_search (S (List.length line)) u r line).

(** The body of the loop, src/grammar.cpp:74-137. *)
Definition load_line_re (u : uni) (atof : text -> flt) (s : loadst) (line : text) : outcome loadst :=
  obind (comment_re u line) (fun b =>
  if b then Ok s
  else obind (section_re u line) (fun h =>
       match h with
       | Some name =>
           match l_type s, l_sec s with
           | ISMETA, [] | ISRULE, [] => Throw (s2t "Grammar-Empty-Section-Defined")
           | _, _ =>
               let s' := flush s in
               match index_find (l_index s') name with
               | Some _ => Throw (s2t "Grammar-Duplicate-Section_Name")
               | None => Ok (mkLoad name (l_type s') (l_mrules s') (l_rules s') (l_metas s') (l_rsecs s') (l_index s'))
               end
           end
       | None =>
           match l_sec s with
           | [] => Throw (s2t "Grammar-Syntax-Error")
           | _ :: _ =>
               if has_char AT line then
                 match l_type s with
                 | ISRULE => Throw (s2t "Grammar-Mixing-Rules-and-Metas")
                 | _ => obind (ismeta_re u line) (fun m =>
                        obind (if m then obind (metarule_re u line) (fun r => Ok (l_mrules s ++ [r])) else Ok (l_mrules s)) (fun ms =>
                        Ok (mkLoad (l_sec s) ISMETA ms (l_rules s) (l_metas s) (l_rsecs s) (l_index s))))
                 end
               else
                 match l_type s with
                 | ISMETA => Throw (s2t "Grammar-Mixing-Rules-and-Metas")
                 | _ => obind (rule_parse atof line) (fun r =>
                          Ok (mkLoad (l_sec s) ISRULE (l_mrules s) (l_rules s ++ [r]) (l_metas s) (l_rsecs s) (l_index s)))
                 end
           end
       end)).
(** src/grammar.cpp:64-168, as in Grammar_model. *)
Fixpoint load_loop_re (fuel : nat) (u : uni) (atof : text -> flt) (first : bool) (is : stream) (line : text) (s : loadst) : outcome loadst :=
  match fuel with
  | O => UB
  | S f =>
      if s_fail is then Ok s
      else let (is', raw) := getline LF is line in
           obind (if first then strip_bom raw else Ok raw) (fun line' =>
           obind (load_line_re u atof s line') (fun s' => load_loop_re f u atof false is' line' s'))
  end.
Definition load_grammar_re (u : uni) (atof : text -> flt) (src : text) : outcome loaded :=
  obind (obind (load_loop_re (List.length src + 3) u atof true (open_stream src) [] load0)
               (fun s => match l_sec s with [] => Ok s | _ => Ok (flush s) end)) (fun s =>
  obind (update_pointers (mkGrammar (l_metas s) (l_rsecs s) (l_index s))) (fun '(g, st, issues) =>
    match st with
    | CHECK_FATAL => Throw issues
    | _ => Ok (mkLoaded g st issues)
    end)).

(** u32regex_replace with a replacement without "$", src/lexicon.cpp:122-125.  [fuel]: every match takes a character. *)
Fixpoint replace_all (fuel : nat) (u : uni) (r : re) (by_ : text) (prev : option N) (t : text) : outcome text :=
  match fuel with
  | O => UB
  | S f =>
      match search_from u false r prev t with
      | None => Ok t
      | Some (a, s) => obind (replace_all f u r by_ (m_prev s) (m_rest s)) (fun t' => Ok (a ++ by_ ++ t'))
      end
  end.
Definition squeeze_re (u : uni) (line : text) : outcome text :=
  with_regex "( +)" (fun r => replace_all (S (List.length line)) u r [SP] None line).

(** src/lexicon.cpp:114-143, as in Lexicon_model. *)
Definition entry_line_re (e : env) (locale : text) (cnt : N) (raw : text) : outcome (option lexentry * text) :=
  obind (squeeze_re (e_uni e) raw) (fun line =>
  match line with
  | [] => Ok (None, [])
  | _ =>
      if has_prefix (s2t "LEXENTRY:") line || has_prefix (s2t "LexEntry:") line then
        let n := e_nfc e line in
        let n' := match locale with [] => n | _ => e_upper e locale n end in
        let le := lexentry_of_line n' in
        if le_in_class le I_BADTOKEN then Throw (bad_entry cnt n') else Ok (Some le, n')
      else Throw (bad_entry cnt line)
  end).
Fixpoint read_entries_re (fuel : nat) (e : env) (is : stream) (line acc : text) (cnt : N) (x : lexicon) : outcome (text * lexicon) :=
  match fuel with
  | O => UB
  | S f =>
      if s_fail is then Ok (acc, x)
      else let (is', raw) := getline LF is line in
           obind (entry_line_re e (x_locale x) (cnt + 1) raw) (fun r =>
             read_entries_re f e is' (snd r) (acc ++ raw) (cnt + 1) (match fst r with Some le => lex_insert x le | None => x end))
  end.
(** Lexicon::initialize, src/lexicon.cpp:67-146. *)
Definition load_lexicon_re (e : env) (name src : text) : outcome lexicon :=
  let (is, raw) := getline LF (open_stream src) [] in
  obind (lex_strip_bom raw) (fun line =>
  obind (skip_header (List.length src + 3) is line raw 1) (fun h =>
    let '(is', hline, acc, cnt) := h in
    let '(t1, t3, loc) := header_fields hline in
    if teqb t1 (s2t "LEXICON:") || teqb t1 (s2t "Lexicon:") then
      let x := mkLex name (as_lang t3) loc [] [] [] [] [] in
      obind (read_entries_re (List.length src + 3) e is' hline acc (cnt + 1) x) (fun r =>
        let y := snd r in
        Ok (mkLex (x_name y) (x_lang y) (x_locale y) (x_lex y) (x_regex y) (x_pre y) (x_suf y) (md5_hex (bytes_of (fst r)))))
    else Throw (s2t "Lexicon-Invalid-Data-Format: " ++ dec_text (cnt + 1) ++ s2t ": " ++ hline))).

(** emdash_exp, src/lexicon.cpp:228. *)
Definition emdash_re (u : uni) (t : text) : outcome bool := u32regex_match u false (94 :: EMDASH :: [36]) t.
