(** src/tokenizer.h, src/tokenizer.cpp. *)
From Coq Require Import String List NArith Bool.
From Verif Require Import Base_model Class_model Uni_model Token_model Regex_model Lexicon_model.
Import ListNotations.
Local Open Scope N_scope.

(** class Tokenizer, src/tokenizer.h:24-50: the lexicon and the filter set.  The pattern calls fill caches of the
    lexicon; that is not recorded, as later calls would compute the same text (C28). *)
Record tokenizer := mkTz { z_lex : lexicon; z_filter : inset }.
(** addFilter, clearFilter, filter(set), src/tokenizer.h:36-40; removeFilter, src/tokenizer.cpp:22-26. *)
Definition set_filter (z : tokenizer) (s : inset) : tokenizer := mkTz (z_lex z) s.
Definition add_filter (z : tokenizer) (c : intype) : tokenizer := set_filter z (iset_insert c (z_filter z)).
Definition remove_filter (z : tokenizer) (c : intype) : tokenizer :=
  set_filter z (filter (fun d => negb (in_eqb d c)) (z_filter z)).
Definition clear_filter (z : tokenizer) : tokenizer := set_filter z [].

(** boost::split(words, str, is_any_of(" "), token_compress_on): blanks at the ends give empty words. *)
Fixpoint split_blanks (t : text) : list text :=
  match t with
  | [] => [[]]
  | c :: t' =>
      if c =? SP then
        match t' with
        | d :: _ => if d =? SP then split_blanks t' else [] :: split_blanks t'
        | [] => [] :: split_blanks t'
        end
      else match split_blanks t' with
           | w :: ws => (c :: w) :: ws
           | [] => [[c]]
           end
  end.

(** boost::u32regex_replace(str, re, "$1 $2"): every match, from left to right; the two patterns below never match the
    empty text.  [fuel]: every match removes a character. *)
Fixpoint replace_from (fuel : nat) (u : uni) (r : re) (prev : option N) (t : text) : text :=
  match fuel with
  | O => t
  | S f => match search_from u false r prev t with
           | None => t
           | Some (a, s) => a ++ cap 1 s ++ [SP] ++ cap 2 s ++ replace_from f u r (m_prev s) (m_rest s)
           end
  end.
Definition rreplace (u : uni) (pat : string) (t : text) : text :=
  match parse_re (s2t pat) with Some r => replace_from (S (List.length t)) u r None t | None => t end.

(** A token made from a part of another one and classified, src/tokenizer.cpp:59-61 and so on. *)
Definition part_token (u : uni) (x : lexicon) (w : text) : token := classify u x (token_of_text w) I_WORD.

(** Digits and letters mixed, src/tokenizer.cpp:46-65. *)
Definition mixed_words (u : uni) (t : text) : list text :=
  split_blanks (rreplace u "\<([[:alpha:]\p{L}])(\d+)\>" (rreplace u "^(\d+)([[:alpha:]\p{L}])$" t)).
(** u32regex_match with two groups, src/tokenizer.cpp:77-94, 96-113: the groups, empty if there is no match.
    The length test (> 6) holds whenever the pattern of the lexicon is not empty, and it never is.  The exception for too complex a match is not modelled. *)
Definition two_groups (u : uni) (pat t : text) : outcome (text * text) :=
  match parse_re pat with
  | None => Throw regex_error
  | Some r => Ok (match match_all u false r t with Some s => (cap 1 s, cap 2 s) | None => ([], []) end)
  end.
(** Tokenizer::splitToken, src/tokenizer.cpp:39-161.  [substr] works on bytes; [a] and [d] are whole characters
    at the ends of the text, so counting characters selects the same part. *)
Definition split_parts (u : uni) (x : lexicon) (k : token) : outcome (list text) :=
  let t := t_text k in
  if is_in_class k I_MIXED then Ok (mixed_words u t)
  else
    obind (two_groups u (s2t "(" ++ fst (lex_pre x) ++ s2t ")(.+)") t) (fun ab =>
    obind (two_groups u (s2t "(.+)(" ++ fst (lex_suf x) ++ s2t ")") t) (fun cd =>
      let '(a, b) := ab in let '(c, d) := cd in
      match a with
      | _ :: _ =>
          if Nat.eqb (blen d) 0 || Nat.eqb (blen b) (blen d) then Ok [a; b]
          else if Nat.ltb 0 (blen d) && Nat.ltb (blen a + blen d) (blen t) then
            Ok [a; firstn (List.length t - List.length a - List.length d) (skipn (List.length a) t); d]
          else if Nat.ltb 0 (blen d) && Nat.ltb (blen t) (blen a + blen d) then Ok [c; d]
          else Ok []
      | [] => match d with [] => Ok [] | _ => Ok [c; d] end
      end)).
Definition split_token (u : uni) (x : lexicon) (k : token) : outcome (list token) :=
  obind (split_parts u x k) (fun ws => Ok (map (part_token u x) ws)).

(** The pattern for tokens, src/tokenizer.cpp:203. *)
Definition token_pattern (lexre : text) : text :=
  s2t "^\s*(?!(?:" ++ [EMDASH] ++ s2t ")+)(" ++ lexre ++
  s2t "\d+[/,\.]\d+|\d+|\<[[:alpha:]]+\>|[\p{L}\p{Nd}]+|[[:alpha:]\d]+)([-&\s\|[:punct:]]+|" ++ [EMDASH] ++ s2t "|$)".

(** One round of the loop, src/tokenizer.cpp:217-254: text skipped by the search, what[0], what[1], what[2]. *)
Record piece := mkPiece { pc_skip : text; pc_all : text; pc_tok : text; pc_sep : text }.
(** Each search starts afresh at [start] (the flags are not passed on), so [^] matches there.  The loop ends when nothing
    matches or when it was at the end of the text.  [None]: the rounds given by [fuel] do not suffice (see C24). *)
Fixpoint scan (fuel : nat) (u : uni) (r : re) (t : text) : option (list piece) :=
  match fuel with
  | O => None
  | S f =>
      match regex_search u true r t with
      | None => Some []
      | Some (a, s) =>
          let n := (List.length t - List.length (m_rest s))%nat in
          let p := mkPiece a (skipn (List.length a) (firstn n t)) (cap 1 s) (cap 2 s) in
          match t with
          | [] => Some [p]
          | _ => option_map (cons p) (scan f u r (m_rest s))
          end
      end
  end.
(** Lines 219-243. *)
Definition word_tokens (u : uni) (x : lexicon) (w : text) : outcome (list token) :=
  match w with
  | [] => Ok []
  | _ => let k := classify u x (token_of_text w) I_WORD in
         if t_inlex k then Ok [k]
         else obind (split_token u x k) (fun ks => Ok (match ks with [] => [k] | _ => ks end))
  end.
Definition sep_tokens (u : uni) (x : lexicon) (w : text) : list token :=
  match w with
  | [] => []
  | _ => [classify u x (trim_token (token_of_text w)) I_PUNCT]
  end.
Fixpoint piece_tokens (u : uni) (x : lexicon) (ps : list piece) : outcome (list token) :=
  match ps with
  | [] => Ok []
  | p :: ps' => obind (word_tokens u x (pc_tok p)) (fun ks =>
                obind (piece_tokens u x ps') (fun rest => Ok (ks ++ sep_tokens u x (pc_sep p) ++ rest)))
  end.
(** Tokenizer::applyFilter, src/tokenizer.cpp:260-268. *)
Definition apply_filter (f : inset) (ks : list token) : list token := filter (fun k => negb (is_in_class_set k f)) ks.

(** Tokenizer::getTokens, src/tokenizer.cpp:164-257: the text searched, its pieces, the tokens before and after filtering. *)
Definition search_text (e : env) (x : lexicon) (str : text) : text := e_upper e (x_locale x) (e_nfc e str).
Definition get_pieces (e : env) (x : lexicon) (str : text) : outcome (list piece) :=
  match parse_re (token_pattern (fst (lex_regex x))) with
  | None => Throw regex_error
  | Some r => let t := search_text e x str in
              match scan (S (S (List.length t))) (e_uni e) r t with Some ps => Ok ps | None => UB end
  end.
Definition all_tokens (e : env) (x : lexicon) (str : text) : outcome (list token) :=
  obind (get_pieces e x str) (piece_tokens (e_uni e) x).
Definition get_tokens (e : env) (z : tokenizer) (str : text) : outcome (list token) :=
  obind (all_tokens e (z_lex z) str) (fun ks => Ok (apply_filter (z_filter z) ks)).

(** Tokenizer::getAltTokens, src/tokenizer.cpp:271-323. *)
Definition is_phrase (k : token) : bool := match split_blanks (t_text k) with [_] => false | _ => true end.
Definition phrases (ks : list token) : nat := List.length (filter is_phrase ks).
(** Lines 302-318: alternative number [i]; [n] counts the phrases before. *)
Fixpoint alt_one (u : uni) (x : lexicon) (i n : N) (ks : list token) : list token :=
  match ks with
  | [] => []
  | k :: ks' =>
      if is_phrase k then
        (if (i / 2 ^ n) mod 2 =? 0 then [k] else map (part_token u x) (split_blanks (t_text k))) ++ alt_one u x i (n + 1) ks'
      else k :: alt_one u x i n ks'
  end.
(** [1<<n] is an int: with more than 31 phrases the shift overflows (or the list cannot be reserved). *)
Definition get_alt_tokens (u : uni) (x : lexicon) (ks : list token) : outcome (list (list token)) :=
  match phrases ks with
  | O => Ok []
  | n => if Nat.ltb 31 n then UB
         else Ok (map (fun i => alt_one u x i 0 ks) (count_up (N.to_nat (2 ^ N.of_nat n - 1)) 1))
  end.
