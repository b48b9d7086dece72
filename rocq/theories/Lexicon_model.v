(** src/lexentry.h, src/lexentry.cpp, src/lexicon.h, src/lexicon.cpp. *)
From Coq Require Import String List NArith Bool.
From Verif Require Import Base_model Class_model Uni_model Token_model Grammar_model Regex_model Trie_model
  Utf8_model Md5_model.
Import ListNotations.
Local Open Scope N_scope.

(** External functions: the character tables, Utils::normalizeUTF8 (ICU NFC, src/utils.cpp:81-106) and
    Utils::upperCaseUTF8 (src/utils.cpp:64-78; first argument: the locale).  Failure of the normalizer, on which the
    code continues with the text "ERROR", is not modelled separately: it is one of the functions [e_nfc] ranges over. *)
Record env := mkEnv { e_uni : uni; e_nfc : text -> text; e_upper : text -> text -> text }.

(** ** class LexEntry, src/lexentry.h:87-91. *)
Record lexentry := mkLE { le_word : text; le_std : text; le_type : inset; le_att : attset }.

Fixpoint list_eqb {A} (f : A -> A -> bool) (a b : list A) : bool :=
  match a, b with
  | [], [] => true
  | x :: a', y :: b' => f x y && list_eqb f a' b'
  | _, _ => false
  end.
(** operator==, src/lexentry.h:74-77. *)
Definition le_eqb (a b : lexentry) : bool :=
  teqb (le_word a) (le_word b) && teqb (le_std a) (le_std b)
  && list_eqb in_eqb (le_type a) (le_type b) && list_eqb att_eqb (le_att a) (le_att b).

(** isPrefixAttached, isSuffixAttached, src/lexentry.cpp:22-31. *)
Definition is_prefix_att (e : lexentry) : bool := aset_mem ATT_PRE (le_att e).
Definition is_suffix_att (e : lexentry) : bool := aset_mem ATT_SUF (le_att e).
(** isPrefix, isSuffix, src/lexentry.cpp:34-53. *)
Definition is_pre (e : lexentry) : bool := if aset_mem DET_PRE (le_att e) then true else aset_mem ATT_PRE (le_att e).
Definition is_suf (e : lexentry) : bool := if aset_mem DET_SUF (le_att e) then true else aset_mem ATT_SUF (le_att e).
(** isAttached, isDetached, src/lexentry.cpp:56-85: the empty set counts as detached. *)
Definition is_attached (e : lexentry) : bool :=
  match le_att e with
  | [] => false
  | _ => if aset_mem ATT_SUF (le_att e) then true else aset_mem ATT_PRE (le_att e)
  end.
Definition is_detached (e : lexentry) : bool :=
  match le_att e with
  | [] => true
  | _ => if aset_mem DET_SUF (le_att e) then true else aset_mem DET_PRE (le_att e)
  end.
(** isInClass, src/lexentry.cpp:88-91. *)
Definition le_in_class (e : lexentry) (c : intype) : bool := iset_mem c (le_type e).
(** set, src/lexentry.cpp:94-99 (the attachments are kept). *)
Definition le_set (e : lexentry) (w s : text) (c : intype) : lexentry := mkLE w s [c] (le_att e).
(** type(InClass::Type), src/lexentry.h:58: adds a class. *)
Definition le_add_type (e : lexentry) (c : intype) : lexentry := mkLE (le_word e) (le_std e) (iset_insert c (le_type e)) (le_att e).
(** Constructor from four strings, src/lexentry.cpp:108-113. *)
Definition lexentry_of_fields (w s ty att : text) : lexentry := mkLE w s (as_type ty) (as_attach att).
(** Constructor from a line, src/lexentry.cpp:116-137. *)
Definition lexentry_of_line (line : text) : lexentry :=
  let s0 := open_stream line in
  let (s1, w0) := getline TAB s0 [] in
  let (s2, w) := if teqb w0 (s2t "LEXENTRY:") then getline TAB s1 w0 else (s1, w0) in
  let (s3, std) := getline TAB s2 [] in
  let (s4, ty) := getline TAB s3 [] in
  let (_, att) := getline TAB s4 [] in
  mkLE w std (as_type ty) (as_attach att).
(** operator<<, src/lexentry.cpp:139-151. *)
Definition lexentry_str (e : lexentry) : text :=
  s2t "LEXENTRY:" ++ [TAB] ++ le_word e ++ [TAB] ++ le_std e ++ [TAB] ++ iset_str (le_type e) ++ [TAB] ++ aset_str (le_att e).

(** ** class Lexicon, src/lexicon.h:117-125; [lex_] is a std::map: a list of keys in increasing order. *)
Record lexicon := mkLex {
  x_name : text; x_lang : lang; x_locale : text; x_lex : list (text * list lexentry);
  x_regex : text; x_pre : text; x_suf : text; x_md5 : text }.
(** Lexicon::Lexicon(name), src/lexicon.cpp:28-39. *)
Definition new_lexicon (name : text) : lexicon := mkLex name L_UNKNOWN [] [] [] [] [] [].

(** std::map::find and operator[]. *)
Fixpoint map_get {A} (k : text) (l : list (text * A)) : option A :=
  match l with
  | [] => None
  | (k', v) :: l' => if teqb k k' then Some v else map_get k l'
  end.
Fixpoint map_put {A} (k : text) (v : A) (l : list (text * A)) : list (text * A) :=
  match l with
  | [] => [(k, v)]
  | (k', v') :: l' => if tltb k k' then (k, v) :: l
                      else if tltb k' k then (k', v') :: map_put k v l'
                      else (k', v) :: l'
  end.
Fixpoint map_del {A} (k : text) (l : list (text * A)) : list (text * A) :=
  match l with
  | [] => []
  | (k', v) :: l' => if teqb k k' then l' else (k', v) :: map_del k l'
  end.

(** Lexicon::find, src/lexicon.cpp:151-160. *)
Definition lex_find (x : lexicon) (key : text) : list lexentry :=
  match map_get key (x_lex x) with Some l => l | None => [] end.

Definition set_lex (x : lexicon) (l : list (text * list lexentry)) : lexicon :=
  mkLex (x_name x) (x_lang x) (x_locale x) l [] [] [] (x_md5 x).
(** Lexicon::insert, src/lexicon.cpp:313-338. *)
Definition lex_insert (x : lexicon) (e : lexentry) : lexicon :=
  let entries := lex_find x (le_word e) in
  if existsb (fun y => le_eqb y e) entries then x
  else set_lex x (map_put (le_word e) (entries ++ [e]) (x_lex x)).
(** Lexicon::remove, src/lexicon.cpp:341-374. *)
Fixpoint erase_first (e : lexentry) (l : list lexentry) : list lexentry :=
  match l with
  | [] => []
  | y :: l' => if le_eqb y e then l' else y :: erase_first e l'
  end.
Definition lex_remove (x : lexicon) (e : lexentry) : lexicon :=
  match lex_find x (le_word e) with
  | [] => x
  | entries =>
      set_lex x (if existsb (fun y => le_eqb y e) entries then
                   match erase_first e entries with
                   | [] => map_del (le_word e) (x_lex x)
                   | l => map_put (le_word e) l (x_lex x)
                   end
                 else x_lex x)
  end.

(** Lexicon::regex, regexPrefixAtt, regexSuffixAtt, src/lexicon.cpp:382-392, 418-427, 459-469 (USE_TRIE is defined).
    An empty cached string is regenerated. *)
Definition att_words (p : lexentry -> bool) (l : list (text * list lexentry)) : list text :=
  flat_map (fun kv => map (fun _ => fst kv) (filter p (snd kv))) l.
Definition make_regex (l : list (text * list lexentry)) : text := get_regexp (trie_of (map fst l)) ++ s2t "|".
Definition make_pre (l : list (text * list lexentry)) : text :=
  s2t "^" ++ get_regexp (trie_of (att_words is_prefix_att l)) ++ s2t "\B".
Definition make_suf (l : list (text * list lexentry)) : text := get_regexp (trie_of (att_words is_suffix_att l)).
Definition lex_regex (x : lexicon) : text * lexicon :=
  match x_regex x with
  | [] => let r := make_regex (x_lex x) in
          (r, mkLex (x_name x) (x_lang x) (x_locale x) (x_lex x) r (x_pre x) (x_suf x) (x_md5 x))
  | r => (r, x)
  end.
Definition lex_pre (x : lexicon) : text * lexicon :=
  match x_pre x with
  | [] => let r := make_pre (x_lex x) in
          (r, mkLex (x_name x) (x_lang x) (x_locale x) (x_lex x) (x_regex x) r (x_suf x) (x_md5 x))
  | r => (r, x)
  end.
Definition lex_suf (x : lexicon) : text * lexicon :=
  match x_suf x with
  | [] => let r := make_suf (x_lex x) in
          (r, mkLex (x_name x) (x_lang x) (x_locale x) (x_lex x) (x_regex x) (x_pre x) r (x_md5 x))
  | r => (r, x)
  end.

(** ** Lexicon::initialize, src/lexicon.cpp:67-146. *)
(** u32regex_replace(line, "( +)", " "), src/lexicon.cpp:122-124. *)
Fixpoint squeeze (t : text) : text :=
  match t with
  | [] => []
  | c :: t' => match t' with
               | d :: _ => if (c =? SP) && (d =? SP) then squeeze t' else c :: squeeze t'
               | [] => [c]
               end
  end.
(** std::string::substr(0, n) == w and std::string::compare(0, n, w) == 0 for ASCII w of n bytes. *)
Definition has_prefix (w t : text) : bool := match starts_with w t with Some _ => true | None => false end.

(** Removal of the byte order mark, lines 76-77: [substr(4)] throws when the line is only the mark, and cuts a
    following longer character, whose remaining bytes are written here as one number that is no code point (the line
    is then only compared with ASCII prefixes). *)
Definition lex_strip_bom (line : text) : outcome text :=
  match line with
  | c :: t =>
      if c =? BOM then
        match t with
        | [] => Throw (s2t "basic_string::substr")
        | d :: t' => if Nat.eqb (utf8_len d) 1 then Ok t' else Ok (0x110000 :: t')
        end
      else Ok line
  | [] => Ok line
  end.

(** Lines 81-91: skipping to the header.  Result: stream, header line, text read so far, line count.
    [fuel]: every getline either fails or removes a line. *)
Fixpoint skip_header (fuel : nat) (is : stream) (line acc : text) (cnt : N) : outcome (stream * text * text * N) :=
  match fuel with
  | O => UB
  | S f =>
      if s_fail is then Throw (s2t "Lexicon-Invalid-File-Format")
      else if has_prefix (s2t "LEXICON:") line then Ok (is, line, acc, cnt)
      else if has_prefix (s2t "LEXENTRY:") line then Throw (s2t "Lexicon-LexEntry-Before-Lexicon")
      else let (is', line') := getline LF is line in skip_header f is' line' (acc ++ line') (cnt + 1)
  end.

Definition bad_entry (cnt : N) (line : text) : text :=
  s2t "Lexicon-Invalid-LexEntry: " ++ dec_text cnt ++ s2t ": " ++ line.
(** Lines 114-143: one line of the body; the result also gives the contents of [line] afterwards. *)
Definition entry_line (e : env) (locale : text) (cnt : N) (raw : text) : outcome (option lexentry * text) :=
  let line := squeeze raw in
  match line with
  | [] => Ok (None, [])
  | _ =>
      if has_prefix (s2t "LEXENTRY:") line || has_prefix (s2t "LexEntry:") line then
        let n := e_nfc e line in
        let n' := match locale with [] => n | _ => e_upper e locale n end in
        let le := lexentry_of_line n' in
        if le_in_class le I_BADTOKEN then Throw (bad_entry cnt n') else Ok (Some le, n')
      else Throw (bad_entry cnt line)
  end.
(** The loop: when the text does not end in a newline, the last getline fails, leaves [line] as it was (squeezed,
    normalized) and it is processed, and appended to the digested text, once more. *)
Fixpoint read_entries (fuel : nat) (e : env) (is : stream) (line acc : text) (cnt : N) (x : lexicon) : outcome (text * lexicon) :=
  match fuel with
  | O => UB
  | S f =>
      if s_fail is then Ok (acc, x)
      else let (is', raw) := getline LF is line in
           obind (entry_line e (x_locale x) (cnt + 1) raw) (fun r =>
             read_entries f e is' (snd r) (acc ++ raw) (cnt + 1)
               (match fst r with Some le => lex_insert x le | None => x end))
  end.

(** Lines 96-108: the header fields; a failing getline leaves [term] (the previous field) unchanged. *)
Definition header_fields (line : text) : text * text * text :=
  let s0 := open_stream line in
  let (s1, t1) := getline TAB s0 [] in
  let (s2, t2) := getline TAB s1 t1 in
  let (s3, t3) := getline TAB s2 t2 in
  let (_, loc) := getline TAB s3 [] in
  (t1, t3, loc).
Definition bytes_of (t : text) : list N := match encode t with Ok b => b | _ => [] end.

(** [name]: given to the constructor ("unknown" for the one taking a char pointer, src/lexicon.cpp:49-54). *)
Definition load_lexicon (e : env) (name src : text) : outcome lexicon :=
  let (is, raw) := getline LF (open_stream src) [] in
  obind (lex_strip_bom raw) (fun line =>
  obind (skip_header (List.length src + 3) is line raw 1) (fun h =>
    let '(is', hline, acc, cnt) := h in
    let '(t1, t3, loc) := header_fields hline in
    if teqb t1 (s2t "LEXICON:") || teqb t1 (s2t "Lexicon:") then
      let x := mkLex name (as_lang t3) loc [] [] [] [] [] in
      obind (read_entries (List.length src + 3) e is' hline acc (cnt + 1) x) (fun r =>
        let y := snd r in
        Ok (mkLex (x_name y) (x_lang y) (x_locale y) (x_lex y) (x_regex y) (x_pre y) (x_suf y) (md5_hex (bytes_of (fst r)))))
    else Throw (s2t "Lexicon-Invalid-Data-Format: " ++ dec_text (cnt + 1) ++ s2t ": " ++ hline))).

(** operator<<, src/lexicon.cpp:165-178. *)
Definition lexicon_str (x : lexicon) : text :=
  s2t "LEXICON:" ++ [TAB] ++ x_name x ++ [TAB] ++ s2t (lang_code (x_lang x)) ++ [TAB] ++ x_locale x ++ [TAB]
  ++ dec_text (N.of_nat (List.length (x_lex x))) ++ [LF]
  ++ concat (map (fun kv => concat (map (fun le => lexentry_str le ++ [LF]) (snd kv))) (x_lex x)).

(** Lexicon::standardize, src/lexicon.cpp:181-198: taking the first element of an empty class set is undefined. *)
Definition standardize_word (x : lexicon) (k : token) : outcome token :=
  obind (match lex_find x (t_text k), t_in k with
         | [], _ => Ok k
         | _, [] => UB
         | entries, c :: _ =>
             match find (fun le => le_in_class le c) entries with
             | Some le => Ok (set_std k (le_std le))
             | None => Ok k
             end
         end)
        (fun k' => Ok (match t_std k' with [] => set_std k' (t_text k') | _ => k' end)).

(** ** Lexicon::classify, src/lexicon.cpp:201-308. *)
(** u32regex_match with a constant pattern (all of them parse). *)
Definition rmatch (u : uni) (ic : bool) (pat : string) (t : text) : bool :=
  match u32regex_match u ic (s2t pat) t with Ok b => b | _ => false end.
Definition EMDASH : N := 0x2014.
(** The first comma becomes a full stop, lines 240-244. *)
Fixpoint comma_to_dot (t : text) : text :=
  match t with
  | [] => []
  | c :: t' => if c =? 44 then 46 :: t' else c :: comma_to_dot t'
  end.
(** The classes from the shape of the text, lines 225-304. *)
Definition shape_classes (u : uni) (t : text) : list intype :=
  if rmatch u false "^\d+[,\.]\d+$" t then [I_NUMBER]
  else if rmatch u false "^\d+$" t then
    I_NUMBER :: (if Nat.eqb (blen t) 4 then [I_QUAD] else []) ++ (if Nat.eqb (blen t) 5 then [I_QUINT] else [])
  else if teqb t (s2t "@") then [I_ATSIGN]
  else if teqb t (s2t "/") then [I_SLASH]
  else if rmatch u false "^\d+/\d+$" t then [I_FRACT]
  else if rmatch u true "^[A-Z]{1,2}\d{1,2}[A-Z]{0,1}$" t then [I_MIXED; I_PCH]
  else if rmatch u true "^(\d[A-Z]\d|\d[A-Z]{2})$" t then [I_MIXED; I_PCT]
  else if rmatch u false "^\w+$" t then
    (if rmatch u false "^.*\d.*$" t then [I_MIXED]
     else (if Nat.eqb (blen t) 2 then [I_DOUBLE] else if Nat.eqb (blen t) 1 then [I_SINGLE] else []) ++ [I_WORD])
  else if teqb t [EMDASH] then [I_EMDASH]
  else if rmatch u false "^[-]+$" t then [I_DASH]
  else if teqb t (s2t "&") then [I_AMPERS]
  else if rmatch u false "^\s+$" t then [I_SPACE]
  else if rmatch u false "^[\|[:punct:]]+$" t then [I_PUNCT]
  else [].
Definition add_all (s : inset) (l : list intype) : inset := fold_left (fun a c => iset_insert c a) l s.
Definition classify (u : uni) (x : lexicon) (k : token) (typ : intype) : token :=
  let t := t_text k in
  let k1 := set_in k (fold_left (fun s le => add_all s (le_type le)) (lex_find x t) (t_in k)) in
  match t_in k1 with
  | _ :: _ => set_inlex k1 true
  | [] =>
      let k2 := set_inlex k1 false in
      let cls := shape_classes u t in
      let k3 := set_in k2 (add_all [] (match cls with [] => [typ] | _ => cls end)) in
      if rmatch u false "^\d+[,\.]\d+$" t then set_text k3 (comma_to_dot t) else k3
  end.
