(** The constructors that take a file name or a text, and src/tester/compile-lexicon.cpp. *)
From Coq Require Import String List NArith Bool.
From Verif Require Import Base_model Class_model Uni_model Float_model Token_model Rule_model Grammar_model Md5_model Lexicon_model Archive_model CString_model.
Import ListNotations.
Local Open Scope N_scope.

(** What is found under a name: nothing that can be opened; something that opens and cannot be read, such as a directory; a
    text.  A text whose reading fails halfway is left out. *)
Inductive found := Missing | Unreadable | Contents (t : text).
Definition files := text -> found.
(** [ifs.open( file.c_str(), std::ifstream::in )], src/grammar.cpp:34-35, src/lexicon.cpp:60-61.  A stream that could not be
    opened has failbit set.  The first read of something unreadable sets badbit, which [while (is)] and the next read see as
    they see failbit and eofbit: as for an empty file. *)
Definition open_file (fs : files) (file : text) : stream :=
  match fs (c_str file) with
  | Missing => mkStream [] false true
  | Unreadable => open_stream []
  | Contents t => open_stream t
  end.
(** [std::istringstream iss( p )] with a char pointer, src/grammar.cpp:26, src/lexicon.cpp:52. *)
Definition open_chars (p : text) : stream := open_stream (c_str p).

(** Grammar::initialize, src/grammar.cpp:48-168, for a stream in any state. *)
Definition grammar_from (u : uni) (atof : text -> flt) (is : stream) : outcome loaded :=
  obind (obind (load_loop (List.length (s_rest is) + 3) u atof true is [] load0)
               (fun s => match l_sec s with [] => Ok s | _ => Ok (flush s) end)) (fun s =>
  obind (update_pointers (mkGrammar (l_metas s) (l_rsecs s) (l_index s))) (fun '(g, st, issues) =>
    match st with
    | CHECK_FATAL => Throw issues
    | _ => Ok (mkLoaded g st issues)
    end)).
(** The three constructors, src/grammar.cpp:23-45. *)
Definition grammar_of_chars (u : uni) (atof : text -> flt) (p : text) : outcome loaded := grammar_from u atof (open_chars p).
Definition grammar_of_file (u : uni) (atof : text -> flt) (fs : files) (file : text) : outcome loaded := grammar_from u atof (open_file fs file).
Definition grammar_of_stream (u : uni) (atof : text -> flt) (is : stream) : outcome loaded := grammar_from u atof is.
(** Which constructor [Grammar G( x )] calls, src/grammar.h:68-70: a literal or another char pointer is taken as the text of the
    grammar, a std::string as the name of a file. *)
Inductive garg := CharPointer (p : text) | StdString (s : text).
Definition new_grammar (u : uni) (atof : text -> flt) (fs : files) (x : garg) : outcome loaded :=
  match x with CharPointer p => grammar_of_chars u atof p | StdString s => grammar_of_file u atof fs s end.

(** Lexicon::initialize, src/lexicon.cpp:67-143, for a stream in any state. *)
Definition lexicon_from (e : env) (name : text) (is0 : stream) : outcome lexicon :=
  let (is, raw) := getline LF is0 [] in
  obind (lex_strip_bom raw) (fun line =>
  obind (skip_header (List.length (s_rest is0) + 3) is line raw 1) (fun h =>
    let '(is', hline, acc, cnt) := h in
    let '(t1, t3, loc) := header_fields hline in
    if teqb t1 (s2t "LEXICON:") || teqb t1 (s2t "Lexicon:") then
      let x := mkLex name (as_lang t3) loc [] [] [] [] [] in
      obind (read_entries (List.length (s_rest is0) + 3) e is' hline acc (cnt + 1) x) (fun r =>
        let y := snd r in
        Ok (mkLex (x_name y) (x_lang y) (x_locale y) (x_lex y) (x_regex y) (x_pre y) (x_suf y) (md5_hex (bytes_of (fst r)))))
    else Throw (s2t "Lexicon-Invalid-Data-Format: " ++ dec_text (cnt + 1) ++ s2t ": " ++ hline))).
(** src/lexicon.cpp:49-64. *)
Definition lexicon_of_chars (e : env) (p : text) : outcome lexicon := lexicon_from e (s2t "unknown") (open_chars p).
Definition lexicon_of_file (e : env) (name : text) (fs : files) (file : text) : outcome lexicon := lexicon_from e name (open_file fs file).

(** src/tester/compile-lexicon.cpp:27-58: the text written to the second file; an exception ends the program before that file is
    opened.  Left out: a second file that cannot be created. *)
Definition compile_tool (e : env) (fs : files) (file : text) : outcome text :=
  obind (lexicon_of_file e (s2t "lexicon") fs file) (fun x =>
    Ok (save_archive lexicon_version (snd (lex_suf (snd (lex_pre (snd (lex_regex x)))))))).
