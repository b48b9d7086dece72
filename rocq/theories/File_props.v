(** Grammars and lexicons from files (C109). *)
From Coq Require Import String List NArith.
From Verif Require Import Base_model Class_model Uni_model Float_model Token_model Rule_model Grammar_model Search_model Lexicon_model Archive_model Wrapper_model CString_model File_model Sample_model Tokenizer_model
  File_spec WrapperEx_proofs Lexicon_spec File_proofs.
Import ListNotations.
Local Open Scope N_scope.

(** Every name has one text: of the file called by the name up to its first NUL, or the empty text if nothing can be read there.  The
    constructors read a file as its text. *)
Theorem C109_file : forall u atof e name fs file, exists t, file_text fs file t /\ (forall t', file_text fs file t' -> t' = t) /\
  grammar_of_file u atof fs file = load_grammar u atof t /\ lexicon_of_file e name fs file = load_lexicon e name t.
Proof. exact file_texts. Qed.
Print Assumptions C109_file.
Example C109_file_example : file_text ex_files (s2t "good.grammar") w_grammar /\ file_text ex_files (s2t "lexicon.txt" ++ [0; 65])%list w_lexicon /\
  file_text ex_files (s2t "data") [] /\ file_text ex_files (s2t "typo.grammar") [] /\
  (exists L, grammar_of_file ascii_uni sample_atof ex_files (s2t "good.grammar") = Ok L) /\
  (exists x, lexicon_of_file ascii_env query_lex ex_files (s2t "lexicon.txt" ++ [0; 65])%list = Ok x).
Proof. exact ex_file_texts. Qed.

(** Where nothing can be read there is no object, and the message does not mention the file: it is about the contents. *)
Theorem C109_missing : forall u atof e name fs file n, up_to_nul file n -> fs n = Missing \/ fs n = Unreadable ->
  grammar_of_file u atof fs file = Throw (s2t "Rule 'ADDRESS' is not defined!
") /\ lexicon_of_file e name fs file = Throw (s2t "Lexicon-Invalid-File-Format").
Proof. exact file_missing. Qed.
Print Assumptions C109_missing.
Example C109_missing_example : up_to_nul (s2t "typo.grammar") (s2t "typo.grammar") /\ ex_files (s2t "typo.grammar") = Missing /\
  up_to_nul (s2t "data") (s2t "data") /\ ex_files (s2t "data") = Unreadable.
Proof. exact ex_missing. Qed.

(** A char pointer is the text itself, up to its first NUL. *)
Theorem C109_chars : forall u atof e p t, up_to_nul p t ->
  grammar_of_chars u atof p = load_grammar u atof t /\ lexicon_of_chars e p = load_lexicon e (s2t "unknown") t.
Proof. exact chars_texts. Qed.
Print Assumptions C109_chars.
Example C109_chars_example : up_to_nul (w_grammar ++ 0 :: s2t "[")%list w_grammar /\ exists L, grammar_of_chars ascii_uni sample_atof (w_grammar ++ 0 :: s2t "[")%list = Ok L.
Proof. exact ex_chars. Qed.

(** The type of the argument alone decides which of the two it is. *)
Theorem C109_by_type : forall u atof fs s t, (file_text fs s t -> new_grammar u atof fs (StdString s) = load_grammar u atof t) /\
  (up_to_nul s t -> new_grammar u atof fs (CharPointer s) = load_grammar u atof t).
Proof. exact by_type. Qed.
Print Assumptions C109_by_type.

(** Therefore a file name written as a literal never gives a grammar, whatever the file contains, unless the name has a bracket. *)
Theorem C109_literal : forall u atof fs p, ~ In 91 p -> forall L, new_grammar u atof fs (CharPointer p) <> Ok L.
Proof. exact literal_name. Qed.
Print Assumptions C109_literal.
Example C109_literal_example : new_grammar ascii_uni sample_atof ex_files (CharPointer (s2t "good.grammar")) = Throw (s2t "Grammar-Syntax-Error") /\
  exists L, new_grammar ascii_uni sample_atof ex_files (StdString (s2t "good.grammar")) = Ok L.
Proof. exact ex_literal. Qed.

(** compile-lexicon writes what as_compile_lexicon returns, but for the name: all calls answer alike, and it fails for the same texts
    with the same messages. *)
Theorem C109_tool : forall e d fs file t a, file_text fs file t -> compile_tool e fs file = Ok a ->
  exists b x, serialize_lexicon e t = Ok b /\ get_lexicon d b = Ok x /\ get_lexicon d a = Ok (put_name (s2t "lexicon") x).
Proof. exact tool_loads. Qed.
Print Assumptions C109_tool.
Theorem C109_tool_answers : forall e d atof fs file t a, file_text fs file t -> compile_tool e fs file = Ok a ->
  exists b, serialize_lexicon e t = Ok b /\ forall address gr locale filt,
  std_standardize d atof address gr a locale filt = std_standardize d atof address gr b locale filt /\
  std_parse_address d address a locale filt = std_parse_address d address b locale filt /\
  forall sort, std_match_address d atof sort address gr a locale filt = std_match_address d atof sort address gr b locale filt.
Proof. exact tool_answers. Qed.
Print Assumptions C109_tool_answers.
Theorem C109_tool_fails : forall e fs file t m, file_text fs file t -> compile_tool e fs file = Throw m <-> serialize_lexicon e t = Throw m.
Proof. exact tool_fails. Qed.
Print Assumptions C109_tool_fails.
Example C109_tool_example : exists a b, compile_tool ascii_env ex_files (s2t "lexicon.txt") = Ok a /\ serialize_lexicon ascii_env w_lexicon = Ok b /\ a <> b /\
  compile_tool ascii_env ex_files (s2t "lexicon") = Throw (s2t "Lexicon-Invalid-File-Format").
Proof. exact ex_tool. Qed.
