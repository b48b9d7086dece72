(** Exact forms of claims that fail in full (properties.jsonl C20, C31, C33, C35, C39): what the program does instead. *)
From Coq Require Import String List NArith Bool.
From Verif Require Import Base_model Class_model Class_spec Uni_model Token_model Rule_model Lexicon_model Lexicon_spec LexText_spec
  Search_model Grammar_model Grammar_spec Sample_model Loaded_spec Classify_proofs LexLoad_proofs LexExample_proofs Exact_spec Exact_proofs.
Import ListNotations.
Local Open Scope N_scope.

(** ** C20 *)
(** A word of letters that is in no entry: WORD always, SINGLE when it has one byte, DOUBLE when it has two. *)
Theorem C20_exact : forall u x k d, letter_tables u -> unlisted x k -> t_text k <> [] ->
  Forall (fun c => u_alpha u c = true) (t_text k) ->
  forall c, In c (t_in (classify u x k d)) <->
    c = I_WORD \/ (text_bytes (t_text k) = 1 /\ c = I_SINGLE) \/ (text_bytes (t_text k) = 2 /\ c = I_DOUBLE).
Proof. exact letters_exact. Qed.
Print Assumptions C20_exact.
Example C20_exact_example : letter_tables latin1_uni /\ unlisted (new_lexicon []) (mkToken [0xC9; 0xC9] [] [] O_BADTOKEN [] false) /\
  text_bytes [0xC9; 0xC9] = 4 /\ t_in (classify latin1_uni (new_lexicon []) (mkToken [0xC9; 0xC9] [] [] O_BADTOKEN [] false) I_WORD) = [I_WORD].
Proof. exact letters_ex. Qed.

(** ** C31 *)
(** The newline makes no difference, or else the only header is the unfinished line and the text is refused. *)
Theorem C31_exact : forall e name ls r, (forall loc, steady e loc) -> Forall one_line ls -> one_line r -> r <> [] ->
  same_result (load_lexicon e name (file ls r)) (load_lexicon e name (file ls (r ++ [10]))) \/
  (header_last ls r /\ exists m, load_lexicon e name (file ls r) = Throw m).
Proof. exact newline_exact. Qed.
Print Assumptions C31_exact.
Example C31_exact_example : header_last [s2t "# x"] (s2t "LEXICON:	demo	1	en_US	1	0") /\ (forall loc, steady ascii_env loc) /\
  exists x, load_lexicon ascii_env [] (file [s2t "# x"] (s2t "LEXICON:	demo	1	en_US	1	0" ++ [10])) = Ok x.
Proof. exact last_header_ex. Qed.

(** ** C33, lexicon texts *)
(** The mark takes a following character of one byte with it. *)
Theorem C33_lexicon_exact : forall e name d l ls r, d < 128 -> (forall t, l <> 0xFEFF :: t) -> Forall one_line ((d :: l) :: ls) -> one_line r ->
  same_result (load_lexicon e name (file ((0xFEFF :: d :: l) :: ls) r)) (load_lexicon e name (file (l :: ls) r)).
Proof. exact mark_exact. Qed.
Print Assumptions C33_lexicon_exact.
Example C33_lexicon_exact_example : (35 < 128)%N /\ exists x, load_lexicon ascii_env [] (file ((0xFEFF :: 35 :: hd [] ex_src) :: tl ex_src) []) = Ok x /\ lex_find x (s2t "PO BOX") = [ex_box].
Proof. exact mark_ex. Qed.
(** A following character of more bytes is cut in two, and the first line counts for nothing. *)
Theorem C33_lexicon_cut : forall e name d l ls r, 128 <= d -> Forall one_line ((d :: l) :: ls) -> one_line r -> ls <> [] ->
  same_result (load_lexicon e name (file ((0xFEFF :: d :: l) :: ls) r)) (load_lexicon e name (file ([] :: ls) r)).
Proof. exact mark_cut. Qed.
Print Assumptions C33_lexicon_cut.
Example C33_lexicon_cut_example : (128 <= 0xE9)%N /\ exists x, load_lexicon ascii_env [] (file ((0xFEFF :: 0xE9 :: s2t "LEXENTRY:") :: ex_src) []) = Ok x /\ lex_find x (s2t "PO BOX") = [ex_box].
Proof. exact mark_cut_ex. Qed.

(** ** C35 *)
(** The classes of a list are those of its pieces, in order and once each. *)
Theorem C35_exact : forall ps, ps <> [] -> Forall no_comma ps ->
  is_inset (as_type (join [44] ps)) /\ forall c, In c (as_type (join [44] ps)) <-> exists p, In p ps /\ piece_class p c.
Proof. exact classes_exact. Qed.
Print Assumptions C35_exact.
Example C35_exact_example : Forall no_comma [s2t "WORD "; s2t " "; []; s2t "WROD"] /\ piece_class (s2t "WORD ") I_WORD /\ piece_class (s2t " ") I_BADTOKEN /\
  piece_class (s2t "WROD") I_BADTOKEN /\ as_type (s2t "WORD , ,,WROD") = [I_WORD; I_BADTOKEN].
Proof. exact classes_ex. Qed.

(** ** C39 *)
(** A grammar is read as if its last line stood there once more, with a newline. *)
Theorem C39_exact : forall u atof file src, effective file src ->
  load_grammar u atof file = load_grammar u atof (file ++ 10 :: last (pieces src) [] ++ [10]).
Proof. exact last_line. Qed.
Print Assumptions C39_exact.
Example C39_exact_example : effective twice_src twice_src /\ last (pieces twice_src) [] = s2t "WORD -> STREET -> 0.5" /\
  exists L, load_grammar ascii_uni sample_atof twice_src = Ok L /\ map (fun s => List.length (rs_rules s)) (g_rules (gl_grammar L)) = [2%nat].
Proof. exact twice_ex. Qed.
