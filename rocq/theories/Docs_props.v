(** Properties of files and tokens as they are documented (properties.jsonl C112, C113). *)
From Coq Require Import String List NArith.
From Verif Require Import Base_model Class_model Class_spec Float_model Uni_model Token_model Rule_model Search_model Search_spec Grammar_model Grammar_spec Lexicon_model Lexicon_spec
  Tokenizer_model Tokenizer_spec Wrapper_model Sample_model LexText_spec LexFile_spec LexFileExample_proofs Docs_spec DocsLex_spec Docs_proofs DocsLex_proofs DocsEx_proofs.
Import ListNotations.
Local Open Scope N_scope.

(** ** C112 *)
Theorem C112_documented_syntax : forall u atof gs ls, uni_ok u -> doc_tables u -> grammar_lines gs ls -> complete gs ->
  (forall s, score_of gs s -> not_le_zero (atof s)) ->
  exists L, load_grammar u atof (file_text ls) = Ok L /\ plain (g_metas (gl_grammar L)) = meta_groups gs /\
    g_rules (gl_grammar L) = rule_groups atof gs /\
    (gl_status L = CHECK_OK <-> forall n, In n (map fst gs) -> referred gs n \/ n = ADDRESS).
Proof. exact documented_loads. Qed.
Print Assumptions C112_documented_syntax.
(** A probability of 0 follows the syntax but not the program. *)
Theorem C112_probability_refuted : exists gs ls m, grammar_lines gs ls /\ complete gs /\ (forall s, score_of gs s -> s = s2t "0.0") /\
  load_grammar ascii_uni sample_atof (file_text ls) = Throw m.
Proof. exact zero_bad. Qed.
Print Assumptions C112_probability_refuted.
Example C112_example : uni_ok ascii_uni /\ doc_tables ascii_uni /\ grammar_lines g_refs g_lines /\ complete g_refs /\
  (forall s, score_of g_refs s -> not_le_zero (sample_atof s)).
Proof. exact doc_ex. Qed.

(** ** C113 *)
(** The tables of classes: all but STOP and the class of the comma, all but STOP and IGNORE. *)
Theorem C113_in_names : forall n, In n (map s2t documented_in) <-> exists c, n = in_str c /\ c <> I_STOP /\ c <> I_COMMA.
Proof. exact in_names. Qed.
Print Assumptions C113_in_names.
Theorem C113_out_names : forall n, In n (map s2t documented_out) <-> exists c, n = out_str c /\ c <> O_STOP /\ c <> O_IGNORE.
Proof. exact out_names. Qed.
Print Assumptions C113_out_names.
(** The attachments of a column: those named between the commas, and none for DETACHED, DETACH and blanks. *)
Theorem C113_attachments : forall s cs a, columns 44 s cs -> (In a (as_attach s) <-> exists p, In p cs /\ padded (att_str a) p).
Proof. exact att_col. Qed.
Print Assumptions C113_attachments.
Theorem C113_no_attachment : forall s cs, columns 44 s cs -> Forall no_attachment cs -> as_attach s = [].
Proof. exact no_att. Qed.
Print Assumptions C113_no_attachment.
Example C113_attachment_example : columns 44 (s2t "DET_SUF, ATT_SUF") [s2t "DET_SUF"; s2t " ATT_SUF"] /\ as_attach (s2t "DET_SUF, ATT_SUF") = [DET_SUF; ATT_SUF] /\
  columns 44 (s2t "DETACHED ") [s2t "DETACHED "] /\ Forall no_attachment [s2t "DETACHED "].
Proof. exact att_ex. Qed.
(** Name and language of a lexicon have no effect; the locale has. *)
Theorem C113_name_and_language : forall e name pre h h' es x lg lg' loc, Forall one_line (pre ++ h :: es) -> one_line h' -> Forall (fun l => ~ is_header l) pre ->
  is_header h -> is_header h' -> (forall l p, pre = l :: p -> forall t, l <> 0xFEFF :: t) -> header_of h lg loc -> header_of h' lg' loc ->
  load_lexicon e name (file (pre ++ h :: es) []) = Ok x ->
  exists y, load_lexicon e name (file (pre ++ h' :: es) []) = Ok y /\ x_lang y = lg' /\
    forall g locale filt address, standardize_addr e g y locale filt address = standardize_addr e g x locale filt address /\
      parse_addr e y locale filt address = parse_addr e x locale filt address /\
      forall sort, match_addr e sort g y locale filt address = match_addr e sort g x locale filt address.
Proof. exact other_header. Qed.
Print Assumptions C113_name_and_language.
Example C113_header_example : let h := d_head "us" "ENG" "en_US" in let h' := d_head "other" "FRE" "en_US" in let es := [d_entry "ST" "TYPE" ""] in
  Forall one_line ([] ++ h :: es) /\ one_line h' /\ is_header h /\ is_header h' /\ header_of h L_ENG (s2t "en_US") /\ header_of h' L_FRE (s2t "en_US") /\
  exists x, load_lexicon ascii_env [] (file ([] ++ h :: es) []) = Ok x.
Proof. exact header_ex. Qed.
Theorem C113_locale_unused_refuted : exists e h h' es x y address, header_of h L_TUR (s2t "tr_TR") /\ header_of h' L_TUR (s2t "en_US") /\
  load_lexicon e [] (file (h :: es) []) = Ok x /\ load_lexicon e [] (file (h' :: es) []) = Ok y /\
  parse_addr e x (s2t "en_US") [] address <> parse_addr e y (s2t "en_US") [] address.
Proof. exact locale_bad. Qed.
Print Assumptions C113_locale_unused_refuted.
(** The header need not come first, and the lines may not end in CR LF. *)
Theorem C113_header_first_refuted : exists l h es x, ~ is_header l /\ is_header h /\ load_lexicon ascii_env [] (file (l :: h :: es) []) = Ok x /\
  lex_find x (s2t "ST") <> [].
Proof. exact first_bad. Qed.
Print Assumptions C113_header_first_refuted.
Theorem C113_line_ends_refuted : exists ls x m, load_lexicon ascii_env [] (file ls []) = Ok x /\
  load_lexicon ascii_env [] (file (map (fun l => l ++ [13]) ls) []) = Throw m.
Proof. exact crlf_bad. Qed.
Print Assumptions C113_line_ends_refuted.
(** Articles cannot be listed as IGNORE; stop words stay tokens of their own. *)
Theorem C113_ignore_refuted : exists m, load_lexicon ascii_env [] (file [d_head "n" "ENG" "en_US"; d_entry "THE" "IGNORE" ""] []) = Throw m.
Proof. exact ignore_bad. Qed.
Print Assumptions C113_ignore_refuted.
Theorem C113_stopwords_combine_refuted : exists x ks, lex_find x (s2t "OF") = [mkLE (s2t "OF") (s2t "OF") [I_STOPWORD] []] /\
  get_tokens ascii_env (mkTz x [I_SPACE]) (s2t "AVENUE OF AMERICAS") = Ok ks /\
  map (fun k => (t_text k, t_in k)) ks = [(s2t "AVENUE", [I_WORD]); (s2t "OF", [I_STOPWORD]); (s2t "AMERICAS", [I_WORD])].
Proof. exact stop_bad. Qed.
Print Assumptions C113_stopwords_combine_refuted.
(** The attachments of a token are not those of its entries. *)
Theorem C113_attached_refuted : exists x ks, map le_att (lex_find x (s2t "STRASSE")) = [[DET_SUF; ATT_SUF]] /\
  get_tokens ascii_env (mkTz x []) (s2t "HAUPTSTRASSE") = Ok ks /\
  map (fun k => (t_text k, t_inlex k, t_att k)) ks = [(s2t "HAUPT", false, []); (s2t "STRASSE", true, [])].
Proof. exact att_bad. Qed.
Print Assumptions C113_attached_refuted.
(** Standard word and output class are set after matching, unless a tab stands in the address. *)
Theorem C113_set_after_matching_refuted : exists x t ks, load_lexicon ascii_env [] t = Ok x /\
  get_tokens ascii_env (mkTz x []) (s2t "5 -" ++ 9 :: s2t "- ST") = Ok ks /\
  map (fun k => (t_text k, t_std k)) ks = [(s2t "5", []); (s2t "-", s2t "- "); (s2t "ST", [])].
Proof. exact set_bad. Qed.
Print Assumptions C113_set_after_matching_refuted.
Theorem C113_set_after_matching_partial : forall e z str ks, built (z_lex z) -> plain_blank (e_uni e) -> ~ In TAB (search_text e (z_lex z) str) ->
  blank_lines (e_uni e) (search_text e (z_lex z) str) -> get_tokens e z str = Ok ks -> Forall unset ks.
Proof. exact tokens_unset. Qed.
Print Assumptions C113_set_after_matching_partial.
(** PCT is not only digit, letter, digit. *)
Theorem C113_pct_refuted : exists ks, get_tokens ascii_env (mkTz (d_lex ascii_env (file [d_head "n" "ENG" "en_US"] [])) []) (s2t "1AB") = Ok ks /\
  map (fun k => (t_text k, t_in k)) ks = [(s2t "1AB", [I_MIXED; I_PCT])].
Proof. exact pct_bad. Qed.
Print Assumptions C113_pct_refuted.
(** The example of docs/outclass.md. *)
Example C113_example : built any_lex /\ plain_blank ascii_uni /\ ~ In TAB (search_text ascii_env any_lex (s2t "123 MAIN ST ANYTOWN MA 12345 USA")) /\
  blank_lines ascii_uni (search_text ascii_env any_lex (s2t "123 MAIN ST ANYTOWN MA 12345 USA")) /\
  exists ks, get_tokens ascii_env (mkTz any_lex [I_SPACE]) (s2t "123 MAIN ST ANYTOWN MA 12345 USA") = Ok ks /\
  map (fun k => (t_text k, t_in k)) ks =
    [(s2t "123", [I_NUMBER]); (s2t "MAIN", [I_WORD]); (s2t "ST", [I_WORD; I_TYPE]); (s2t "ANYTOWN", [I_WORD]); (s2t "MA", [I_PROV]);
     (s2t "12345", [I_NUMBER; I_QUINT]); (s2t "USA", [I_NATION])].
Proof. exact any_ex. Qed.
