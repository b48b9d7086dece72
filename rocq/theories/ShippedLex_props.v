(** Properties of the shipped lexicons (properties.jsonl C110, C111). *)
From Coq Require Import String List NArith.
From Verif Require Import Base_model Class_model Class_spec Uni_model Token_model Grammar_model Lexicon_model Lexicon_spec Tokenizer_model Tokenizer_spec
  Wrapper_model Sample_model Archive_model Shipped_model ShippedLex_model ShippedLex_spec ShippedLex_proofs ShippedLexTop_proofs.
Import ListNotations.
Local Open Scope N_scope.

(** ** C110 *)
(** Every lexicon of data/sample has a text, is accepted as a lexicon and not mistaken for an archive, and lists no word that breaks
    the pattern. *)
Theorem C110_loads : forall ps, In ps shipped_lexicons -> (exists t, text_of ps t) /\ forall t e name, text_of ps t -> shipped_locale_env e ->
  exists x, load_lexicon e name t = Ok x /\ get_lexicon e t = load_lexicon e query_lex t /\ simple_words x /\ In (x_locale x) shipped_locales.
Proof. exact shipped_load. Qed.
Print Assumptions C110_loads.
Theorem C110_text_unique : forall ps t t', text_of ps t -> text_of ps t' -> t = t'.
Proof. exact text_unique. Qed.
Print Assumptions C110_text_unique.
Theorem C110_answers : forall ps t e name x s L locale filt address, In ps shipped_lexicons -> text_of ps t -> shipped_locale_env e ->
  load_lexicon e name t = Ok x -> In s shipped_grammars -> load_sample s = Ok L ->
  blank_lines (e_uni e) (search_text e x (prepared e locale address)) ->
  exists ks, get_tokens e (mkTz x (as_type filt)) (prepared e locale address) = Ok ks /\
    ((phrases ks <= 31)%nat -> exists o, standardize_addr e (gl_grammar L) x locale filt address = Ok o).
Proof. exact shipped_answer. Qed.
Print Assumptions C110_answers.
Example C110_example : let x := lex_of (lex_text slex_belgium) in
  In slex_belgium shipped_lexicons /\ text_of slex_belgium (lex_text slex_belgium) /\ shipped_locale_env ascii_env /\
  load_lexicon ascii_env query_lex (lex_text slex_belgium) = Ok x /\ In gmr_belgium shipped_grammars /\
  exists L, load_sample gmr_belgium = Ok L /\
  blank_lines (e_uni ascii_env) (search_text ascii_env x (prepared ascii_env (s2t "fr_BE") (s2t "Rue Haute 12"))) /\
  exists ks, get_tokens ascii_env (mkTz x (as_type (s2t "PUNCT,SPACE"))) (prepared ascii_env (s2t "fr_BE") (s2t "Rue Haute 12")) = Ok ks /\
    map (fun k => (t_text k, t_in k)) ks = [(s2t "RUE", [I_TYPE]); (s2t "HAUTE", [I_WORD]); (s2t "12", [I_NUMBER])] /\ (phrases ks <= 31)%nat.
Proof. exact belgium_answer. Qed.

(** ** C111 *)
(** The lines of germany.lex end in CR LF: what is last on a line is lost. *)
Theorem C111_line_ends_refuted : exists ps t x y, In ps shipped_lexicons /\ text_of ps t /\
  load_lexicon ascii_env query_lex t = Ok x /\ load_lexicon ascii_env query_lex (without_cr t) = Ok y /\
  map le_att (lex_find x (s2t "UFER")) = [[]] /\ map le_att (lex_find y (s2t "UFER")) = [[ATT_SUF]] /\
  exists ks js, get_tokens ascii_env (mkTz x []) (s2t "ELBUFER 5") = Ok ks /\ get_tokens ascii_env (mkTz y []) (s2t "ELBUFER 5") = Ok js /\
    map t_text ks = map s2t ["ELBUFER"; " "; "5"]%string /\ map t_text js = map s2t ["ELB"; "UFER"; " "; "5"]%string.
Proof. exact line_ends_bad. Qed.
Print Assumptions C111_line_ends_refuted.
Theorem C111_line_ends_partial : forall ps t, In ps shipped_lexicons -> text_of ps t -> ps = slex_germany \/ ~ In 13 t.
Proof. exact line_ends_part. Qed.
Print Assumptions C111_line_ends_partial.
(** Outside germany.lex, whose last names have a carriage return behind them, DETATCH is the only name that is not documented. *)
Theorem C111_attachments_refuted : exists ps t l p, In ps shipped_lexicons /\ text_of ps t /\ line_of t l /\ att_field l p /\ ~ documented_att p.
Proof. exact att_bad. Qed.
Print Assumptions C111_attachments_refuted.
Theorem C111_attachments_partial : forall ps t l p, In ps shipped_lexicons -> text_of ps t -> line_of t l -> att_field l p ->
  ps = slex_germany \/ documented_att p \/ padded (s2t "DETATCH") p.
Proof. exact att_part. Qed.
Print Assumptions C111_attachments_partial.
(** A word that is listed with a blank behind it needs two. *)
Theorem C111_words_found_refuted : exists ps t l x, In ps shipped_lexicons /\ text_of ps t /\ line_of t l /\ word_field l (s2t "SUITE ") /\
  load_lexicon ascii_env query_lex t = Ok x /\
  exists ks js, get_tokens ascii_env (mkTz x []) (s2t "SUITE 5") = Ok ks /\ get_tokens ascii_env (mkTz x []) (s2t "SUITE  5") = Ok js /\
    map (fun k => (t_text k, t_in k)) ks = [(s2t "SUITE", [I_WORD]); (s2t " ", [I_SPACE]); (s2t "5", [I_NUMBER])] /\
    map (fun k => (t_text k, t_in k)) js = [(s2t "SUITE ", [I_UNITH]); (s2t " ", [I_SPACE]); (s2t "5", [I_NUMBER])].
Proof. exact blank_bad. Qed.
Print Assumptions C111_words_found_refuted.
Example C111_example : In slex_andorra shipped_lexicons /\ text_of slex_andorra (lex_text slex_andorra) /\
  let l := tabbed ["LEXENTRY:"; "AVINGUDA"; "AVINGUDA"; "TYPE"; "ATT_PRE,DET_PRE"]%string in line_of (lex_text slex_andorra) l /\ att_field l (s2t "DET_PRE").
Proof. exact andorra_line. Qed.
