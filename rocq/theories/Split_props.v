(** How words are split (src/tokenizer.cpp: Tokenizer::splitToken). *)
From Coq Require Import String List NArith.
From Verif Require Import Base_model Class_model Uni_model Token_model Lexicon_model Tokenizer_model Lexicon_spec Tokenizer_spec Split_spec
  TokPieces_proofs Split_proofs SplitEx_proofs Address_proofs.
Import ListNotations.
Local Open Scope N_scope.

(** ** C68 *)
(** The tokens, word by word and separator by separator.  Lexicon words without carets, braces and tabs; line ends are blanks. *)
Theorem C68_tokens : forall e x str, built x -> simple_words x -> tab_free x -> word_tables (e_uni e) -> tab_tables (e_uni e) ->
  blank_lines (e_uni e) (search_text e x str) ->
  exists ps groups, get_pieces e x str = Ok ps /\ all_tokens e x str = Ok (concat groups) /\ Forall2 (exact_tokens (e_uni e) x) ps groups.
Proof. exact tokens_exact. Qed.
Print Assumptions C68_tokens.
(** The description leaves no choice. *)
Theorem C68_unique : forall u x w ks ks', word_tables u -> exact_word u x w ks -> exact_word u x w ks' -> Forall2 same_token ks ks'.
Proof. exact word_one. Qed.
Print Assumptions C68_unique.
Theorem C68_separators_unique : forall u x w ks ks', sep_exact u x w ks -> sep_exact u x w ks' -> Forall2 same_token ks ks'.
Proof. exact sep_exact_one. Qed.
Print Assumptions C68_separators_unique.
Example C68_example : let str := s2t "altmarktstr 12b altstr e7" in let t := search_text ascii_env split_lex str in
  built split_lex /\ simple_words split_lex /\ tab_free split_lex /\ word_tables ascii_uni /\ tab_tables ascii_uni /\ blank_lines ascii_uni t /\
  (front ascii_uni split_lex (s2t "ALTMARKTSTR") (s2t "ALT") (s2t "MARKTSTR") /\ back split_lex (s2t "ALTMARKTSTR") (s2t "ALTMARKT") (s2t "STR")) /\
  exists ks, all_tokens ascii_env split_lex str = Ok ks /\
    map t_text ks = map s2t ["ALT"; "MARKT"; "STR"; " "; "12"; "B"; " "; "ALT"; "STR"; " "; "E"; "7"]%string.
Proof. exact exact_ex. Qed.
