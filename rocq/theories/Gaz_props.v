(** Properties of the converter of PAGC words (properties.jsonl C121). *)
From Coq Require Import String List NArith ZArith.
From Verif Require Import Base_model Class_model Class_spec Uni_model Token_model Lexicon_model Lexicon_spec LexText_spec LexFile_spec TextOrder_spec Gaz_model Gaz_spec Gaz_proofs.
Import ListNotations.
Local Open Scope N_scope.

(** ** C121 *)
(** The tables of words become a lexicon that loads: an entry for each word and standard form, with the classes of all the rows with both, in the order of the standard forms. *)
Theorem C121_words : forall e re name rss ts, Forall2 row_file rss ts -> Forall sound (concat rss) -> Forall (kept_words e) (concat rss) ->
  Forall (fun r => re (w_std r) (w_std r) = true) (concat rss) ->
  exists t y, convert_gaz re ts = Some t /\ load_lexicon e name t = Ok y /\ x_name y = name /\ header_of gaz_header (x_lang y) (x_locale y) /\ x_locale y = s2t "en_US" /\
    (forall w le, In le (lex_find y w) <-> le_word le = w /\ entry_from (concat rss) le) /\ (forall w, NoDup (lex_find y w)) /\
    forall w a b, before (lex_find y w) a b -> text_lt (le_std a) (le_std b).
Proof. exact words_load. Qed.
Print Assumptions C121_words.
(** Class 5, a type in the rules of PAGC, is written as no class, and the lexicon is rejected. *)
Theorem C121_code_refuted : exists rs t out m, row_file rs t /\ Forall (kept_words ascii_env) rs /\ map w_code rs = [5] /\ convert_gaz any_re [t] = Some out /\ load_lexicon ascii_env [] out = Throw m.
Proof. exact code_five. Qed.
Print Assumptions C121_code_refuted.
(** A word given twice stops the script if its standard form is not a pattern for itself. *)
Theorem C121_pattern_refuted : exists rs t, row_file rs t /\ Forall sound rs /\ Forall (kept_words ascii_env) rs /\ convert_gaz plus_re [t] = None.
Proof. exact plus_stops. Qed.
Print Assumptions C121_pattern_refuted.
Example C121_example : Forall2 row_file [gz_rows] [gz_text] /\ Forall sound (concat [gz_rows]) /\ Forall (kept_words ascii_env) (concat [gz_rows]) /\
  Forall (fun r => any_re (w_std r) (w_std r) = true) (concat [gz_rows]) /\
  exists t y, convert_gaz any_re [gz_text] = Some t /\ load_lexicon ascii_env [] t = Ok y /\
    lex_find y (s2t "ST") = [mkLE (s2t "ST") (s2t "SAINT") [I_WORD; I_STOPWORD] []; mkLE (s2t "ST") (s2t "STREET") [I_TYPE] []].
Proof. exact gz_ex. Qed.
