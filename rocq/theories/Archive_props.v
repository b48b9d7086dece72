(** Compiled lexicons (C56). *)
From Coq Require Import String List NArith ZArith.
From Verif Require Import Base_model Class_model Uni_model Token_model Grammar_model Lexicon_model Tokenizer_model Archive_model
  Lexicon_spec LexText_spec Archive_spec LexLoad_proofs Archive_proofs.
Import ListNotations.
Local Open Scope N_scope.

(** Reading back an archive gives the lexicon that was written, with its patterns and digest. *)
Theorem C56_round_trip : forall x, ordered x -> load_archive (save_archive lexicon_version x) = Ok x.
Proof. exact archive_round. Qed.
Print Assumptions C56_round_trip.

(** Every lexicon that was loaded has the order asked for above. *)
Theorem C56_loaded_ordered : forall e name src x, load_lexicon e name src = Ok x -> ordered x.
Proof. exact load_ordered. Qed.
Print Assumptions C56_loaded_ordered.

(** An archive of an older version is rejected, and the wrapper does not go on to read it as a source text. *)
Theorem C56_old_version : forall e x version, ordered x -> (version < 2)%Z ->
  load_archive (save_archive version x) = Throw (s2t "Re-compile-lexicon") /\
  get_lexicon e (save_archive version x) = Throw (s2t "Re-compile-lexicon").
Proof. exact archive_old. Qed.
Print Assumptions C56_old_version.

(** The compiled form of a source loads as the same lexicon, with all patterns stored. *)
Theorem C56_compiled : forall e e' src a, serialize_lexicon e src = Ok a ->
  exists x y, load_lexicon e query_lex src = Ok x /\ get_lexicon e' a = Ok y /\ same_content x y /\
    x_regex y = fst (lex_regex x) /\ x_pre y = fst (lex_pre x) /\ x_suf y = fst (lex_suf x).
Proof. exact compile_load. Qed.
Print Assumptions C56_compiled.

(** Nothing that is computed from a lexicon tells the compiled form from the source. *)
Theorem C56_equivalent : forall e e' src a, serialize_lexicon e src = Ok a ->
  exists x y, load_lexicon e query_lex src = Ok x /\ get_lexicon e' a = Ok y /\ same_content x y /\
    (forall d f str, get_tokens d (mkTz x f) str = get_tokens d (mkTz y f) str) /\
    (forall u ks, get_alt_tokens u x ks = get_alt_tokens u y ks) /\
    (forall u k c, classify u x k c = classify u y k c) /\ (forall k, standardize_word x k = standardize_word y k).
Proof. exact compile_same. Qed.
Print Assumptions C56_equivalent.

(** A text that does not begin as an archive is read as a source. *)
Theorem C56_source : forall e src, ~ begins_archive src ->
  get_lexicon e src = load_lexicon e query_lex src.
Proof. exact not_archive. Qed.
Print Assumptions C56_source.

Example C56_example : exists a x, serialize_lexicon ascii_env (file ex_src []) = Ok a /\ load_archive a = Ok x /\
  lex_find x (s2t "ST") = [ex_st1; ex_st2] /\ x_regex x <> [] /\ x_suf x <> [].
Proof. exact ex_compile. Qed.
