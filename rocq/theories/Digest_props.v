(** Properties of the digests kept with grammars and lexicons (properties.jsonl C102). *)
From Coq Require Import String List NArith Bool.
From Verif Require Import Base_model Class_model Float_model Uni_model Token_model Rule_model Search_model Grammar_model Md5_model Lexicon_model Sample_model
  Grammar_spec Lexicon_spec Utf8_spec Loaded_proofs Digest_model Digest_spec DigestEx_proofs.
Import ListNotations.
Local Open Scope N_scope.

(** ** C102 *)
Theorem C102_digest : forall u atof src,
  (forall l d, load_grammar_d u atof src = Ok (l, d) <->
     load_grammar u atof src = Ok l /\ exists t, effective src t /\ d = md5_hex (bytes_of (run_together src ++ last_piece t))) /\
  (forall m, load_grammar_d u atof src = Throw m <-> load_grammar u atof src = Throw m).
Proof. exact load_digest_iff. Qed.
Print Assumptions C102_digest.
(** The bytes are the UTF-8 form of the text. *)
Theorem C102_bytes : forall t, Forall scalar t -> utf8_text t (bytes_of t).
Proof. exact bytes_utf8. Qed.
Print Assumptions C102_bytes.
Example C102_bytes_example : bytes_of [82; 233] = [82; 195; 169].
Proof. exact bytes_utf8_ex. Qed.
(** Where the lines end does not matter. *)
Theorem C102_line_ends : forall u atof a b ta tb la lb da db, effective a ta -> effective b tb ->
  run_together a = run_together b -> last_piece ta = last_piece tb ->
  load_grammar_d u atof a = Ok (la, da) -> load_grammar_d u atof b = Ok (lb, db) -> da = db.
Proof. exact same_digest. Qed.
Print Assumptions C102_line_ends.
Theorem C102_identifies_refuted : exists u atof a b la lb d phrase pa, uni_ok u /\
  load_grammar_d u atof a = Ok (la, d) /\ load_grammar_d u atof b = Ok (lb, d) /\
  search (gl_grammar la) phrase = Ok [pa] /\ search (gl_grammar lb) phrase = Ok [].
Proof. exact dg_refuted. Qed.
Print Assumptions C102_identifies_refuted.
Theorem C102_lexicon_refuted : exists e name a b xa xb, load_lexicon e name a = Ok xa /\ load_lexicon e name b = Ok xb /\ x_md5 xa = x_md5 xb /\
  lex_find xa (s2t "ST") <> [] /\ lex_find xb (s2t "ST") = [].
Proof. exact dx_refuted. Qed.
Print Assumptions C102_lexicon_refuted.
Example C102_example : exists l d, load_grammar_d ascii_uni sample_atof dg_2 = Ok (l, d) /\
  d = md5_hex (bytes_of (s2t "[ADDRESS]@house@street[house]NUMBER -> HOUSE -> 0.9[street]WORD TYPE -> STREET SUFTYP -> 0.8")).
Proof. exact dg_example. Qed.
