(** Properties of compiled lexicons that are cut short, broken or followed by something (properties.jsonl C104). *)
From Coq Require Import String List NArith.
From Verif Require Import Archive_proofs Base_model Class_model Uni_model Lexicon_model Archive_model Archive_spec Wrapper_model CString_spec Lexicon_spec Broken_spec Sample_model WrapperEx_proofs Broken_proofs BrokenEx_proofs.
Import ListNotations.

(** ** C104 *)
(** More than 34 characters missing: refused. *)
Theorem C104_cut_refused : forall e d src a p q, keeps no_lf e -> serialize_lexicon e src = Ok a -> a = p ++ q -> 34 < List.length q ->
  get_lexicon d p = Throw (s2t "Lexicon-Invalid-File-Format").
Proof. exact cut_refused. Qed.
Print Assumptions C104_cut_refused.
Example C104_cut_refused_example : keeps no_lf ascii_env /\ serialize_lexicon ascii_env w_lexicon = Ok b_arch /\ b_arch = b_cut 35 ++ b_off 35 /\ 34 < List.length (b_off 35).
Proof. exact b_refused. Qed.
(** Up to 34 characters missing: only the digest suffers, and no answer depends on it. *)
Theorem C104_cut_accepted : forall e d src a p q, serialize_lexicon e src = Ok a -> a = p ++ q -> List.length q <= 34 ->
  exists y z, get_lexicon d a = Ok y /\ get_lexicon d p = Ok z /\ same_but_digest y z.
Proof. exact cut_accepted. Qed.
Print Assumptions C104_cut_accepted.
Theorem C104_cut_answers : forall e d atof src a p q address gr locale filt, serialize_lexicon e src = Ok a -> a = p ++ q -> List.length q <= 34 ->
  std_standardize d atof address gr p locale filt = std_standardize d atof address gr a locale filt /\
  std_parse_address d address p locale filt = std_parse_address d address a locale filt /\
  forall sort, std_match_address d atof sort address gr p locale filt = std_match_address d atof sort address gr a locale filt.
Proof. exact cut_answers. Qed.
Print Assumptions C104_cut_answers.
Example C104_cut_accepted_example : serialize_lexicon ascii_env w_lexicon = Ok b_arch /\ b_arch = b_cut 34 ++ b_off 34 /\ List.length (b_off 34) <= 34 /\
  exists y z, get_lexicon ascii_env b_arch = Ok y /\ get_lexicon ascii_env (b_cut 34) = Ok z /\ x_md5 y <> x_md5 z.
Proof. exact b_accepted. Qed.
(** So a cut is not always noticed. *)
Theorem C104_every_cut_refuted : exists e src a p q x, serialize_lexicon e src = Ok a /\ a = p ++ q /\ q <> [] /\ get_lexicon e p = Ok x.
Proof. exact b_noticed. Qed.
Print Assumptions C104_every_cut_refuted.
(** What follows a compiled lexicon is ignored. *)
Theorem C104_followed : forall e d src a r, serialize_lexicon e src = Ok a -> get_lexicon d (a ++ r) = get_lexicon d a /\ exists x, get_lexicon d a = Ok x.
Proof. exact more_ignored. Qed.
Print Assumptions C104_followed.
Example C104_followed_example : serialize_lexicon ascii_env w_lexicon = Ok b_arch /\ get_lexicon ascii_env (b_arch ++ b_source) = get_lexicon ascii_env b_arch /\
  exists x y, get_lexicon ascii_env b_arch = Ok x /\ get_lexicon ascii_env b_source = Ok y /\ x_lex x <> x_lex y.
Proof. exact b_more. Qed.
(** A text that does not begin as an archive is read as a source and nothing else. *)
Theorem C104_source_only : forall e t, ~ begins_archive t -> get_lexicon e t = load_lexicon e (s2t "query-lex") t.
Proof. exact not_archive. Qed.
Print Assumptions C104_source_only.
Example C104_source_only_example : ~ begins_archive w_lexicon /\ exists x, get_lexicon ascii_env w_lexicon = Ok x.
Proof. exact b_not. Qed.
(** What an archive leaves behind: all of it when it can be read. *)
Theorem C104_left_whole : forall t x, load_archive t = Ok x -> archive_left t = x.
Proof. exact left_whole. Qed.
Print Assumptions C104_left_whole.
Example C104_left_example : exists x, load_archive b_arch = Ok x /\ x_lex x <> [].
Proof. exact b_left. Qed.
(** When it is broken, what was read of it stays and the source that follows is added to it. *)
Theorem C104_kept_entries : forall e t m y, load_archive t = Throw m -> m <> s2t "Re-compile-lexicon" -> load_lexicon e (s2t "query-lex") t = Ok y ->
  x_locale (archive_left t) = [] \/ x_locale y <> [] ->
  exists z, get_lexicon e t = Ok z /\ x_name z = x_name y /\ x_lang z = x_lang y /\ x_locale z = x_locale y /\ x_md5 z = x_md5 y /\
    forall w, lex_find z w = joined (lex_find (archive_left t) w) (lex_find y w).
Proof. exact kept_entries. Qed.
Print Assumptions C104_kept_entries.
Example C104_kept_example : exists m y, load_archive b_broken = Throw m /\ m <> s2t "Re-compile-lexicon" /\ load_lexicon ascii_env query_lex b_broken = Ok y /\
  x_locale y <> [] /\ List.length (lex_find (archive_left b_broken) (s2t "PO BOX")) = 1 /\ List.length (lex_find y (s2t "PO BOX")) = 1.
Proof. exact b_kept. Qed.
(** So such a text does not give the lexicon of its source. *)
Theorem C104_source_alone_refuted : exists e t m x y w, load_archive t = Throw m /\ get_lexicon e t = Ok x /\ load_lexicon e (s2t "query-lex") t = Ok y /\ lex_find x w <> lex_find y w.
Proof. exact b_mixed. Qed.
Print Assumptions C104_source_alone_refuted.
