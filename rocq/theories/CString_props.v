(** Which characters the results are made of, and the C strings they pass through (properties.jsonl C99). *)
From Coq Require Import String List NArith.
From Verif Require Import Base_model Uni_model Utf8_model Float_model Rule_model Search_model Lexicon_model Tokenizer_model Archive_model Wrapper_model CString_model
  CString_spec Sample_model Lexicon_spec WrapperEx_proofs CString_proofs CStringAll_proofs CStringEx_proofs.
Import ListNotations.
Local Open Scope N_scope.

(** Every character of a field comes from the text that is searched or from a standard word of the lexicon, except blanks and full stops. *)
Theorem C99_source : forall e g x locale filt address r, standardize_addr e g x locale filt address = Ok (Some r) ->
  forall t c, In (Some t) (sa_fields r) -> In c t -> source e x locale address c.
Proof. exact sources. Qed.
Print Assumptions C99_source.
Example C99_source_example : exists r t, standardize_addr ascii_env w_g w_x en w_filter w_addr = Ok (Some r) /\ In (Some t) (sa_fields r) /\ t <> [].
Proof. exact source_setting. Qed.
(** A set of characters that contains ASCII without NUL and is kept by the character tables is not left: not by the columns and the
    pattern, nor by the message of an exception. *)
Theorem C99_standardize : forall P e atof address gr lx locale filt, ordinary P -> keeps P e -> made_of P address -> made_of P gr -> made_of P lx ->
  result_of P (address_of P) (std_standardize e atof address gr lx locale filt).
Proof. exact (fun P e atof address gr lx locale filt O K => std_ok P (ordinary_printable P O) e K O atof address gr lx locale filt). Qed.
Print Assumptions C99_standardize.
Example C99_standardize_example : ordinary ascii /\ keeps ascii ascii_env /\ made_of ascii w_addr /\ made_of ascii w_grammar /\ made_of ascii w_lexicon /\
  (exists r, std_standardize ascii_env sample_atof w_addr w_grammar w_lexicon en w_filter = Ok (Some r)) /\
  exists m, std_standardize ascii_env sample_atof w_addr [] w_lexicon en w_filter = Throw m /\ m <> [].
Proof. exact ascii_setting. Qed.
Theorem C99_parse : forall P e address lx locale filt, ordinary P -> keeps P e -> made_of P address -> made_of P lx ->
  result_of P (rows_of P) (std_parse_address e address lx locale filt).
Proof. exact (fun P e address lx locale filt O K => parse_ok P (ordinary_printable P O) e K address lx locale filt). Qed.
Print Assumptions C99_parse.
Example C99_parse_example : ordinary ascii /\ keeps ascii ascii_env /\ made_of ascii w_addr /\ made_of ascii w_lexicon /\
  exists r rows, std_parse_address ascii_env w_addr w_lexicon en w_filter = Ok (r :: rows).
Proof. exact parse_setting. Qed.
Theorem C99_match : forall P e atof sort address gr lx locale filt, ordinary P -> keeps P e -> (forall (l : list mresult) r, In r (sort l) -> In r l) ->
  made_of P address -> made_of P gr -> made_of P lx -> result_of P (matches_of P) (std_match_address e atof sort address gr lx locale filt).
Proof. exact (fun P e atof sort address gr lx locale filt O K => match_ok P (ordinary_printable P O) e K O atof sort address gr lx locale filt). Qed.
Print Assumptions C99_match.
Example C99_match_example : ordinary ascii /\ keeps ascii ascii_env /\ (forall (l : list mresult) r, In r (rev l) -> In r l) /\ made_of ascii w_addr /\ made_of ascii w_grammar /\
  made_of ascii w_lexicon /\ exists r rows, std_match_address ascii_env sample_atof (@rev mresult) w_addr w_grammar w_lexicon en w_filter = Ok (r :: rows).
Proof. exact match_setting. Qed.
Theorem C99_compile : forall P e lx, ordinary P -> keeps P e -> made_of P lx -> result_of P (made_of P) (serialize_lexicon e lx).
Proof. exact (fun P e lx O K => compile_ok P (ordinary_printable P O) e K lx). Qed.
Print Assumptions C99_compile.
Example C99_compile_example : ordinary ascii /\ keeps ascii ascii_env /\ made_of ascii w_lexicon /\ exists t, serialize_lexicon ascii_env w_lexicon = Ok t /\ t <> [].
Proof. exact compile_setting. Qed.
(** What becomes of a text as a C string: what comes before its first NUL. *)
Theorem C99_c_str : forall t, (~ In 0 t <-> c_str t = t) /\ ~ In 0 (c_str t) /\ (In 0 t -> exists r, t = c_str t ++ 0 :: r).
Proof. exact c_str_exact. Qed.
Print Assumptions C99_c_str.
Example C99_c_str_example : In 0 nul_addr /\ c_str nul_addr = w_addr.
Proof. exact (conj (proj1 (proj2 (proj2 nul_setting))) (proj1 (proj2 (proj2 (proj2 nul_setting))))). Qed.
(** On the way back to the caller nothing is cut: only what the arguments say before a NUL counts, and the results arrive as they were made. *)
Theorem C99_not_cut : forall e atof sort address gr lx locale filt, keeps nonzero e -> (forall (l : list mresult) r, In r (sort l) -> In r l) ->
  standardize_c e atof address gr lx locale filt = std_standardize e atof (c_str address) (c_str gr) (c_str lx) (c_str locale) (c_str filt) /\
  parse_c e address lx locale filt = std_parse_address e (c_str address) (c_str lx) (c_str locale) (c_str filt) /\
  match_c e atof sort address gr lx locale filt = std_match_address e atof sort (c_str address) (c_str gr) (c_str lx) (c_str locale) (c_str filt) /\
  compile_c e lx = serialize_lexicon e (c_str lx).
Proof. exact four_same. Qed.
Print Assumptions C99_not_cut.
Example C99_not_cut_example : keeps nonzero ascii_env /\ (forall (l : list mresult) r, In r (rev l) -> In r l) /\ In 0 nul_addr /\ c_str nul_addr = w_addr /\
  (exists r, standardize_c ascii_env sample_atof nul_addr w_grammar w_lexicon en w_filter = Ok (Some r)) /\
  std_standardize ascii_env sample_atof nul_addr w_grammar w_lexicon en w_filter <> standardize_c ascii_env sample_atof nul_addr w_grammar w_lexicon en w_filter.
Proof. exact nul_setting. Qed.
(** Cutting the bytes is cutting the characters. *)
Theorem C99_bytes : forall t b, encode t = Ok b -> encode (c_str t) = Ok (c_str b).
Proof. exact cut_bytes. Qed.
Print Assumptions C99_bytes.
Example C99_bytes_example : encode [48; 233; 0; 97] = Ok [48; 195; 169; 0; 97].
Proof. exact bytes_setting. Qed.
