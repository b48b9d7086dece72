(** The three SQL functions, from their text arguments to the rows. *)
From Coq Require Import List NArith.
From Verif Require Import Base_model Class_model Float_model Uni_model Token_model Rule_model Search_model Grammar_model Lexicon_model Tokenizer_model Md5_model Archive_model Archive_spec Wrapper_model
  Search_spec Grammar_spec Diagnosis_spec Loaded_spec Lexicon_spec LexText_spec LexFile_spec LexDiag_spec Tokenizer_spec Split_spec Read_spec Address_spec Order_spec Answer_spec.
Import ListNotations.
Local Open Scope N_scope.

(** What every real table of characters says. *)
Definition real_tables (u : uni) : Prop := uni_ok u /\ apart_tables u /\ word_tables u /\ tab_tables u.

(** ** The grammar *)
Definition grammar_of (u : uni) (atof : text -> flt) (gr : text) (g : grammar) : Prop :=
  exists src ms rs, effective gr src /\ means u atof src ms rs /\ closed ms rs /\ In ADDRESS (names_of ms rs) /\ plain (g_metas g) = plain ms /\ g_rules g = rs.
Definition grammar_refused (u : uni) (atof : text -> flt) (gr m : text) : Prop :=
  bad_mark gr m \/ exists src, effective gr src /\
    (Diagnosis_spec.stops u atof (seen_lines src) m \/ exists ms rs, means u atof src ms rs /\ ~ (closed ms rs /\ In ADDRESS (names_of ms rs)) /\ m = report ms rs).

(** ** The lexicon *)
Definition lexicon_of (e : env) (lx : text) (x : lexicon) : Prop :=
  exists lg loc es dg, lexicon_means e lx lg loc es dg /\ x_name x = query_lex /\ x_lang x = lg /\ x_locale x = loc /\
    x_md5 x = md5_hex (bytes_of dg) /\ x_regex x = [] /\ x_pre x = [] /\ x_suf x = [] /\ kept (x_lex x) /\
    forall w, exists sub, of_word w es sub /\ once [] sub (lex_find x w).
(** The argument is the source itself, which does not begin as an archive, or what as_compile_lexicon returns for it. *)
Definition given_as (e : env) (lx arg : text) : Prop :=
  (arg = lx /\ ~ begins_archive lx) \/ serialize_lexicon e lx = Ok arg.

(** ** The address *)
(** The text that is read. *)
Definition reading (e : env) (x : lexicon) (locale address : text) : text := e_upper e (x_locale x) (e_nfc e (e_upper e locale (e_nfc e address))).
(** Words without carets and braces; the text with blank line ends and without characters listed in two cases. *)
Definition readable_with (e : env) (lx locale address : text) : Prop :=
  forall x, lexicon_of e lx x -> simple_words x /\
    let t := reading e x locale address in blank_lines (e_uni e) t /\ case_clear (e_uni e) x t.
(** More than 31 tokens with blanks. *)
Definition crowded (u : uni) (x : lexicon) (filt t : text) : Prop :=
  exists all ks bs a, tokens_are u x t all /\ sifted (fun k => exists c, In c (t_in k) /\ in_list filt c) all ks /\ picked u x ks bs a /\ (31 < List.length bs)%nat.
(** No score is NaN; sizes a machine can represent; at most 2^32 combinations of classes. *)
Definition manageable (e : env) (atof : text -> flt) (gr lx locale filt address : text) : Prop :=
  forall g x phs, grammar_of (e_uni e) atof gr g -> lexicon_of e lx x -> read_address (e_uni e) x filt (reading e x locale address) phs ->
    no_nan_scores g /\ Forall (sizes_ok g) phs /\ Forall (fun ph => combinations ph <= 2 ^ 32) phs.

(** ** The rows *)
Definition row_of (o : option stdaddr) : list (option text) :=
  match o with Some r => sa_fields r ++ [Some (sa_pattern r)] | None => repeat None 17 end.
(** as_standardize: the first of the best matches; nulls if nothing matches or an argument is refused. *)
Definition standardize_row (e : env) (atof : text -> flt) (address gr lx locale filt : text) (row : list (option text)) : Prop :=
  (exists g x phs o, grammar_of (e_uni e) atof gr g /\ lexicon_of e lx x /\ read_address (e_uni e) x filt (reading e x locale address) phs /\
     answer g x phs o /\ row = row_of o) \/
  (((exists m, grammar_refused (e_uni e) atof gr m) \/ exists m, rejection e lx m) /\ row = repeat None 17).
(** as_parse: the tokens of all tokenizations; no rows if the lexicon is refused. *)
Definition parse_rows_of (e : env) (address lx locale filt : text) (rows : list prow) : Prop :=
  (exists x phs, lexicon_of e lx x /\ read_address (e_uni e) x filt (reading e x locale address) phs /\ parse_report phs rows) \/
  ((exists m, rejection e lx m) /\ rows = []).
(** as_match: all matches; no rows if an argument is refused. *)
Definition match_rows_of (e : env) (atof : text -> flt) (address gr lx locale filt : text) (out : list mresult) : Prop :=
  (exists g x phs, grammar_of (e_uni e) atof gr g /\ lexicon_of e lx x /\ read_address (e_uni e) x filt (reading e x locale address) phs /\ match_report g phs out) \/
  (((exists m, grammar_refused (e_uni e) atof gr m) \/ exists m, rejection e lx m) /\ out = []).
