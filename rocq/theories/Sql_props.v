(** Properties of the results of the SQL functions by the names of their columns (properties.jsonl C103). *)
From Coq Require Import String List NArith Floats.SpecFloat.
From Verif Require Import Base_model Class_model Float_model Uni_model Token_model Rule_model Search_model Grammar_model Lexicon_model
  Tokenizer_model Archive_model Wrapper_model Wrapper_spec Sample_model Lexicon_spec WrapperEx_proofs Sql_model Sql_spec Sql_proofs.
Import ListNotations.

(** ** C103 *)
Theorem C103_standardize : forall e atof address gr lx locale filt o,
  sql_standardize e atof (map Some [address; gr; lx; locale; filt]) = Ok o <->
  (exists g x phrases b ks, get_grammar e atof gr = Ok g /\ get_lexicon e lx = Ok x /\ make_phrases e x locale filt address = Ok phrases /\
     search_best g phrases = Ok b /\ SFleb (S754_zero false) (b_score b) = true /\ Forall2 (fun k k' => standardize_word x k = Ok k') (b_tokens b) ks /\
     o = Some (standardized_tuple (placed ks) (b_matched b))) \/
  ((std_standardize e atof address gr lx locale filt = Ok None \/ exists m, std_standardize e atof address gr lx locale filt = Throw m) /\ o = Some null_tuple).
Proof. exact sql_standardize_rows. Qed.
Print Assumptions C103_standardize.
(** Forming the tuple never goes wrong. *)
Theorem C103_defined : forall e atof address gr lx locale filt,
  (sql_standardize e atof (map Some [address; gr; lx; locale; filt]) = UB <-> std_standardize e atof address gr lx locale filt = UB) /\
  forall m, sql_standardize e atof (map Some [address; gr; lx; locale; filt]) <> Throw m.
Proof. exact sql_standardize_defined. Qed.
Print Assumptions C103_defined.
Theorem C103_parse : forall e address lx locale filt, sql_parse e (map Some [address; lx; locale; filt]) =
  match std_parse_address e address lx locale filt with Ok rows => Ok (map parse_tuple rows) | Throw _ => Ok [] | UB => UB end.
Proof. exact sql_parse_rows. Qed.
Print Assumptions C103_parse.
Theorem C103_match : forall e atof sort address gr lx locale filt, sql_match e atof sort (map Some [address; gr; lx; locale; filt]) =
  match std_match_address e atof sort address gr lx locale filt with Ok rows => Ok (map match_tuple rows) | Throw _ => Ok [] | UB => UB end.
Proof. exact sql_match_rows. Qed.
Print Assumptions C103_match.
Theorem C103_null_argument : forall e atof sort args, In None args ->
  sql_standardize e atof args = Ok None /\ sql_parse e args = Ok [] /\ sql_match e atof sort args = Ok [].
Proof. exact strict_nulls. Qed.
Print Assumptions C103_null_argument.
Theorem C103_other_arguments : forall e atof sort ts,
  (List.length ts <> 5%nat -> sql_standardize e atof (map Some ts) = Throw (s2t "function does not exist") /\ sql_match e atof sort (map Some ts) = Throw (s2t "function does not exist")) /\
  (List.length ts <> 4%nat -> sql_parse e (map Some ts) = Throw (s2t "function does not exist")).
Proof. exact other_arguments. Qed.
Print Assumptions C103_other_arguments.
(** The number of rules, which the C function stores as a third value, does not reach the caller. *)
Theorem C103_rules_refuted : exists e atof sort address g1 g2 lx locale filt r1 r2,
  std_match_address e atof sort address g1 lx locale filt = Ok [r1] /\ std_match_address e atof sort address g2 lx locale filt = Ok [r2] /\ m_nrules r1 <> m_nrules r2 /\
  sql_match e atof sort (map Some [address; g1; lx; locale; filt]) = sql_match e atof sort (map Some [address; g2; lx; locale; filt]).
Proof. exact rules_hidden. Qed.
Print Assumptions C103_rules_refuted.
Example C103_example : exists t, sql_standardize ascii_env sample_atof (map Some [w_addr; w_grammar; w_lexicon; en; w_filter]) = Ok (Some t) /\
  In (s2t "house_num", Some (D_text (s2t "12"))) t /\ In (s2t "name", Some (D_text (s2t "MAIN"))) t /\ In (s2t "box", Some (D_text (s2t "PO BOX 7"))) t /\
  In (s2t "city", None) t.
Proof. exact sql_example. Qed.
Example C103_parse_example : sql_parse ascii_env (map Some [q_addr; w_lexicon; en; w_filter]) =
  Ok [[(s2t "pat", Some (D_int 1)); (s2t "seq", Some (D_int 1)); (s2t "word", Some (D_text (s2t "12"))); (s2t "inclass", Some (D_text (s2t "NUMBER"))); (s2t "attached", Some (D_text []))];
      [(s2t "pat", Some (D_int 1)); (s2t "seq", Some (D_int 2)); (s2t "word", Some (D_text (s2t "MAIN"))); (s2t "inclass", Some (D_text (s2t "WORD"))); (s2t "attached", Some (D_text []))]]%N.
Proof. exact sql_rows_example. Qed.
(** A tuple is formed exactly from at least as many values as columns, each of the type of its column; anything else is undefined. *)
Theorem C103_tuple : forall cols values, (forall t, form_tuple cols values = Ok t <->
    exists used more, values = used ++ more /\ Forall2 (fun c v => has_type (snd c) v) cols used /\ t = combine (map fst cols) used) /\
  ((exists t, form_tuple cols values = Ok t) \/ form_tuple cols values = UB).
Proof. exact tuple_all. Qed.
Print Assumptions C103_tuple.
Example C103_tuple_example : (exists t, form_tuple match_columns (match_values fail_row) = Ok t /\ List.length t = 2%nat) /\ form_tuple match_columns (rev (match_values fail_row)) = UB /\
  form_tuple match_columns [Some (D_text (s2t "x"))] = UB.
Proof. split; [eexists; split; [vm_compute; reflexivity|reflexivity]|]. split; vm_compute; reflexivity. Qed.
