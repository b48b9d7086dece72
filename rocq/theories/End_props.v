(** The SQL functions, from their text arguments to the rows (src/as_wrapper.cpp, src/address_standardizer.c). *)
From Coq Require Import String List NArith.
From Verif Require Import Base_model Float_model Uni_model Search_model Lexicon_model Grammar_model Tokenizer_model Archive_model Wrapper_model Sample_model
  Lexicon_spec LexDiag_spec Wrapper_spec Address_spec Answer_spec End_spec WrapperEx_proofs AnswerEx_proofs End_proofs EndEx_proofs.
Import ListNotations.

(** ** C87 *)
(** as_standardize, for a lexicon given as its source or compiled. *)
Theorem C87_standardize : forall e atof address gr lx arg locale filt row, real_tables (e_uni e) -> given_as e lx arg -> readable_with e lx locale address ->
  manageable e atof gr lx locale filt address ->
  (address_row (std_standardize e atof address gr arg locale filt) = Ok row <-> standardize_row e atof address gr lx locale filt row).
Proof. exact (fun e atof address gr lx arg locale filt row A B C D => proj1 (standardize_end e atof address gr lx arg locale filt A B C D) row). Qed.
Print Assumptions C87_standardize.
(** When its behaviour is undefined, and what an exception says. *)
Theorem C87_standardize_undefined : forall e atof address gr lx arg locale filt, real_tables (e_uni e) -> given_as e lx arg -> readable_with e lx locale address ->
  manageable e atof gr lx locale filt address ->
  (std_standardize e atof address gr arg locale filt = UB <->
     exists g x, grammar_of (e_uni e) atof gr g /\ lexicon_of e lx x /\ crowded (e_uni e) x filt (reading e x locale address)).
Proof. exact (fun e atof address gr lx arg locale filt A B C D => proj2 (standardize_end e atof address gr lx arg locale filt A B C D)). Qed.
Print Assumptions C87_standardize_undefined.
Theorem C87_standardize_message : forall e atof address gr lx arg locale filt m, real_tables (e_uni e) -> given_as e lx arg -> readable_with e lx locale address ->
  manageable e atof gr lx locale filt address ->
  (std_standardize e atof address gr arg locale filt = Throw m <->
     grammar_refused (e_uni e) atof gr m \/ ((exists g, grammar_of (e_uni e) atof gr g) /\ rejection e lx m)).
Proof. exact standardize_message. Qed.
Print Assumptions C87_standardize_message.
Example C87_example : real_tables ascii_uni /\ given_as ascii_env w_lexicon w_lexicon /\ given_as ascii_env w_lexicon w_archive /\ readable_with ascii_env w_lexicon en w_addr /\
  manageable ascii_env sample_atof w_grammar w_lexicon en w_filter w_addr /\
  std_standardize ascii_env sample_atof w_addr w_grammar w_lexicon en w_filter =
  Ok (Some (mkStd [None; some "12"; None; None; None; some "MAIN"; some "STREET"; None; None; None; None; None; None; None; some "PO BOX 7"; None]
                  (s2t "NUMBER WORD TYPE BOXH NUMBER -> HOUSE STREET SUFTYP BOXH BOXT"))).
Proof. exact (conj ascii_real (conj w_given (conj w_given_compiled (conj w_readable (conj w_manageable w_call))))). Qed.
Example C87_undefined_example : given_as ascii_env w_lexicon w_lexicon /\ readable_with ascii_env w_lexicon en u_addr /\ manageable ascii_env sample_atof w_grammar w_lexicon en w_filter u_addr /\
  std_standardize ascii_env sample_atof u_addr w_grammar w_lexicon en w_filter = UB.
Proof. exact (conj w_given (conj u_readable (conj u_manageable u_call))). Qed.
Example C87_message_example : given_as ascii_env [] [] /\ readable_with ascii_env [] en w_addr /\ manageable ascii_env sample_atof w_grammar [] en w_filter w_addr /\
  std_standardize ascii_env sample_atof w_addr w_grammar [] en w_filter = Throw (s2t "Lexicon-Invalid-File-Format").
Proof. exact (conj no_given (conj no_readable (conj no_manageable no_call))). Qed.

(** as_parse. *)
Theorem C87_parse : forall e address lx arg locale filt, real_tables (e_uni e) -> given_as e lx arg -> readable_with e lx locale address ->
  (forall rows, parse_table (std_parse_address e address arg locale filt) = Ok rows <-> parse_rows_of e address lx locale filt rows) /\
  (std_parse_address e address arg locale filt = UB <-> exists x, lexicon_of e lx x /\ crowded (e_uni e) x filt (reading e x locale address)) /\
  (forall m, std_parse_address e address arg locale filt = Throw m <-> rejection e lx m).
Proof. exact parse_end. Qed.
Print Assumptions C87_parse.

(** as_match, for any sort that puts larger scores first. *)
Theorem C87_match : forall e atof sort address gr lx arg locale filt, real_tables (e_uni e) -> given_as e lx arg -> readable_with e lx locale address ->
  manageable e atof gr lx locale filt address ->
  (forall g x phs rows, get_grammar e atof gr = Ok g -> lexicon_of e lx x -> read_address (e_uni e) x filt (reading e x locale address) phs -> search_all g phs = Ok rows -> sorted_rows rows (sort rows)) ->
  (forall out, match_table (std_match_address e atof sort address gr arg locale filt) = Ok out -> match_rows_of e atof address gr lx locale filt out) /\
  (std_match_address e atof sort address gr arg locale filt = UB <->
     exists g x, grammar_of (e_uni e) atof gr g /\ lexicon_of e lx x /\ crowded (e_uni e) x filt (reading e x locale address)) /\
  (forall m, std_match_address e atof sort address gr arg locale filt = Throw m <->
     grammar_refused (e_uni e) atof gr m \/ ((exists g, grammar_of (e_uni e) atof gr g) /\ rejection e lx m)).
Proof. exact match_end. Qed.
Print Assumptions C87_match.
Example C87_match_example : given_as ascii_env w_lexicon w_lexicon /\ readable_with ascii_env w_lexicon en v_addr /\ manageable ascii_env sample_atof w_grammar3 w_lexicon en w_filter v_addr /\
  (forall g x phs rows, get_grammar ascii_env sample_atof w_grammar3 = Ok g -> lexicon_of ascii_env w_lexicon x ->
    read_address ascii_uni x w_filter (reading ascii_env x en v_addr) phs -> search_all g phs = Ok rows -> sorted_rows rows (by_score rows)) /\
  exists r1 r2, std_match_address ascii_env sample_atof by_score v_addr w_grammar3 w_lexicon en w_filter = Ok [r1; r2] /\
    m_matched r1 = s2t "NUMBER WORD -> POSTAL CITY" /\ m_matched r2 = s2t "NUMBER WORD -> HOUSE STREET".
Proof. exact (conj w_given (conj v_readable (conj v_manageable (conj v_sorts v_call)))). Qed.
