(** The C strings between src/address_standardizer.c, src/std_pg_hash.c and src/as_wrapper.cpp: every text that crosses this border is
    a [char *] and ends before its first NUL. *)
From Coq Require Import List NArith Bool.
From Verif Require Import Base_model Float_model Rule_model Search_model Lexicon_model Archive_model Wrapper_model.
Import ListNotations.
Local Open Scope N_scope.

(** What [strdup(s.c_str())] copies, and what [std::string(const char * )] takes over. *)
Fixpoint c_str (t : text) : text :=
  match t with
  | [] => []
  | c :: t' => if c =? 0 then [] else c :: c_str t'
  end.
(** Results: [f] copies a value; a message passes [strdup(e.what())], src/as_wrapper.cpp:87, 91, 275, 279, 333, 337, 396, 400, 449, 453,
    513, 517, 674, 678. *)
Definition out_c {A B} (f : A -> B) (r : outcome A) : outcome B :=
  match r with Ok a => Ok (f a) | Throw m => Throw (c_str m) | UB => UB end.

(** The seventeen calls of strdup, src/as_wrapper.cpp:202-266. *)
Definition stdaddr_c (a : stdaddr) : stdaddr := mkStd (map (option_map c_str) (sa_fields a)) (c_str (sa_pattern a)).
(** std_standardize, src/as_wrapper.cpp:52-98, with its char pointers. *)
Definition standardize_c (e : env) (atof : text -> flt) (address gr lx locale filt : text) : outcome (option stdaddr) :=
  out_c (option_map stdaddr_c) (std_standardize e atof (c_str address) (c_str gr) (c_str lx) (c_str locale) (c_str filt)).
(** std_parse_address, src/as_wrapper.cpp:302-344, 382-384. *)
Definition prow_c (r : prow) : prow := mkRow (pr_pat r) (pr_seq r) (c_str (pr_word r)) (c_str (pr_class r)) (c_str (pr_att r)).
Definition parse_c (e : env) (address lx locale filt : text) : outcome (list prow) :=
  out_c (map prow_c) (std_parse_address e (c_str address) (c_str lx) (c_str locale) (c_str filt)).
(** std_match_address, src/as_wrapper.cpp:414-460, 502. *)
Definition mresult_c (r : mresult) : mresult := mkMR (c_str (m_matched r)) (m_score r) (m_nrules r).
Definition match_c (e : env) (atof : text -> flt) (sort : list mresult -> list mresult) (address gr lx locale filt : text)
  : outcome (list mresult) :=
  out_c (map mresult_c) (std_match_address e atof sort (c_str address) (c_str gr) (c_str lx) (c_str locale) (c_str filt)).
(** serialize_lexicon, src/as_wrapper.cpp:641-682. *)
Definition compile_c (e : env) (lx : text) : outcome text := out_c c_str (serialize_lexicon e (c_str lx)).
