(** The functions as declared to PostgreSQL: src/address_standardizer2--2.0.sql.in, and the tuples built by src/address_standardizer.c. *)
From Coq Require Import String List NArith Bool.
From Verif Require Import Base_model Float_model Uni_model Rule_model Search_model Grammar_model Lexicon_model Lexicon_spec Tokenizer_model Archive_model Wrapper_model.
Import ListNotations.
Local Open Scope N_scope.

(** The types used (float is float8), and values of them (Int32GetDatum, CStringGetTextDatum, Float8GetDatum); NULL is [None]. *)
Inductive sqltype := T_text | T_integer | T_float.
Inductive datum := D_text (t : text) | D_int (n : N) | D_float (f : flt).
Definition of_type (t : sqltype) (d : option datum) : bool :=
  match d, t with
  | None, _ | Some (D_text _), T_text | Some (D_int _), T_integer | Some (D_float _), T_float => true
  | _, _ => false
  end.
Definition tuple := list (text * option datum).

(** heap_form_tuple: as many values as the tuple descriptor has columns.  Reading behind the array of values, or a value as one of
    another type, is undefined. *)
Fixpoint form_tuple (cols : list (text * sqltype)) (values : list (option datum)) : outcome tuple :=
  match cols, values with
  | [], _ => Ok []
  | _ :: _, [] => UB
  | (n, t) :: cols', v :: vs => if of_type t v then obind (form_tuple cols' vs) (fun r => Ok ((n, v) :: r)) else UB
  end.

(** The OUT columns: src/address_standardizer2--2.0.sql.in:9-35, 44-57, 59-70. *)
Definition text_column (s : string) : text * sqltype := (s2t s, T_text).
Definition standardize_columns : list (text * sqltype) :=
  map text_column ["building"; "house_num"; "predir"; "qual"; "pretype"; "name"; "suftype"; "sufdir"; "ruralroute"; "extra"; "city";
                   "prov"; "country"; "postcode"; "box"; "unit"; "pattern"]%string.
Definition parse_columns : list (text * sqltype) :=
  [(s2t "pat", T_integer); (s2t "seq", T_integer); text_column "word"; text_column "inclass"; text_column "attached"].
Definition match_columns : list (text * sqltype) := [text_column "tokens"; (s2t "score", T_float)].

(** LANGUAGE 'c' STABLE STRICT: not called with a NULL argument; then the result is NULL or no rows. *)
Definition strict {A} (null : A) (f : list text -> A) (args : list (option text)) : A :=
  if forallb (fun a => match a with Some _ => true | None => false end) args
  then f (flat_map (fun a => match a with Some t => [t] | None => [] end) args) else null.
(** A call with another number of arguments finds no function. *)
Definition no_function {A} : outcome A := Throw (s2t "function does not exist").

(** as_standardize, src/address_standardizer.c:181-282 (BuildTupleFromCStrings is heap_form_tuple after the input functions of the
    types, which for text keep the string). *)
Definition sql_standardize (e : env) (atof : text -> flt) : list (option text) -> outcome (option tuple) :=
  strict (Ok None) (fun ts =>
    match ts with
    | [address; gr; lx; locale; filt] =>
        obind (address_row (std_standardize e atof address gr lx locale filt)) (fun row =>
        obind (form_tuple standardize_columns (map (option_map D_text) row)) (fun t => Ok (Some t)))
    | _ => no_function
    end).
(** as_parse, src/address_standardizer.c:390-410. *)
Definition parse_values (r : prow) : list (option datum) :=
  [Some (D_int (pr_pat r)); Some (D_int (pr_seq r)); Some (D_text (pr_word r)); Some (D_text (pr_class r)); Some (D_text (pr_att r))].
Definition sql_parse (e : env) : list (option text) -> outcome (list tuple) :=
  strict (Ok []) (fun ts =>
    match ts with
    | [address; lx; locale; filt] =>
        obind (parse_table (std_parse_address e address lx locale filt)) (omap (fun r => form_tuple parse_columns (parse_values r)))
    | _ => no_function
    end).
(** as_match, src/address_standardizer.c:527-540. *)
Definition match_values (r : mresult) : list (option datum) :=
  [Some (D_text (m_matched r)); Some (D_float (m_score r)); Some (D_float (m_nrules r))].
Definition sql_match (e : env) (atof : text -> flt) (sort : list mresult -> list mresult) : list (option text) -> outcome (list tuple) :=
  strict (Ok []) (fun ts =>
    match ts with
    | [address; gr; lx; locale; filt] =>
        obind (match_table (std_match_address e atof sort address gr lx locale filt)) (omap (fun r => form_tuple match_columns (match_values r)))
    | _ => no_function
    end).
