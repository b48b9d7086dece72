(** The results of the functions by the names of their columns. *)
From Coq Require Import String List NArith.
From Verif Require Import Base_model Class_model Search_model Wrapper_model Wrapper_spec Sql_model.
Import ListNotations.

Definition title (c : column) : text :=
  s2t match c with
      | building => "building" | house_num => "house_num" | predir => "predir" | qual => "qual" | pretype => "pretype"
      | name => "name" | suftype => "suftype" | sufdir => "sufdir" | ruralroute => "ruralroute" | extra => "extra"
      | city => "city" | prov => "prov" | country => "country" | postcode => "postcode" | box => "box" | unit_no => "unit"
      end.
Definition pattern_title : text := s2t "pattern".
(** The row for words with their output classes, and the row of NULLs. *)
Definition standardized_tuple (l : list (outtype * text)) (pattern : text) : tuple :=
  map (fun c => (title c, option_map D_text (content c l))) columns ++ [(pattern_title, Some (D_text pattern))].
Definition null_tuple : tuple := map (fun c => (title c, None)) columns ++ [(pattern_title, None)].
Definition parse_tuple (r : prow) : tuple :=
  [(s2t "pat", Some (D_int (pr_pat r + 1))); (s2t "seq", Some (D_int (pr_seq r + 1))); (s2t "word", Some (D_text (pr_word r)));
   (s2t "inclass", Some (D_text (pr_class r))); (s2t "attached", Some (D_text (pr_att r)))]%N.
Definition match_tuple (r : mresult) : tuple := [(s2t "tokens", Some (D_text (m_matched r))); (s2t "score", Some (D_float (m_score r)))].
(** A value of a type; NULL is one of each. *)
Inductive has_type : sqltype -> option datum -> Prop :=
| ht_null : forall t, has_type t None
| ht_text : forall w, has_type T_text (Some (D_text w))
| ht_integer : forall n, has_type T_integer (Some (D_int n))
| ht_float : forall f, has_type T_float (Some (D_float f)).
