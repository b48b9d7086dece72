(** Properties of class names, class lists and printed tokens (properties.jsonl C34, C35, C54). *)
From Coq Require Import String List NArith ZArith Sorting.Sorted.
From Verif Require Import Base_model Class_model Token_model Class_spec Class_proofs.
Import ListNotations.
Local Open Scope N_scope.

(** ** C34 *)
Theorem C34_names_round_trip :
  (forall c, as_one_type (in_str c) = c) /\ (forall c, out_as_type (out_str c) = c) /\
  (forall l, as_lang (s2t (lang_code l)) = l) /\ (forall l, as_lang (s2t (lang_name l)) = l) /\
  (forall c, in_of_code (in_code c) = c) /\ (forall c, out_of_code (out_code c) = c).
Proof. exact names_round. Qed.
Print Assumptions C34_names_round_trip.
Theorem C34_sets_round_trip :
  (forall s, is_inset s -> as_type (iset_str s) = s) /\ (forall s, is_attset s -> as_attach (aset_str s) = s).
Proof. exact sets_round. Qed.
Print Assumptions C34_sets_round_trip.
Theorem C34_other_strings : forall s,
  ((forall c, s <> in_str c) -> as_one_type s = I_BADTOKEN) /\
  ((forall c, s <> out_str c) -> out_as_type s = O_BADTOKEN) /\
  ((forall l, s <> s2t (lang_code l) /\ s <> s2t (lang_name l)) -> as_lang s = L_UNKNOWN).
Proof. exact other_strings. Qed.
Print Assumptions C34_other_strings.
Example C34_example : is_inset [I_NUMBER; I_WORD; I_QUAD] /\ iset_str [I_NUMBER; I_WORD; I_QUAD] = s2t "NUMBER,WORD,QUAD" /\
  as_type (s2t "QUAD,WORD,NUMBER,WORD") = [I_NUMBER; I_WORD; I_QUAD] /\ is_attset [DET_PRE; ATT_SUF] /\
  as_one_type (s2t "number") = I_BADTOKEN.
Proof. repeat split; repeat constructor. Qed.

(** ** C35 *)
Theorem C35_blanks_harmless_refuted : exists ns ps, Forall no_comma ns /\ Forall2 padded ns ps /\
  as_type (join [44] ps) <> as_type (join [44] ns).
Proof. exact blank_piece. Qed.
Print Assumptions C35_blanks_harmless_refuted.
(** Holds when blanks are only added around names that contain something else than blanks; missing is the
    blank after a last comma (an empty name). *)
Theorem C35_blanks_harmless_partial : forall ns ps, Forall no_comma ns ->
  Forall2 (fun n p => p = n \/ (visible n /\ padded n p)) ns ps ->
  as_type (join [44] ps) = as_type (join [44] ns).
Proof. exact blanks_harmless. Qed.
Print Assumptions C35_blanks_harmless_partial.
Example C35_example : Forall no_comma [s2t "WORD"; s2t "TYPE"] /\
  Forall2 (fun n p => p = n \/ (visible n /\ padded n p)) [s2t "WORD"; s2t "TYPE"] [s2t "WORD"; s2t "  TYPE "] /\
  as_type (s2t "WORD,  TYPE ") = [I_WORD; I_TYPE].
Proof. exact blanks_example. Qed.

(** ** C54 *)
Theorem C54_token_round_trip : forall k,
  no_tab (t_text k) -> no_tab (t_std k) -> is_inset (t_in k) -> is_attset (t_att k) ->
  let k' := token_of_text (token_str k) in
  t_text k' = t_text k /\ t_std k' = t_std k /\ t_in k' = t_in k /\ t_out k' = t_out k /\ t_att k' = t_att k.
Proof. exact token_round_fields. Qed.
Print Assumptions C54_token_round_trip.
Example C54_example : let k := mkToken (s2t "TOKEN:") (s2t "ST") [I_WORD; I_TYPE] O_STREET [DET_SUF] true in
  no_tab (t_text k) /\ no_tab (t_std k) /\ is_inset (t_in k) /\ is_attset (t_att k) /\
  t_text (token_of_text (token_str k)) = s2t "TOKEN:".
Proof. exact token_example. Qed.
