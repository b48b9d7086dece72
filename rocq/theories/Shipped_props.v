(** Properties of the limit of the search and of the shipped grammars (C81-C83). *)
From Coq Require Import String List NArith ZArith.
From Verif Require Import Base_model Class_model Float_model Uni_model Token_model Rule_model Grammar_model Search_model Sample_model
  Lexicon_spec Wrapper_model Shipped_model Shipped_spec Search_spec Grammar_spec Loaded_spec Excess_spec Shipped_proofs ShippedEx_proofs.
Import ListNotations.

(** ** C81 *)
Theorem C81_limit_harmless : forall g node phrase, is_loaded g -> within_limit g node -> (combinations phrase <= 2 ^ 32)%N ->
  In node (section_names g) ->
  exists ps, search_node g node phrase = Ok ps /\
    forall rs, In rs (map p_rules ps) <-> exists k, derives g [node] k rs /\ chooses phrase (rule_inputs rs).
Proof. exact within_search. Qed.
Print Assumptions C81_limit_harmless.
Example C81_example : is_loaded ireland_g /\ within_limit ireland_g ADDRESS /\ (combinations shortest <= 2 ^ 32)%N /\
  classes (ok_or [] (search ireland_g shortest)) =
  [[([I_NUMBER], [O_HOUSE]); ([I_WORD], [O_STREET]); ([I_WORD], [O_CITY])];
   [([I_NUMBER], [O_HOUSE]); ([I_WORD], [O_STREET]); ([I_WORD], [O_CITY])]].
Proof. exact (conj ireland_loaded (conj ireland_within shortest_found)). Qed.

(** ** C82 *)
Theorem C82_shipped_grammars : forall s, In s shipped_grammars -> exists L, load_sample s = Ok L /\
  no_nan_scores (gl_grammar L) /\ width (gl_grammar L) 5 /\
  forall phrase, (combinations phrase <= 2 ^ 32)%N -> exists ps, search (gl_grammar L) phrase = Ok ps /\
    forall rs, In rs (map p_rules ps) <-> exists k, derives (gl_grammar L) [ADDRESS] k rs /\ chooses phrase (rule_inputs rs).
Proof. exact shipped_search. Qed.
Print Assumptions C82_shipped_grammars.
Example C82_example : In gmr_ireland shipped_grammars /\ List.length shipped_grammars = 25 /\
  std_standardize ascii_env sample_atof (s2t "Kastanievej 15, 2, Agerskov 8660 SKANDERBORG DK") (s2t gmr_denmark)
    (utf8 lex_denmark) (s2t "da") (s2t "PUNCT,SPACE") = Ok (Some denmark_row).
Proof. exact (conj ireland_in (conj eq_refl denmark_call)). Qed.

(** ** C83 *)
Theorem C83_class_names_known_refuted : exists s L, In s shipped_grammars /\ load_sample s = Ok L /\ ~ known_outputs (gl_grammar L).
Proof.
  exact (match austria_bad with ex_intro _ L (ex_intro _ sec (ex_intro _ r (conj E (conj i (conj j b))))) =>
    ex_intro _ gmr_austria (ex_intro _ L (conj austria_in (conj E (fun H => H sec r i j b)))) end).
Qed.
Print Assumptions C83_class_names_known_refuted.
(** What becomes of the word: the unit is in the column for what is left over. *)
Theorem C83_unit_in_unit_column_refuted : exists address r,
  std_standardize ascii_env sample_atof address (s2t gmr_austria) (utf8 lex_austria) (s2t "en") (s2t "PUNCT,SPACE") = Ok (Some r) /\
  address = s2t "Hauptstrasse 12 Wohnung B 1010 Wien Austria" /\
  nth col_unit (sa_fields r) None = Some (s2t "WOHNUNG") /\ nth col_extra (sa_fields r) None = Some (s2t "B").
Proof. exact (ex_intro _ _ (ex_intro _ austria_row (conj austria_call (conj eq_refl (conj eq_refl eq_refl))))). Qed.
Print Assumptions C83_unit_in_unit_column_refuted.
(** All input classes are known, and only two rules have an unknown output class. *)
Theorem C83_class_names_known_partial : forall s, In s shipped_grammars -> exists L, load_sample s = Ok L /\
  known_inputs (gl_grammar L) /\
  forall sec r, In sec (g_rules (gl_grammar L)) -> In r (rs_rules sec) -> In O_BADTOKEN (r_out r) ->
    (r_in r = [I_UNITH; I_WORD] /\ r_out r = [O_UNITH; O_BADTOKEN]) \/
    (r_in r = [I_UNITH; I_NUMBER; I_SINGLE] /\ r_out r = [O_UNITH; O_UNITT; O_BADTOKEN]).
Proof.
  exact (fun s i => match shipped_each s i with ex_intro _ L (conj E (conj _ (conj _ (conj _ (conj A B))))) =>
    ex_intro _ L (conj E (conj A B)) end).
Qed.
Print Assumptions C83_class_names_known_partial.
Example C83_example : In gmr_austria shipped_grammars.
Proof. exact austria_in. Qed.
