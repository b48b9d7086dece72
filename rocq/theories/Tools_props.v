(** Properties of the scripts in tools/ (properties.jsonl C117, C118). *)
From Coq Require Import String List NArith Bool.
From Verif Require Import Base_model LexFile_spec ShippedLex_model ShippedLex_spec Tools_model Tools_spec Tools_proofs.
Import ListNotations.
Local Open Scope N_scope.

(** ** C117 *)
(** The script written for the sample data: the statements around the rows, and for every lexicon with a grammar one insert of exactly
    the two texts, whatever quotes and semicolons are in them. *)
Theorem C117_script : forall create dataset fs, unquoted dataset -> Forall (fun f => unquoted (ff_country f) /\ unquoted (country_code (ff_lex f))) fs ->
  exists ins, Forall2 (fun f st => exists g, ff_gmr f = Some g /\ forall vs, inserts st vs <-> vs = row_of dataset f g)
                (filter (fun f => match ff_gmr f with Some _ => true | None => false end) fs) ins /\
    statements false (load_script create dataset fs) = opening create fs ++ ins ++ closing.
Proof. exact script_split. Qed.
Print Assumptions C117_script.
Example C117_script_example :
  let f := mkFound (s2t "france") (s2t "LEXICON:" ++ 9 :: s2t "x" ++ 9 :: s2t "FRE" ++ 9 :: s2t "fr_FR" ++ 10 :: s2t "# l'avenue; d''ici" ++ [10]) (Some (s2t "[ADDRESS]; '")) in
  unquoted (s2t "sample") /\ unquoted (ff_country f) /\ unquoted (country_code (ff_lex f)) /\ country_code (ff_lex f) = s2t "fr" /\
  List.length (statements false (load_script true (s2t "sample") [f; mkFound (s2t "spain") [] None])) = 10%nat.
Proof.
  cbv zeta. assert (U : forall t, forallb (fun c => negb (c =? 39)) t = true -> unquoted t).
  { intros t F I. rewrite forallb_forall in F. apply F in I. discriminate I. }
  split; [apply U; reflexivity|]. split; [apply U; reflexivity|]. split; [apply U; vm_compute; reflexivity|]. split; vm_compute; reflexivity.
Qed.
(** The name of a lexicon file is not quoted: with an apostrophe in it the script falls apart. *)
Theorem C117_country_refuted : exists dataset f, unquoted dataset /\ unquoted (country_code (ff_lex f)) /\ ff_gmr f <> None /\
  forall st, statements false (load_script false dataset [f]) <> opening false [f] ++ [st] ++ closing.
Proof. exact ivory_refutes. Qed.
Print Assumptions C117_country_refuted.
(** The code of a lexicon. *)
Theorem C117_code : forall t code, country_code t = code <-> code_of t code.
Proof. exact code_exactly. Qed.
Print Assumptions C117_code.
(** A comment that mentions the mark is taken for a header too, and its columns come first. *)
Example C117_code_example : code_of (s2t "LEXICON:" ++ 9 :: s2t "Name" ++ 9 :: s2t "ENG" ++ 9 :: s2t "en_GB" ++ 9 :: 10 :: s2t "LEXENTRY:" ++ 9 :: s2t "ST" ++ [10]) (s2t "gb") /\
  code_of (s2t "# LEXICON: of" ++ 9 :: s2t "x" ++ 10 :: s2t "LEXICON:" ++ 9 :: s2t "Name" ++ 9 :: s2t "ENG" ++ 9 :: s2t "en_GB" ++ [10]) (s2t "eng").
Proof. split; apply C117_code; vm_compute; reflexivity. Qed.
(** The country codes of the sample data. *)
Theorem C117_codes : Forall2 (fun ps code => forall t, text_of ps t -> country_code t = code) shipped_lexicons shipped_codes.
Proof. exact codes_shipped. Qed.
Print Assumptions C117_codes.
(** They do not name one lexicon each: that of the Vatican has the code of Italy. *)
Theorem C117_codes_refuted : exists ps ps' t t', In ps shipped_lexicons /\ In ps' shipped_lexicons /\ text_of ps t /\ text_of ps' t' /\ t <> t' /\ country_code t = country_code t'.
Proof. exact codes_twice. Qed.
Print Assumptions C117_codes_refuted.

(** ** C118 *)
(** What compare-lexicon writes: nothing as soon as the first lexicon has an entry. *)
Theorem C118_compare : forall a b ea eb, entry_lines a ea -> entry_lines b eb ->
  compare_lexicon a b = Some (match ea with [] => concat (map (fun l => l ++ [10]) eb) | _ => [] end).
Proof. exact compare_exactly. Qed.
Print Assumptions C118_compare.
Example C118_compare_example : entry_lines cmp_a [s2t "LEXENTRY:" ++ 9 :: s2t "ST" ++ 9 :: s2t "STREET" ++ 9 :: s2t "TYPE"] /\ entry_lines cmp_b [cmp_line] /\
  compare_lexicon cmp_a cmp_b = Some [] /\ compare_lexicon (s2t "LEXICON: none") cmp_b = Some (cmp_line ++ [10]).
Proof. split; [exact cmp_a_lines|]. split; [exact cmp_b_lines|]. split; vm_compute; reflexivity. Qed.
Theorem C118_compare_refuted : exists a b ea eb, entry_lines a ea /\ entry_lines b eb /\
  forall out, compare_lexicon a b = Some (concat (map (fun l => l ++ [10]) out)) -> ~ compares ea eb out.
Proof. exact compare_wrong. Qed.
Print Assumptions C118_compare_refuted.
