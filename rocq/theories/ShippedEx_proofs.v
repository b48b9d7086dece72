(** Examples with shipped data. *)
From Coq Require Import String List NArith ZArith Lia Bool.
From Verif Require Import Base_model Class_model Float_model Uni_model Token_model Rule_model Grammar_model Search_model Sample_model
  Lexicon_model Lexicon_spec Archive_model Wrapper_model Shipped_model Shipped_spec Search_spec Grammar_spec Loaded_spec Excess_spec
  Search_proofs SearchTop_proofs Loaded_proofs Excess_proofs Shipped_proofs.
Import ListNotations.

Definition ok_or {A} (d : A) (o : outcome A) : A := match o with Ok x => x | _ => d end.
Lemma ok_or_ok : forall A (o : outcome A) d, (match o with Ok _ => true | _ => false end) = true -> o = Ok (ok_or d o).
Proof. intros A [x| |] d H; try discriminate H. reflexivity. Qed.
Definition ireland_g : grammar := grammar_of (load_sample gmr_ireland).
Lemma ireland_in : In gmr_ireland shipped_grammars.
Proof. unfold shipped_grammars. do 10 right. left. reflexivity. Qed.
Lemma austria_in : In gmr_austria shipped_grammars.
Proof. unfold shipped_grammars. do 2 right. left. reflexivity. Qed.
Lemma ireland_loaded : is_loaded ireland_g.
Proof.
  exists ascii_uni, sample_atof, (s2t gmr_ireland), (ok_or (mkLoaded (mkGrammar [] [] []) CHECK_OK []) (load_sample gmr_ireland)).
  split; [apply ascii_uni_ok|]. split; [apply ok_or_ok; vm_cast_no_check (eq_refl true)|].
  unfold ireland_g. destruct (load_sample gmr_ireland); reflexivity.
Qed.
Lemma ireland_within : within_limit ireland_g ADDRESS.
Proof. apply within_b_ok. vm_cast_no_check (eq_refl true). Qed.
(** Number, word, word: five meta rules are replaced for three tokens. *)
Definition shortest : list token := [tk "12" [I_NUMBER]; tk "QUAY" [I_WORD]; tk "CORK" [I_WORD]].
Definition classes (ps : list spath) := map (fun p => map (fun r => (r_in r, r_out r)) (p_rules p)) ps.
Lemma shortest_found : (combinations shortest <= 2 ^ 32)%N /\
  classes (ok_or [] (search ireland_g shortest)) =
  [[([I_NUMBER], [O_HOUSE]); ([I_WORD], [O_STREET]); ([I_WORD], [O_CITY])];
   [([I_NUMBER], [O_HOUSE]); ([I_WORD], [O_STREET]); ([I_WORD], [O_CITY])]].
Proof. split; [vm_compute; discriminate|]. vm_compute. reflexivity. Qed.

(** Whole calls. *)
Definition call (gr lx locale a : string) : option stdaddr :=
  ok_or None (std_standardize ascii_env sample_atof (s2t a) (s2t gr) (utf8 lx) (s2t locale) (s2t "PUNCT,SPACE")).
Lemma call_ok : forall gr lx locale a r, call gr lx locale a = Some r ->
  std_standardize ascii_env sample_atof (s2t a) (s2t gr) (utf8 lx) (s2t locale) (s2t "PUNCT,SPACE") = Ok (Some r).
Proof. intros gr lx locale a r. unfold call. destruct std_standardize as [[x|]| |]; cbn [ok_or]; congruence. Qed.
Definition f (s : string) : option text := Some (s2t s).
Definition denmark_row : stdaddr := mkStd
  [None; f "15"; None; None; None; f "KASTANIE"; f "VEJ"; None; None; f "AGERSKOV"; f "SKANDERBORG"; None; f "DENMARK"; f "8660"; None; f "2"]
  (s2t "WORD TYPE NUMBER NUMBER WORD QUAD WORD NATION -> STREET SUFTYP HOUSE UNITT EXTRA POSTAL CITY NATION").
Lemma denmark_call : std_standardize ascii_env sample_atof (s2t "Kastanievej 15, 2, Agerskov 8660 SKANDERBORG DK") (s2t gmr_denmark)
  (utf8 lex_denmark) (s2t "da") (s2t "PUNCT,SPACE") = Ok (Some denmark_row).
Proof. apply call_ok. vm_cast_no_check (eq_refl (Some denmark_row)). Qed.
Definition austria_row : stdaddr := mkStd
  [None; f "12"; None; None; None; f "HAUPT"; f "STRASSE"; None; None; f "B"; f "WIEN"; None; f "AUSTRIA"; f "1010"; None; f "WOHNUNG"]
  (s2t "WORD TYPE NUMBER UNITH WORD QUAD WORD NATION -> STREET SUFTYP HOUSE UNITH BADTOKEN POSTAL CITY NATION").
Lemma austria_call : std_standardize ascii_env sample_atof (s2t "Hauptstrasse 12 Wohnung B 1010 Wien Austria") (s2t gmr_austria)
  (utf8 lex_austria) (s2t "en") (s2t "PUNCT,SPACE") = Ok (Some austria_row).
Proof. apply call_ok. vm_cast_no_check (eq_refl (Some austria_row)). Qed.
Definition unit_rule (g : grammar) : bool :=
  existsb (fun sec => existsb misspelled_b (rs_rules sec)) (g_rules g).
Lemma austria_bad : exists L sec r, load_sample gmr_austria = Ok L /\ In sec (g_rules (gl_grammar L)) /\ In r (rs_rules sec) /\
  In O_BADTOKEN (r_out r).
Proof.
  destruct (load_sample gmr_austria) as [L| |] eqn:E.
  - assert (K : unit_rule (grammar_of (load_sample gmr_austria)) = true) by (vm_cast_no_check (eq_refl true)).
    rewrite E in K. cbn [grammar_of] in K. unfold unit_rule in K. apply existsb_exists in K. destruct K as (sec & I & K).
    apply existsb_exists in K. destruct K as (r & J & K). exists L, sec, r. repeat split; auto.
    destruct (misspelled_b_ok r K) as [(_ & ->)|(_ & ->)]; cbn; tauto.
  - exfalso. assert (K : (match load_sample gmr_austria with Ok _ => true | _ => false end) = true) by (vm_cast_no_check (eq_refl true)).
    rewrite E in K. discriminate K.
  - exfalso. assert (K : (match load_sample gmr_austria with Ok _ => true | _ => false end) = true) by (vm_cast_no_check (eq_refl true)).
    rewrite E in K. discriminate K.
Qed.
