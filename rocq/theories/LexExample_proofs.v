(** Concrete lexicons for the examples of Lexicon_props. *)
From Coq Require Import String List NArith Bool Lia.
From Verif Require Import Base_model Class_model Class_spec Uni_model Token_model Lexicon_model Lexicon_spec LexText_spec
  LexMap_proofs Classify_proofs LexLoad_proofs.
Import ListNotations.
Local Open Scope N_scope.

Definition tok (t : text) (s : inset) : token := mkToken t [] s O_BADTOKEN [] false.
(** Everything about classification in one statement. *)
Lemma classify_spec : forall u x k d, let k' := classify u x k d in
  t_in k' <> [] /\
  (forall c0, (In c0 (t_in k) \/ exists le, In le (lex_find x (t_text k)) /\ In c0 (le_type le)) ->
     t_inlex k' = true /\ t_text k' = t_text k /\
     forall c, In c (t_in k') <-> In c (t_in k) \/ exists le, In le (lex_find x (t_text k)) /\ In c (le_type le)) /\
  (t_in k = [] -> (forall le, In le (lex_find x (t_text k)) -> le_type le = []) ->
     t_inlex k' = false /\ exists cls, row_applies (shape_rows u d) (t_text k) cls /\ forall c, In c (t_in k') <-> In c cls).
Proof.
  intros u x k d k'. split; [apply classify_total|]. split; [intros c0 H; exact (classify_listed u x k d c0 H)|].
  intros H1 H2. destruct (classify_unlisted u x k d (conj H1 H2)) as (A & B & _). split; assumption.
Qed.
Lemma classify_text : forall u x k d, t_in k = [] -> (forall le, In le (lex_find x (t_text k)) -> le_type le = []) ->
  let k' := classify u x k d in
  (split_digits u [44; 46] (t_text k) /\ In 44 (t_text k) ->
     exists a b, t_text k = a ++ 44 :: b /\ ~ In 44 a /\ t_text k' = a ++ 46 :: b) /\
  (~ (split_digits u [44; 46] (t_text k) /\ In 44 (t_text k)) -> t_text k' = t_text k).
Proof. intros u x k d H1 H2. exact (proj2 (proj2 (classify_unlisted u x k d (conj H1 H2)))). Qed.
(** Two lexicons without entries for a text agree on it. *)
Lemma shape_only : forall u x y k d, t_in k = [] -> (forall le, In le (lex_find x (t_text k)) -> le_type le = []) ->
  (forall le, In le (lex_find y (t_text k)) -> le_type le = []) -> classify u x k d = classify u y k d.
Proof.
  intros u x y k d H Hx Hy. unfold classify. cbn [set_in t_in].
  assert (Z : forall es s, (forall le, In le es -> le_type le = []) -> fold_left (fun s le => add_all s (le_type le)) es s = s).
  { induction es as [|e es IH]; intros s F; [reflexivity|]. cbn [fold_left]. rewrite (F e (or_introl eq_refl)). apply IH. intros le K. apply F. right. exact K. }
  rewrite !Z by assumption. reflexivity.
Qed.
Lemma short_words_ex : letter_tables ascii_uni /\
  t_in (classify ascii_uni ex_lex (tok (s2t "E") []) I_WORD) = [I_WORD; I_SINGLE] /\
  t_in (classify ascii_uni ex_lex (tok (s2t "NE") []) I_WORD) = [I_WORD; I_DOUBLE].
Proof.
  split; [|split; vm_compute; reflexivity]. split; [|split; reflexivity]. intros c H. cbn [ascii_uni u_alpha u_word u_digit] in *.
  unfold a_word, a_alpha, a_upper, a_lower, a_digit in *. rewrite !orb_true_iff, !andb_true_iff, !andb_false_iff, !N.leb_le, !N.leb_gt in *. lia.
Qed.
Lemma history_ex : let h := [Ins ex_st1; Ins ex_box; Regex; Rem ex_st1; Ins ex_st2; Ins ex_st1; Ins ex_st2] in
  lex_find (run (new_lexicon []) h) (s2t "ST") = [ex_st2; ex_st1] /\ present h ex_st1 /\ ~ present [Ins ex_box; Rem ex_box] ex_box.
Proof.
  split; [vm_compute; reflexivity|]. split.
  - exists [Ins ex_st1; Ins ex_box; Regex; Rem ex_st1; Ins ex_st2], [Ins ex_st2]. split; [reflexivity|]. intros [K|[]]. discriminate.
  - intros (h1 & h2 & E & N). destruct h1 as [|a [|b [|c h1]]]; try discriminate. injection E as <-. apply N. left. reflexivity.
Qed.
Lemma stale_ex : let x := run (new_lexicon []) [Ins ex_st1; Regex; Pre; Suf; Ins ex_box; Rem ex_st1] in
  fst (lex_regex (run (new_lexicon []) [Ins ex_st1])) <> fst (lex_regex x) /\
  fst (lex_regex x) = fst (lex_regex (run (new_lexicon []) [Ins ex_box])).
Proof. split; vm_compute; [discriminate|reflexivity]. Qed.
Lemma print_ex : let x := mkLex (s2t "demo") L_ENG (s2t "en_US") (x_lex ex_lex) [] [] [] [] in
  no_tab (x_name x) /\ one_line (x_name x) /\ no_tab (x_locale x) /\ one_line (x_locale x) /\
  (forall w le, In le (lex_find x w) -> printable ascii_env (x_locale x) le) /\
  lex_find x (s2t "ST") = [ex_st1; ex_st2].
Proof.
  cbv zeta. split; [|split; [|split; [|split; [|split]]]]; try (vm_compute; intros K; repeat (destruct K as [K|K]; [discriminate|]); exact K).
  - exact ex_printable.
  - vm_compute. reflexivity.
Qed.
Lemma newline_ex : (exists h, In h (removelast ex_src) /\ is_header h) /\ last ex_src [] <> [] /\ (forall loc, steady ascii_env loc) /\
  exists x y, load_lexicon ascii_env [] (file (removelast ex_src) (last ex_src [])) = Ok x /\
  load_lexicon ascii_env [] (file (removelast ex_src) (last ex_src [] ++ [10])) = Ok y /\ lex_find x (s2t "PO BOX") = [ex_box] /\ lex_find y (s2t "PO BOX") = [ex_box].
Proof.
  split; [exists (nth 1 ex_src []); split; [vm_compute; tauto|eexists; reflexivity]|]. split; [vm_compute; discriminate|]. split; [exact ascii_steady|].
  eexists. eexists. split; [vm_compute; reflexivity|]. split; [vm_compute; reflexivity|]. split; vm_compute; reflexivity.
Qed.
Lemma bom_ex : ~ is_header (hd [] ex_src) /\ ~ is_entry (hd [] ex_src) /\ ~ is_header (tl (hd [] ex_src)) /\ ~ is_entry (tl (hd [] ex_src)) /\
  exists x, load_lexicon ascii_env [] (0xFEFF :: file ex_src []) = Ok x /\ lex_find x (s2t "PO BOX") = [ex_box].
Proof.
  repeat (split; [intros (t & K); discriminate|]). eexists. split; [vm_compute; reflexivity|]. vm_compute. reflexivity.
Qed.
