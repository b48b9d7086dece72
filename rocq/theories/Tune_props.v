(** C114: changing the scores of a grammar. *)
From Coq Require Import String List NArith ZArith Floats.SpecFloat.
From Verif Require Import Base_model Class_model Class_spec Float_model Token_model Rule_model Uni_model Lexicon_model Wrapper_model Search_spec Lexicon_spec Tokenizer_spec Wrapper_spec Split_spec Loaded_spec Read_spec Address_spec Order_spec Answer_spec Tune_spec
  WrapperEx_proofs AnswerEx_proofs Tune_proofs TuneEx_proofs.
Import ListNotations.

(** The scores do not decide what matches: the matches of the two grammars correspond, rule by rule. *)
Theorem C114_same_matches : forall g g' phs i m, rescored g g' -> candidate g phs i m -> exists m', candidate g' phs i m' /\ counterpart g g' m m'.
Proof. exact same_matches. Qed.
Print Assumptions C114_same_matches.
Example C114_same_example : exists i m m', rescored g_first g_lower /\ candidate g_first [v_ph] i m /\ candidate g_lower [v_ph] i m' /\ counterpart g_first g_lower m m' /\ l_rules m' <> l_rules m.
Proof. exact same_example. Qed.

(** Lowering scores of rules which the answer does not use changes nothing. *)
Theorem C114_lower_unused : forall g g' phs i m, is_loaded g -> float_scores g -> Forall (sizes_ok g) phs -> is_loaded g' -> float_scores g' -> rescored g g' -> first_best g phs i m ->
  (forall a b, becomes g g' a b -> b = a \/ (~ In a (l_rules m) /\ at_most (r_score b) (r_score a))) -> first_best g' phs i m.
Proof. exact kept. Qed.
Print Assumptions C114_lower_unused.
Example C114_lower_example : exists i m, is_loaded g_first /\ float_scores g_first /\ Forall (sizes_ok g_first) [v_ph] /\ is_loaded g_lower /\ float_scores g_lower /\ rescored g_first g_lower /\
  first_best g_first [v_ph] i m /\ rule_outputs (l_rules m) = [O_POSTAL; O_CITY] /\
  (forall a b, becomes g_first g_lower a b -> b = a \/ (~ In a (l_rules m) /\ at_most (r_score b) (r_score a))) /\
  exists a b, becomes g_first g_lower a b /\ b <> a.
Proof. exact lower_example. Qed.

(** The same for the row of as_standardize. *)
Theorem C114_same_row : forall e g g' x locale filt address phs i m, is_loaded g -> float_scores g -> built x -> simple_words x -> apart_tables (e_uni e) -> word_tables (e_uni e) ->
  let t := e_upper e (x_locale x) (e_nfc e (e_upper e locale (e_nfc e address))) in blank_lines (e_uni e) t -> case_clear (e_uni e) x t -> tabs_apart (e_uni e) x ->
  read_address (e_uni e) x filt t phs -> Forall (sizes_ok g) phs -> Forall (fun ph => (combinations ph <= 2 ^ 32)%N) phs ->
  is_loaded g' -> float_scores g' -> rescored g g' -> first_best g phs i m ->
  (forall a b, becomes g g' a b -> b = a \/ (~ In a (l_rules m) /\ at_most (r_score b) (r_score a))) ->
  standardize_addr e g' x locale filt address = standardize_addr e g x locale filt address.
Proof. exact kept_row. Qed.
Print Assumptions C114_same_row.
Example C114_row_example : exists i m, (built w_x /\ simple_words w_x /\ apart_tables ascii_uni /\ word_tables ascii_uni /\ blank_lines ascii_uni v_text /\ case_clear ascii_uni w_x v_text /\ tabs_apart ascii_uni w_x) /\
  read_address ascii_uni w_x w_filter v_text [v_ph] /\ Forall (fun ph => (combinations ph <= 2 ^ 32)%N) [v_ph] /\ first_best g_first [v_ph] i m /\
  (forall a b, becomes g_first g_lower a b -> b = a \/ (~ In a (l_rules m) /\ at_most (r_score b) (r_score a))) /\
  exists r, standardize_addr ascii_env g_lower w_x en w_filter v_addr = Ok (Some r) /\ sa_pattern r = s2t "NUMBER WORD -> POSTAL CITY"%string.
Proof. exact row_example. Qed.

(** Changing scores of rules which the answer does not use: if the answer changes, the new one uses a changed rule. *)
Theorem C114_change_unused : forall g g' phs i m i' m', is_loaded g -> Forall (fun ph => (combinations ph <= 2 ^ 32)%N) phs ->
  Forall (Forall (fun k => is_inset (t_in k))) phs -> rescored g g' -> first_best g phs i m -> first_best g' phs i' m' ->
  (forall a b, becomes g g' a b -> In a (l_rules m) -> b = a) ->
  (i' = i /\ m' = m) \/ exists a b, In b (l_rules m') /\ becomes g g' a b /\ b <> a.
Proof. exact raised. Qed.
Print Assumptions C114_change_unused.
Example C114_change_example : exists i m i' m', is_loaded g_first /\ Forall (fun ph => (combinations ph <= 2 ^ 32)%N) [v_ph] /\ Forall (Forall (fun k => is_inset (t_in k))) [v_ph] /\ rescored g_first g_higher /\
  first_best g_first [v_ph] i m /\ first_best g_higher [v_ph] i' m' /\ (forall a b, becomes g_first g_higher a b -> In a (l_rules m) -> b = a) /\
  rule_outputs (l_rules m) = [O_POSTAL; O_CITY] /\ rule_outputs (l_rules m') = [O_HOUSE; O_STREET].
Proof. exact other_example. Qed.

(** Raising a rule far enough (to 2^25, the others being at most one) makes the one match that uses it the answer. *)
Theorem C114_raise_enough : forall g g' phs i m a, is_loaded g -> float_scores g -> Forall (sizes_ok g) phs -> Forall (fun ph => (combinations ph <= 2 ^ 32)%N) phs ->
  Forall (Forall (fun k => is_inset (t_in k))) phs -> is_loaded g' -> float_scores g' -> rescored g g' ->
  (forall sec r, In sec (g_rules g) -> In r (rs_rules sec) -> at_most (r_score r) float_one) ->
  (forall i' m', candidate g phs i' m' -> (Z.of_nat (List.length (l_rules m')) <= 2 ^ 24)%Z) ->
  only_user g phs i m a -> only_changes g g' a -> (forall b, becomes g g' a b -> at_most float_2_25 (r_score b)) ->
  exists m', counterpart g g' m m' /\ first_best g' phs i m'.
Proof. exact raise_enough. Qed.
Print Assumptions C114_raise_enough.
Example C114_raise_example : exists i m a, (is_loaded g_first /\ float_scores g_first /\ Forall (sizes_ok g_first) [v_ph] /\ Forall (fun ph => (combinations ph <= 2 ^ 32)%N) [v_ph] /\
    Forall (Forall (fun k => is_inset (t_in k))) [v_ph]) /\ is_loaded g_higher /\ float_scores g_higher /\ rescored g_first g_higher /\
  (forall sec r, In sec (g_rules g_first) -> In r (rs_rules sec) -> at_most (r_score r) float_one) /\
  (forall i' m', candidate g_first [v_ph] i' m' -> (Z.of_nat (List.length (l_rules m')) <= 2 ^ 24)%Z) /\
  only_user g_first [v_ph] i m a /\ only_changes g_first g_higher a /\ (forall b, becomes g_first g_higher a b -> at_most float_2_25 (r_score b)) /\ ~ first_best g_first [v_ph] i m.
Proof. exact higher_example. Qed.

(** But no score up to one, the documented range, need be enough. *)
Theorem C114_raise_in_range_refuted : exists g phs i m a, (is_loaded g /\ float_scores g /\ Forall (sizes_ok g) phs /\ Forall (fun ph => (combinations ph <= 2 ^ 32)%N) phs /\ Forall (Forall (fun k => is_inset (t_in k))) phs) /\
  (forall sec r, In sec (g_rules g) -> In r (rs_rules sec) -> at_most (r_score r) float_one) /\ only_user g phs i m a /\
  forall g' m', is_loaded g' -> float_scores g' -> rescored g g' -> only_changes g g' a -> (forall b, becomes g g' a b -> at_most (r_score b) float_one) ->
    counterpart g g' m m' -> ~ first_best g' phs i m'.
Proof. exact not_within_range. Qed.
Print Assumptions C114_raise_in_range_refuted.

(** And raising a rule of the right answer can replace that answer by another one. *)
Theorem C114_raise_used_refuted : exists g g' phs i m i' m' a, is_loaded g /\ float_scores g /\ is_loaded g' /\ float_scores g' /\ rescored g g' /\ first_best g phs i m /\ In a (l_rules m) /\
  only_changes g g' a /\ (forall b, becomes g g' a b -> at_most (r_score a) (r_score b)) /\ first_best g' phs i' m' /\ rule_outputs (l_rules m') <> rule_outputs (l_rules m).
Proof. exact raise_used. Qed.
Print Assumptions C114_raise_used_refuted.
