(** Accuracy of scores (C72, C73, and the score of C69). *)
From Coq Require Import String List NArith ZArith QArith Floats.SpecFloat.
From Verif Require Import Base_model Class_model Float_model Uni_model Token_model Rule_model Search_model Grammar_model Lexicon_model Tokenizer_model
  Wrapper_model Wrapper_spec Sample_model Search_spec Grammar_spec Loaded_spec Lexicon_spec Tokenizer_spec FloatAcc_spec
  WrapperEx_proofs FloatAvg_proofs FloatTop_proofs.
Import ListNotations.
Local Open Scope Q_scope.

(** ** C69: the score of a concatenation is the average of the two *)
Theorem C69_score : forall a b, usual_score (r_score a) -> usual_score (r_score b) ->
  accurate 24 3 (r_score (rule_concat a b)) ((fval (r_score a) + fval (r_score b)) * (1#2)).
Proof. exact concat_score. Qed.
Print Assumptions C69_score.
Example C69_score_example : usual_score (f32_dec 1 1) /\ usual_score (f32_dec 3 1) /\
  fval (r_score (rule_concat (mkRule [I_NUMBER] [O_HOUSE] (f32_dec 1 1)) (mkRule [I_WORD] [O_CITY] (f32_dec 3 1)))) == 13421773 # 67108864.
Proof. split; [apply usual_b_ok; vm_compute; reflexivity|]. split; [apply usual_b_ok; vm_compute; reflexivity|]. vm_compute. reflexivity. Qed.

(** ** C72 *)
(** The average that decides, in single precision: one rounding per rule. *)
Theorem C72_single : forall p, p_rules p <> [] -> (Z.of_nat (List.length (p_rules p)) <= 2 ^ 20)%Z -> usual_scores (p_rules p) ->
  accurate 24 (List.length (p_rules p)) (avg32 p) (exact_average (p_rules p)).
Proof. exact (fun p => accurate32 (p_rules p)). Qed.
Print Assumptions C72_single.
(** The average as_match reports, in double precision. *)
Theorem C72_double : forall p, p_rules p <> [] -> (Z.of_nat (List.length (p_rules p)) <= 2 ^ 20)%Z -> usual_scores (p_rules p) ->
  accurate 53 (List.length (p_rules p)) (avg64 p) (exact_average (p_rules p)).
Proof. exact (fun p => accurate64 (p_rules p)). Qed.
Print Assumptions C72_double.
(** What this means for the relative error. *)
Theorem C72_error : forall prec n f x, (24 <= prec)%Z -> (Z.of_nat n <= 2 ^ 20)%Z -> 0 <= x -> accurate prec n f x ->
  (1 - 2 * inject_Z (Z.of_nat n) * p2 (- prec)) * x <= fval f <= (1 + 2 * inject_Z (Z.of_nat n) * p2 (- prec)) * x.
Proof. exact accurate_error. Qed.
Print Assumptions C72_error.
(** The average of equal scores need not be that score. *)
Theorem C72_equal_scores_refuted : exists f rs, usual_score f /\ (forall r, In r rs -> r_score r = f) /\ rs <> [] /\
  SFltb (average32 rs) f = true.
Proof. exact equal_missed. Qed.
Print Assumptions C72_equal_scores_refuted.
Example C72_example : usual_scores f_rules1 /\ f_rules1 <> [] /\
  fval (avg32 (mkPath f_rules1 [] [])) == 15658736 # 67108864 /\
  fval (avg64 (mkPath f_rules1 [] [])) == 8406719429694805 # 36028797018963968 /\
  exact_average f_rules1 == 93952411 # 402653184.
Proof.
  split; [unfold f_rules1, usual_scores; repeat constructor; apply usual_b_ok; vm_compute; reflexivity|]. split; [discriminate|].
  split; [vm_compute; reflexivity|]. split; vm_compute; reflexivity.
Qed.

(** ** C73 *)
(** The row of as_standardize is not always from the match with the highest average. *)
Theorem C73_exact_best_refuted : exists e g x locale filt address r ph k rs k' rs', is_loaded g /\ usual_grammar g /\
  make_phrases e x locale filt address = Ok [ph] /\ standardize_addr e g x locale filt address = Ok (Some r) /\
  derives g [ADDRESS] k rs /\ chooses ph (rule_inputs rs) /\ sa_pattern r = join [SP] (pattern_words (rule_inputs rs) (rule_outputs rs)) /\
  derives g [ADDRESS] k' rs' /\ chooses ph (rule_inputs rs') /\ sa_pattern r <> join [SP] (pattern_words (rule_inputs rs') (rule_outputs rs')) /\
  exact_average rs < exact_average rs'.
Proof. exact exact_missed. Qed.
Print Assumptions C73_exact_best_refuted.
(** It is up to the rounding errors of the two averages. *)
Theorem C73_nearly_best_partial : forall e g x locale filt address r phrases, is_loaded g -> usual_grammar g -> Forall (sizes_ok g) phrases ->
  make_phrases e x locale filt address = Ok phrases -> standardize_addr e g x locale filt address = Ok (Some r) ->
  exists ph k rs ws, In ph phrases /\ derives g [ADDRESS] k rs /\ chooses ph (rule_inputs rs) /\ (k <= List.length ph + 2)%nat /\
    standards x ph (rule_inputs rs) ws /\
    sa_fields r = map (fun c => content c (combine (rule_outputs rs) ws)) columns /\
    sa_pattern r = join [SP] (pattern_words (rule_inputs rs) (rule_outputs rs)) /\
    ((Z.of_nat (List.length rs) <= 2 ^ 20)%Z ->
    forall ph' k' rs', In ph' phrases -> (combinations ph' <= 2 ^ 32)%N -> derives g [ADDRESS] k' rs' -> chooses ph' (rule_inputs rs') ->
      (k' <= List.length ph' + 2)%nat -> (Z.of_nat (List.length rs') <= 2 ^ 20)%Z ->
      (1 - p2 (-24)) ^ Z.of_nat (List.length rs') * exact_average rs' <= (1 + p2 (-24)) ^ Z.of_nat (List.length rs) * exact_average rs).
Proof. exact row_best_exact. Qed.
Print Assumptions C73_nearly_best_partial.
Example C73_example : is_loaded f_g /\ usual_grammar f_g /\ Forall (sizes_ok f_g) f_phrases /\ make_phrases ascii_env w_x en w_filter (s2t "12 Main St") = Ok f_phrases /\
  exists r, standardize_addr ascii_env f_g w_x en w_filter (s2t "12 Main St") = Ok (Some r).
Proof. split; [exact f_g_loaded|]. split; [exact f_g_usual|]. split; [exact f_sizes|]. split; [exact f_phrases_ok|]. eexists. exact f_row. Qed.
