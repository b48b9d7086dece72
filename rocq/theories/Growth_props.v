(** Adding rules to a grammar, and reordering it (src/grammar.cpp, src/search.cpp, src/as_wrapper.cpp). *)
From Coq Require Import String List NArith ZArith Floats.SpecFloat.
From Verif Require Import Base_model Class_model Float_model Token_model Rule_model Search_model Lexicon_model Tokenizer_model Wrapper_model Sample_model Search_spec Loaded_spec Lexicon_spec Wrapper_spec Growth_spec
  WrapperEx_proofs AnswerEx_proofs Growth_proofs.
Import ListNotations.

(** ** C90 *)
(** No match is lost when a grammar grows. *)
Theorem C90_matches_kept : forall g g' node phrase ps p, is_loaded g -> is_loaded g' -> contains g' g -> (combinations phrase <= 2 ^ 32)%N ->
  search_node g node phrase = Ok ps -> In p ps -> exists ps' p', search_node g' node phrase = Ok ps' /\ In p' ps' /\ p_rules p' = p_rules p.
Proof. exact contained_search. Qed.
Print Assumptions C90_matches_kept.
(** The score of the chosen match does not fall. *)
Theorem C90_score : forall g g' phs, is_loaded g -> is_loaded g' -> no_nan_scores g -> no_nan_scores g' -> contains g' g ->
  Forall (sizes_ok g) phs -> Forall (sizes_ok g') phs -> Forall (fun ph => (combinations ph <= 2 ^ 32)%N) phs ->
  exists b b', search_best g phs = Ok b /\ search_best g' phs = Ok b' /\ SFltb (b_score b') (b_score b) = false.
Proof. exact contained_score. Qed.
Print Assumptions C90_score.
(** An address that is standardized stays so. *)
Theorem C90_standardized : forall e g g' x locale filt address phs r, is_loaded g -> is_loaded g' -> no_nan_scores g' -> contains g' g ->
  make_phrases e x locale filt address = Ok phs -> Forall (sizes_ok g') phs -> Forall (fun ph => (combinations ph <= 2 ^ 32)%N) phs ->
  standardize_addr e g x locale filt address = Ok (Some r) -> exists r', standardize_addr e g' x locale filt address = Ok (Some r').
Proof. exact contained_standardized. Qed.
Print Assumptions C90_standardized.
(** The rows of as_match stay, except the one that says that nothing matched. *)
Theorem C90_rows : forall e sort g g' x locale filt address phs out row, is_loaded g -> is_loaded g' -> contains g' g ->
  make_phrases e x locale filt address = Ok phs -> Forall (fun ph => (combinations ph <= 2 ^ 32)%N) phs ->
  (forall rows, search_all g phs = Ok rows \/ search_all g' phs = Ok rows -> sorted_rows rows (sort rows)) ->
  match_addr e sort g x locale filt address = Ok out -> In row out ->
  out = [mkMR (s2t "Failed to match to grammar!"%string) f64_m1 f64_m1] \/ exists out', match_addr e sort g' x locale filt address = Ok out' /\ In row out'.
Proof. exact contained_rows. Qed.
Print Assumptions C90_rows.
(** A larger grammar, for which nothing changes for one address and everything for another. *)
Example C90_example : (is_loaded w_g /\ is_loaded more_g /\ no_nan_scores w_g /\ no_nan_scores more_g /\ contains more_g w_g /\ ~ contains w_g more_g /\
    make_phrases ascii_env w_x en w_filter w_addr = Ok w_phs /\ Forall (sizes_ok w_g) w_phs /\ Forall (sizes_ok more_g) w_phs /\ Forall (fun ph => (combinations ph <= 2 ^ 32)%N) w_phs) /\
  (forall rows, search_all w_g w_phs = Ok rows \/ search_all more_g w_phs = Ok rows -> sorted_rows rows (by_score rows)) /\
  standardize_addr ascii_env w_g w_x en w_filter v_addr = Ok None /\ exists r, standardize_addr ascii_env more_g w_x en w_filter v_addr = Ok (Some r).
Proof. exact (conj more_setting (conj more_rows more_matches)). Qed.
(** The order of sections and rules decides between equally good matches only. *)
Theorem C90_reordered : forall e g g' x locale filt address phs, is_loaded g -> is_loaded g' -> no_nan_scores g -> no_nan_scores g' -> contains g' g -> contains g g' ->
  make_phrases e x locale filt address = Ok phs -> Forall (sizes_ok g) phs -> Forall (sizes_ok g') phs -> Forall (fun ph => (combinations ph <= 2 ^ 32)%N) phs ->
  (exists b b', search_best g phs = Ok b /\ search_best g' phs = Ok b' /\ SFltb (b_score b') (b_score b) = false /\ SFltb (b_score b) (b_score b') = false) /\
  exists o o', standardize_addr e g x locale filt address = Ok o /\ standardize_addr e g' x locale filt address = Ok o' /\ (o = None <-> o' = None).
Proof. exact reordered_same. Qed.
Print Assumptions C90_reordered.
Example C90_reordered_example : is_loaded w_g /\ is_loaded other_g /\ no_nan_scores w_g /\ no_nan_scores other_g /\ contains other_g w_g /\ contains w_g other_g /\ other_g <> w_g /\
  make_phrases ascii_env w_x en w_filter w_addr = Ok w_phs /\ Forall (sizes_ok w_g) w_phs /\ Forall (sizes_ok other_g) w_phs /\ Forall (fun ph => (combinations ph <= 2 ^ 32)%N) w_phs.
Proof. exact other_setting. Qed.
