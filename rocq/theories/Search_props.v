(** Properties of the search (properties.jsonl C01-C13, C58, C59). *)
From Coq Require Import String List NArith ZArith Bool Lia Sorted Floats.SpecFloat.
From Verif Require Import Base_model Class_model Float_model Uni_model Token_model Rule_model Search_model Grammar_model
  Sample_model Search_spec Grammar_spec Loaded_spec Search_proofs Enum_proofs SearchTop_proofs SearchBest_proofs
  Pattern_proofs Loaded_proofs.
Import ListNotations.

(** ** C01 *)
Theorem C01_search_sound : forall g node phrase ps p, is_loaded g ->
  search_node g node phrase = Ok ps -> In p ps ->
  exists k, derives g [node] k (p_rules p) /\ chooses phrase (rule_inputs (p_rules p)).
Proof.
  exact (fun g node phrase ps p H E I =>
    match search_sound g node phrase ps p (loaded_linked g H) E I with
    | ex_intro _ k (conj M _) => ex_intro _ k M end).
Qed.
Print Assumptions C01_search_sound.
Example C01_example : is_loaded sample_g /\
  exists ps p, search_node sample_g ADDRESS sample_phrase = Ok ps /\ List.length ps = 6 /\ In p ps /\
    map r_in (p_rules p) = [[I_NUMBER]; [I_WORD; I_TYPE]; [I_WORD]].
Proof. split; [exact sample_loaded|]. eexists. exists (nth 5 (match search_node sample_g ADDRESS sample_phrase with Ok l => l | _ => [] end) (mkPath [] [] [])).
  split; [vm_compute; reflexivity|]. split; [reflexivity|]. split; [vm_compute; tauto|vm_compute; reflexivity]. Qed.

(** ** C02 *)
Theorem C02_search_complete : forall g node phrase k rs, is_loaded g -> (combinations phrase <= 2 ^ 32)%N ->
  derives g [node] k rs -> chooses phrase (rule_inputs rs) -> k <= List.length phrase + 2 ->
  exists ps p, search_node g node phrase = Ok ps /\ In p ps /\ p_rules p = rs.
Proof. exact (fun g node phrase k rs H C D Ch K => search_complete g node phrase k rs (loaded_linked g H) C (conj D Ch) K). Qed.
Print Assumptions C02_search_complete.
Example C02_example : is_loaded sample_g /\ (combinations sample_phrase <= 2 ^ 32)%N /\
  exists k ps p, search_node sample_g ADDRESS sample_phrase = Ok ps /\ In p ps /\
    derives sample_g [ADDRESS] k (p_rules p) /\ k <= List.length sample_phrase + 2.
Proof.
  split; [exact sample_loaded|]. split; [vm_compute; discriminate|].
  destruct (search_node sample_g ADDRESS sample_phrase) as [[|p ps]| |] eqn:E; try (vm_compute in E; discriminate).
  destruct (search_sound _ _ _ _ p (loaded_linked _ sample_loaded) E (or_introl eq_refl)) as (k & (D & _) & K).
  exists k, (p :: ps), p. simpl. tauto.
Qed.

(** ** C03 *)
Theorem C03_derivable_is_matched_refuted : exists g phrase k rs, is_loaded g /\
  derives g [ADDRESS] k rs /\ chooses phrase (rule_inputs rs) /\ search g phrase = Ok [].
Proof. exact chain_unmatched. Qed.
Print Assumptions C03_derivable_is_matched_refuted.
(** Holds when meta rules have at least two references and rules consume something. *)
Theorem C03_derivable_is_matched_partial : forall g phrase k rs, is_loaded g -> branching_grammar g ->
  (combinations phrase <= 2 ^ 32)%N -> derives g [ADDRESS] k rs -> chooses phrase (rule_inputs rs) ->
  exists ps p, search g phrase = Ok ps /\ In p ps /\ p_rules p = rs.
Proof. exact (fun g phrase k rs H B C D Ch => search_complete_branching g phrase k rs (loaded_linked g H) B C (conj D Ch)). Qed.
Print Assumptions C03_derivable_is_matched_partial.
Example C03_example : is_loaded twice_g /\ branching_grammar twice_g /\ (combinations twice_phrase <= 2 ^ 32)%N /\
  exists k rs, derives twice_g [ADDRESS] k rs /\ chooses twice_phrase (rule_inputs rs).
Proof.
  split; [exact twice_loaded|]. split; [apply branching_b_ok; vm_compute; reflexivity|]. split; [vm_compute; discriminate|].
  destruct (search_node twice_g ADDRESS twice_phrase) as [[|p ps]| |] eqn:E; try (vm_compute in E; discriminate).
  destruct (search_sound _ _ _ _ p (loaded_linked _ twice_loaded) E (or_introl eq_refl)) as (k & (D & C) & K).
  exists k, (p_rules p). tauto.
Qed.

(** ** C04: the search is a total function; out of the two exceptional results of the recursion (call depth exhausted,
    dangling pointer) none occurs, an unknown start section is an exception, and the call depth is bounded. *)
Theorem C04_search_terminates : forall g node phrase, is_loaded g ->
  (In node (section_names g) -> exists ps, search_node g node phrase = Ok ps) /\
  (~ In node (section_names g) -> exists m, search_node g node phrase = Throw m).
Proof. exact (fun g node phrase H => conj (search_defined g node phrase (loaded_linked g H)) (search_throws g node phrase (loaded_linked g H))). Qed.
Print Assumptions C04_search_terminates.
Theorem C04_search_call_depth : forall g w sp pat n depth, width g w ->
  (n + 3) * (w * (n + 3) + 2) + 1 <= depth ->
  do_match depth g (n + 2) sp (mkPath [] [] pat) 0 <> NoFuel /\
  forall more, depth <= more -> do_match more g (n + 2) sp (mkPath [] [] pat) 0 = do_match depth g (n + 2) sp (mkPath [] [] pat) 0.
Proof. exact search_depth. Qed.
Print Assumptions C04_search_call_depth.
Example C04_example : is_loaded sample_g /\ In (s2t "street") (section_names sample_g) /\ ~ In (s2t "nowhere") (section_names sample_g) /\
  width sample_g 3.
Proof.
  split; [exact sample_loaded|]. split; [vm_compute; tauto|]. split; [|apply width_b_ok; vm_compute; reflexivity].
  vm_compute. intros H. repeat (destruct H as [H|H]; [discriminate|]). exact H.
Qed.

(** ** C05 *)
Theorem C05_reclass_faithful : forall g node phrase ps p, is_loaded g ->
  search_node g node phrase = Ok ps -> In p ps ->
  exists ts, reclass_tokens phrase p = Ok (ts, true) /\
    map t_text ts = map t_text phrase /\ map t_std ts = map t_std phrase /\
    map t_att ts = map t_att phrase /\ map t_inlex ts = map t_inlex phrase /\
    map t_in ts = map (fun c => [c]) (rule_inputs (p_rules p)) /\ chooses phrase (rule_inputs (p_rules p)) /\
    map t_out ts = rule_outputs (p_rules p).
Proof. exact (fun g node phrase ps p H => reclass_faithful g node phrase ps p (loaded_linked g H) (loaded_balanced g H)). Qed.
Print Assumptions C05_reclass_faithful.
Example C05_example : is_loaded sample_g /\ exists p ps ts, search_node sample_g ADDRESS sample_phrase2 = Ok (p :: ps) /\
  reclass_tokens sample_phrase2 p = Ok (ts, true) /\ map t_out ts = [O_HOUSE; O_STREET].
Proof. split; [exact sample_loaded|]. do 3 eexists. split; [vm_compute; reflexivity|]. split; vm_compute; reflexivity. Qed.

(** ** C06 *)
Theorem C06_best_match : forall g old phrase ps, is_loaded g -> no_nan_scores g -> sizes_ok g phrase ->
  search g phrase = Ok ps -> ps <> [] ->
  exists p ts nr, first_max (fun p => average32 (p_rules p)) ps p /\
    reclass_tokens phrase p = Ok (ts, true) /\
    search_best1 g old phrase = Ok (mkBest ts (average32 (p_rules p)) (pattern_str ts) nr).
Proof.
  exact (fun g old phrase ps H N S E NE =>
    match best1_some g old phrase ps (loaded_search_ok g H N) S E NE with
    | ex_intro _ p (ex_intro _ ts (ex_intro _ nr (conj A (conj B (conj C _))))) =>
        ex_intro _ p (ex_intro _ ts (ex_intro _ nr (conj A (conj B C)))) end).
Qed.
Print Assumptions C06_best_match.
Example C06_example : is_loaded sample_g /\ no_nan_scores sample_g /\ sizes_ok sample_g sample_phrase /\
  exists b, search_best1 sample_g [] sample_phrase = Ok b /\ b_score b = average32 
   [mkRule [I_NUMBER] [O_HOUSE] (f32_dec 9 1); mkRule [I_WORD; I_TYPE] [O_STREET; O_SUFTYP] (f32_dec 8 1); mkRule [I_WORD] [O_CITY] (f32_dec 6 1)].
Proof.
  split; [exact sample_loaded|]. split; [apply nonan_b_ok; vm_compute; reflexivity|].
  split; [exists 3; split; [apply width_b_ok; vm_compute; reflexivity|vm_compute; reflexivity]|].
  eexists. split; vm_compute; reflexivity.
Qed.

(** ** C07 *)
Theorem C07_best_phrase : forall g phrases, is_loaded g -> no_nan_scores g -> Forall (sizes_ok g) phrases ->
  exists rs b, Forall2 (fun ph r => search_best1 g [] ph = Ok r) phrases rs /\
    search_best g phrases = Ok b /\
    ((exists ph ps, In ph phrases /\ search g ph = Ok ps /\ ps <> []) -> first_max b_score rs b) /\
    ((forall ph, In ph phrases -> search g ph = Ok []) -> b = mkBest [] f32_m1 [] f32_m1).
Proof.
  exact (fun g phrases H N S =>
    match best_all g phrases (loaded_search_ok g H N) S with
    | ex_intro _ rs (ex_intro _ b (conj A (conj B (conj C D)))) =>
        ex_intro _ rs (ex_intro _ b (conj A (conj B (conj (fun x => proj1 (C x)) D)))) end).
Qed.
Print Assumptions C07_best_phrase.
Example C07_example : is_loaded sample_g /\ no_nan_scores sample_g /\
  Forall (sizes_ok sample_g) [sample_nomatch; sample_phrase; sample_phrase2] /\
  search_best sample_g [sample_nomatch; sample_phrase; sample_phrase2] = search_best1 sample_g [] sample_phrase.
Proof.
  split; [exact sample_loaded|]. split; [apply nonan_b_ok; vm_compute; reflexivity|]. split; [|vm_compute; reflexivity].
  repeat constructor; exists 3; (split; [apply width_b_ok; vm_compute; reflexivity|vm_compute; reflexivity]).
Qed.

(** ** C08, at the level of the search: the score is negative exactly when nothing matches. *)
Theorem C08_score_sign : forall g phrases, is_loaded g -> no_nan_scores g -> Forall (sizes_ok g) phrases ->
  exists b, search_best g phrases = Ok b /\
    (SFleb (S754_zero false) (b_score b) = true <-> exists ph ps, In ph phrases /\ search g ph = Ok ps /\ ps <> []).
Proof. exact (fun g phrases H N => best_score_sign g phrases (loaded_search_ok g H N)). Qed.
Print Assumptions C08_score_sign.
Example C08_example : is_loaded sample_g /\ no_nan_scores sample_g /\ Forall (sizes_ok sample_g) [sample_nomatch] /\
  exists b, search_best sample_g [sample_nomatch] = Ok b /\ SFleb (S754_zero false) (b_score b) = false.
Proof.
  split; [exact sample_loaded|]. split; [apply nonan_b_ok; vm_compute; reflexivity|].
  split; [repeat constructor; exists 3; (split; [apply width_b_ok; vm_compute; reflexivity|vm_compute; reflexivity])|].
  eexists. split; vm_compute; reflexivity.
Qed.

(** ** C09 *)
Theorem C09_enumerate_product : forall ts, (combinations ts <= 2 ^ 32)%N ->
  Forall (fun k => StronglySorted class_lt (t_in k)) ts ->
  (forall pat, In pat (enumerate ts) <-> chooses ts pat) /\ NoDup (enumerate ts) /\ StronglySorted lex_lt (enumerate ts).
Proof. exact enumerate_exact. Qed.
Print Assumptions C09_enumerate_product.
Theorem C09_enumerate_no_class : forall ts k, In k ts -> t_in k = [] -> enumerate ts = [].
Proof. exact enumerate_no_class. Qed.
Print Assumptions C09_enumerate_no_class.
Theorem C09_enumerate_empty : enumerate [] = [[]].
Proof. exact enumerate_nil. Qed.
Print Assumptions C09_enumerate_empty.
Example C09_example : (combinations sample_phrase <= 2 ^ 32)%N /\ Forall (fun k => StronglySorted class_lt (t_in k)) sample_phrase /\
  enumerate sample_phrase = [[I_NUMBER; I_WORD; I_WORD; I_WORD]; [I_NUMBER; I_WORD; I_WORD; I_CITY];
                             [I_NUMBER; I_WORD; I_TYPE; I_WORD]; [I_NUMBER; I_WORD; I_TYPE; I_CITY]].
Proof. split; [vm_compute; discriminate|]. split; [|vm_compute; reflexivity].
  repeat constructor. Qed.

(** ** C10 *)
Theorem C10_ambiguous_has_patterns_refuted : exists ts, Forall (fun k => t_in k <> []) ts /\ enumerate ts = [].
Proof. exact enumerate_wraps. Qed.
Print Assumptions C10_ambiguous_has_patterns_refuted.
(** The number of patterns is the number of choices modulo 2^64. *)
Theorem C10_pattern_count : forall ts, N.of_nat (List.length (enumerate ts)) = (combinations ts mod 2 ^ 64)%N.
Proof. exact enumerate_length. Qed.
Print Assumptions C10_pattern_count.
(** Holds for phrases with fewer than 2^64 choices. *)
Theorem C10_ambiguous_has_patterns_partial : forall ts, Forall (fun k => t_in k <> []) ts -> (combinations ts < 2 ^ 64)%N -> enumerate ts <> [].
Proof. exact enumerate_some. Qed.
Print Assumptions C10_ambiguous_has_patterns_partial.
Example C10_example : Forall (fun k => t_in k <> []) sample_phrase /\ (combinations sample_phrase = 4)%N /\ List.length (enumerate sample_phrase) = 4.
Proof. split; [repeat constructor; discriminate|]. split; vm_compute; reflexivity. Qed.

(** ** C11, rows of the full search *)
Theorem C11_all_matches : forall g phrases, is_loaded g ->
  exists found rows, Forall2 (fun ph ps => search g ph = Ok ps) phrases found /\
    search_all g phrases = Ok rows /\
    (List.concat found = [] -> rows = [mkMR (s2t "Failed to match to grammar!") f64_m1 f64_m1]) /\
    (List.concat found <> [] ->
       Forall2 (fun p row => reports (p_rules p) (m_matched row) (m_score row) (m_nrules row)) (List.concat found) rows).
Proof. exact (fun g phrases H => search_all_spec g phrases (loaded_linked g H) (loaded_balanced g H) (loaded_address g H)). Qed.
Print Assumptions C11_all_matches.
Example C11_example : is_loaded sample_g /\ exists rows, search_all sample_g [sample_phrase; sample_nomatch; sample_phrase2] = Ok rows /\
  List.length rows = 7.
Proof. split; [exact sample_loaded|]. eexists. split; vm_compute; reflexivity. Qed.

(** ** C12 *)
Theorem C12_matches_listed_once_refuted : exists g phrase ps ds, is_loaded g /\ search g phrase = Ok ps /\
  (forall ss, matching_derivation g ADDRESS phrase ss -> In ss ds) /\ List.length ds < List.length ps.
Proof. exact twice_listed. Qed.
Print Assumptions C12_matches_listed_once_refuted.
(** The rule sequences listed are the derivable ones within the expansion limit, each at least once. *)
Theorem C12_matches_listed_partial : forall g node phrase ps, is_loaded g -> (combinations phrase <= 2 ^ 32)%N ->
  search_node g node phrase = Ok ps ->
  forall rs, In rs (map p_rules ps) <-> exists k, matches g node phrase k rs /\ k <= List.length phrase + 2.
Proof. exact (fun g node phrase ps H => search_set g node phrase ps (loaded_linked g H)). Qed.
Print Assumptions C12_matches_listed_partial.
Example C12_example : is_loaded sample_g /\ (combinations sample_phrase2 <= 2 ^ 32)%N /\
  exists p, search_node sample_g ADDRESS sample_phrase2 = Ok [p].
Proof. split; [exact sample_loaded|]. split; [vm_compute; discriminate|]. eexists. vm_compute. reflexivity. Qed.

(** ** C13 *)
Theorem C13_pattern_shape : forall g phrase ps p, is_loaded g -> search g phrase = Ok ps -> In p ps ->
  exists ts, reclass_tokens phrase p = Ok (ts, true) /\
    pattern_str ts = join [SP] (pattern_words (rule_inputs (p_rules p)) (rule_outputs (p_rules p))) /\
    List.length (rule_inputs (p_rules p)) = List.length phrase /\
    List.length (rule_outputs (p_rules p)) = List.length phrase.
Proof. exact (fun g phrase ps p H => match_pattern g phrase ps p (loaded_linked g H) (loaded_balanced g H)). Qed.
Print Assumptions C13_pattern_shape.
Theorem C13_pattern_determines : forall ins outs ins' outs',
  join [SP] (pattern_words ins outs) = join [SP] (pattern_words ins' outs') -> ins = ins' /\ outs = outs'.
Proof. exact pattern_join_inj. Qed.
Print Assumptions C13_pattern_determines.
Example C13_example : is_loaded sample_g /\ exists b, search_best1 sample_g [] sample_phrase = Ok b /\
  b_matched b = s2t "NUMBER WORD TYPE WORD -> HOUSE STREET SUFTYP CITY" /\
  b_matched b = join [SP] (pattern_words [I_NUMBER; I_WORD; I_TYPE; I_WORD] [O_HOUSE; O_STREET; O_SUFTYP; O_CITY]).
Proof. split; [exact sample_loaded|]. eexists. split; [vm_compute; reflexivity|]. split; vm_compute; reflexivity. Qed.

(** ** C58 *)
Theorem C58_best_is_top_row_refuted : exists g phrase b rows r1 r2, is_loaded g /\ no_nan_scores g /\ sizes_ok g phrase /\
  search_best g [phrase] = Ok b /\ search_all g [phrase] = Ok rows /\
  rows = [r1; r2] /\ m_matched r1 = b_matched b /\ m_matched r2 <> b_matched b /\
  SFltb (m_score r1) (m_score r2) = true.
Proof. exact close_not_top. Qed.
Print Assumptions C58_best_is_top_row_refuted.
(** The pattern reported is that of a row, and no row has a larger single-precision average. *)
Theorem C58_best_is_row_partial : forall g phrases b rows, is_loaded g -> no_nan_scores g -> Forall (sizes_ok g) phrases ->
  search_best g phrases = Ok b -> SFleb (S754_zero false) (b_score b) = true ->
  search_all g phrases = Ok rows ->
  exists p row found, Forall2 (fun ph ps => search g ph = Ok ps) phrases found /\
    Forall2 (fun p row => reports (p_rules p) (m_matched row) (m_score row) (m_nrules row)) (List.concat found) rows /\
    In p (List.concat found) /\ In row rows /\ reports (p_rules p) (m_matched row) (m_score row) (m_nrules row) /\
    m_matched row = b_matched b /\ b_score b = average32 (p_rules p) /\
    forall q, In q (List.concat found) -> SFltb (b_score b) (average32 (p_rules q)) = false.
Proof. exact (fun g phrases b rows H N => best_is_row g phrases b rows (loaded_search_ok g H N)). Qed.
Print Assumptions C58_best_is_row_partial.
Example C58_example : exists b rows, search_best sample_g [sample_phrase; sample_phrase2] = Ok b /\
  SFleb (S754_zero false) (b_score b) = true /\ search_all sample_g [sample_phrase; sample_phrase2] = Ok rows.
Proof. do 2 eexists. split; [vm_compute; reflexivity|]. split; vm_compute; reflexivity. Qed.

(** ** C59 *)
Theorem C59_match_rule_prefix : forall r p q, match_rule r p = Some q <->
  p_rem p = r_in r ++ p_rem q /\ p_rules q = p_rules p ++ [r] /\ p_next q = p_next p.
Proof. exact match_rule_spec. Qed.
Print Assumptions C59_match_rule_prefix.
Theorem C59_rule_match_prefix : forall r pat, rule_match r pat = true <-> exists rest, pat = r_in r ++ rest.
Proof. exact rule_match_spec. Qed.
Print Assumptions C59_rule_match_prefix.
Example C59_example : rule_match (mkRule [I_WORD; I_TYPE] [O_STREET; O_SUFTYP] f_zero) [I_WORD; I_TYPE; I_CITY] = true /\
  rule_match (mkRule [I_WORD; I_TYPE] [O_STREET; O_SUFTYP] f_zero) [I_WORD; I_CITY] = false /\
  match_rule (mkRule [I_WORD] [O_STREET] f_zero) (mkPath [] [] [I_WORD; I_CITY]) = Some (mkPath [mkRule [I_WORD] [O_STREET] f_zero] [] [I_CITY]).
Proof. vm_compute. auto. Qed.
