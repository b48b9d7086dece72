(** Properties about scores that need not be numbers (properties.jsonl C108; C06, C07, C08, C61 and C62 for all grammars). *)
From Coq Require Import String List NArith ZArith Floats.SpecFloat.
From Verif Require Import Base_model Class_model Float_model Uni_model Token_model Rule_model Search_model Grammar_model Lexicon_model
  Tokenizer_model Wrapper_model Wrapper_spec Sample_model Search_spec Loaded_spec Lexicon_spec LexText_spec Tokenizer_spec
  WrapperTop_proofs WrapperEx_proofs Loaded_proofs Score_model Score_spec Score_proofs ScoreTop_proofs.
Import ListNotations.
Local Open Scope string_scope.

(** ** C108 *)
(** The comparison is what std::sort asks for exactly if no score is missing, or no row is ahead of another. *)
Theorem C108_order : forall rows, strict_weak goes_before rows <->
  (forall r, In r rows -> m_score r <> S754_nan) \/ (forall a b, In a rows -> In b rows -> SFltb (m_score a) (m_score b) = false).
Proof. exact order_exact. Qed.
Print Assumptions C108_order.
(** So it is for the rows of a grammar whose scores are numbers. *)
Theorem C108_rows : forall g phrases rows, is_loaded g -> no_nan_scores g -> Forall (sizes_ok g) phrases ->
  search_all g phrases = Ok rows -> strict_weak goes_before rows.
Proof. exact rows_order. Qed.
Print Assumptions C108_rows.
Example C108_rows_example : is_loaded sample_g /\ no_nan_scores sample_g /\ Forall (sizes_ok sample_g) [sample_phrase] /\
  exists rows, search_all sample_g [sample_phrase] = Ok rows /\ (exists a b, In a rows /\ In b rows /\ goes_before a b = true).
Proof.
  split; [exact sample_loaded|]. split; [apply nonan_b_ok; vm_compute; reflexivity|].
  split; [repeat constructor; exists 3%nat; (split; [apply width_b_ok; vm_compute; reflexivity|vm_compute; reflexivity])|].
  eexists. split; [vm_compute; reflexivity|]. do 2 eexists. split; [right; left; reflexivity|]. split; [left; reflexivity|]. vm_compute. reflexivity.
Qed.
(** It is not for every grammar that can be loaded. *)
Theorem C108_order_refuted : exists g phrases rows, is_loaded g /\ Forall (sizes_ok g) phrases /\ search_all g phrases = Ok rows /\
  ~ strict_weak goes_before rows.
Proof. exact order_fails. Qed.
Print Assumptions C108_order_refuted.

(** ** C06, C07 and C08 whatever the scores are: a score that is not a number counts as zero *)
Theorem C06_always : forall g old phrase ps, is_loaded g -> search g phrase = Ok ps -> ps <> [] ->
  exists p ts, first_max (fun p => counted (average32 (p_rules p))) ps p /\ reclass_tokens phrase p = Ok (ts, true) /\
    search_best1 g old phrase = Ok (mkBest ts (counted (average32 (p_rules p))) (pattern_str ts)
      (if SFltb (S754_zero false) (average32 (p_rules p)) then binary_normalize 24 128 (Z.of_nat (List.length (p_rules p))) 0 false else f32_m1)).
Proof. exact choice_some. Qed.
Print Assumptions C06_always.
Example C06_always_example : is_loaded odd_g /\ ~ no_nan_scores odd_g /\ exists b, search_best1 odd_g [] close_phrase = Ok b /\
  b_matched b = s2t "NUMBER WORD -> HOUSE PROV" /\ b_score b = f32_dec 9 1.
Proof.
  split; [exact odd_loaded|]. split; [exact odd_nan|].
  eexists. split; [vm_compute; reflexivity|]. split; vm_compute; reflexivity.
Qed.
Theorem C07_always : forall g phrases, is_loaded g ->
  exists rs b, Forall2 (fun ph r => search_best1 g [] ph = Ok r) phrases rs /\ search_best g phrases = Ok b /\
    ((exists ph ps, In ph phrases /\ search g ph = Ok ps /\ ps <> []) -> first_max b_score rs b) /\
    ((forall ph, In ph phrases -> search g ph = Ok []) -> b = mkBest [] f32_m1 [] f32_m1) /\
    (forall ph ps p, In ph phrases -> search g ph = Ok ps -> In p ps -> SFltb (b_score b) (counted (average32 (p_rules p))) = false).
Proof. exact choice_phrase. Qed.
Print Assumptions C07_always.
Theorem C08_always : forall g phrases, is_loaded g ->
  exists b, search_best g phrases = Ok b /\
   (SFleb (S754_zero false) (b_score b) = true <-> exists ph ps, In ph phrases /\ search g ph = Ok ps /\ ps <> []).
Proof. exact choice_sign. Qed.
Print Assumptions C08_always.
Example C07_C08_always_example : is_loaded bare_g /\ ~ no_nan_scores bare_g /\
  exists b, search_best bare_g [close_phrase] = Ok b /\ b_score b = S754_zero false /\ b_nrules b = f32_m1.
Proof. split; [exact bare_loaded|]. split; [exact (proj1 bare_row)|]. eexists. split; [vm_compute; reflexivity|]. split; reflexivity. Qed.

(** ** C61 and C62 whatever the scores are *)
Theorem C61_always : forall e g x locale filt address r phrases, is_loaded g ->
  make_phrases e x locale filt address = Ok phrases -> standardize_addr e g x locale filt address = Ok (Some r) ->
  exists ph k rs ws, In ph phrases /\ derives g [ADDRESS] k rs /\ chooses ph (rule_inputs rs) /\ (k <= List.length ph + 2)%nat /\
    standards x ph (rule_inputs rs) ws /\
    sa_fields r = map (fun c => content c (combine (rule_outputs rs) ws)) columns /\
    sa_pattern r = join [SP] (pattern_words (rule_inputs rs) (rule_outputs rs)) /\
    forall ph' k' rs', In ph' phrases -> (combinations ph' <= 2 ^ 32)%N -> derives g [ADDRESS] k' rs' -> chooses ph' (rule_inputs rs') ->
      (k' <= List.length ph' + 2)%nat -> SFltb (counted (average32 rs)) (counted (average32 rs')) = false.
Proof. exact row_any. Qed.
Print Assumptions C61_always.
Theorem C62_always : forall e g x locale filt address, is_loaded g -> built x -> simple_words x ->
  blank_lines (e_uni e) (search_text e x (prepared e locale address)) ->
  exists ks, get_tokens e (mkTz x (as_type filt)) (prepared e locale address) = Ok ks /\
    ((phrases ks <= 31)%nat -> exists alts o, get_alt_tokens (e_uni e) x ks = Ok alts /\ standardize_addr e g x locale filt address = Ok o /\
        (o <> None -> exists ph k rs, In ph (ks :: alts) /\ matches g ADDRESS ph k rs) /\
        (o = None -> forall ph k rs, In ph (ks :: alts) -> (combinations ph <= 2 ^ 32)%N -> (k <= List.length ph + 2)%nat -> ~ matches g ADDRESS ph k rs)).
Proof. exact answer_any. Qed.
Print Assumptions C62_always.
Example C61_C62_always_example : is_loaded bare_g /\ ~ no_nan_scores bare_g /\ built w_x /\ simple_words w_x /\
  standardize_addr ascii_env bare_g w_x en w_filter (s2t "12 Foo") =
  Ok (Some (mkStd [None; Some (s2t "12"); None; None; None; None; None; None; None; None; Some (s2t "FOO"); None; None; None; None; None] (s2t "NUMBER WORD -> HOUSE CITY"))).
Proof. exact (conj bare_loaded (conj (proj1 bare_row) (conj w_x_built (conj w_x_simple (proj2 bare_row))))). Qed.
