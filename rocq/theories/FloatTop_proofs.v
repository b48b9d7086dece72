(** Accuracy of the scores that decide and that are reported. *)
From Coq Require Import String List NArith ZArith Bool Lia QArith Qpower Lqa Floats.SpecFloat.
From Verif Require Import Base_model Class_model Float_model Uni_model Token_model Rule_model Search_model Grammar_model Lexicon_model Tokenizer_model
  Wrapper_model Wrapper_spec Sample_model Search_spec Grammar_spec Loaded_spec Lexicon_spec Tokenizer_spec FloatAcc_spec
  Float_proofs SearchTop_proofs Loaded_proofs WrapperTop_proofs WrapperEx_proofs FloatRound_proofs FloatAcc_proofs FloatAvg_proofs.
Import ListNotations.
Local Open Scope Q_scope.

Lemma usual_not_nan : forall g, usual_grammar g -> no_nan_scores g.
Proof. intros g U sec r H K E. destruct (U sec r H K) as (m & e & Em & _). rewrite E in Em. discriminate Em. Qed.
Lemma derives_usual : forall g names k rs, usual_grammar g -> derives g names k rs -> usual_scores rs.
Proof. intros g names k rs U D. eapply derives_rules; [|exact D]. exact U. Qed.

Lemma row_best_exact : forall e g x locale filt address r phrases, is_loaded g -> usual_grammar g -> Forall (sizes_ok g) phrases ->
  make_phrases e x locale filt address = Ok phrases -> standardize_addr e g x locale filt address = Ok (Some r) ->
  exists ph k rs ws, In ph phrases /\ derives g [ADDRESS] k rs /\ chooses ph (rule_inputs rs) /\ (k <= List.length ph + 2)%nat /\
    standards x ph (rule_inputs rs) ws /\
    sa_fields r = map (fun c => content c (combine (rule_outputs rs) ws)) columns /\
    sa_pattern r = join [SP] (pattern_words (rule_inputs rs) (rule_outputs rs)) /\
    ((Z.of_nat (List.length rs) <= 2 ^ 20)%Z ->
    forall ph' k' rs', In ph' phrases -> (combinations ph' <= 2 ^ 32)%N -> derives g [ADDRESS] k' rs' -> chooses ph' (rule_inputs rs') ->
      (k' <= List.length ph' + 2)%nat -> (Z.of_nat (List.length rs') <= 2 ^ 20)%Z ->
      (1 - p2 (-24)) ^ Z.of_nat (List.length rs') * exact_average rs' <= (1 + p2 (-24)) ^ Z.of_nat (List.length rs) * exact_average rs).
Proof.
  intros e g x locale filt address r phrases HL U HS P H.
  destruct (row_best e g x locale filt address r phrases HL (usual_not_nan g U) HS P H) as (ph & k & rs & ws & A1 & A2 & A3 & A4 & A5 & A6 & A7 & A8).
  exists ph, k, rs, ws. do 7 (split; [assumption|]). intros N ph' k' rs' I' CB D' C' K' N'.
  apply order_exact; try assumption.
  - apply (derives_nonempty g [ADDRESS] k rs (loaded_linked g HL) A2). discriminate.
  - apply (derives_nonempty g [ADDRESS] k' rs' (loaded_linked g HL) D'). discriminate.
  - exact (derives_usual g _ _ _ U A2).
  - exact (derives_usual g _ _ _ U D').
  - exact (A8 ph' k' rs' I' CB D' C' K').
Qed.

(** ** Rule::concat *)
Lemma concat_score : forall a b, usual_score (r_score a) -> usual_score (r_score b) ->
  accurate 24 3 (r_score (rule_concat a b)) ((fval (r_score a) + fval (r_score b)) * (1#2)).
Proof.
  intros a b (m & e & Ea & _ & Ra) (m2 & e2 & Eb & _ & Rb). unfold rule_concat. cbn [r_score].
  rewrite Ea, Eb in *. unfold f32_add. set (x := fval (S754_finite false m e)) in *. set (y := fval (S754_finite false m2 e2)) in *.
  assert (R100 : p2 (-100) <= x + y <= p2 101).
  { pose proof (p2_pos (-100)). change (p2 101) with (p2 (1 + 100)). rewrite p2_plus. change (p2 1) with 2. lra. }
  destruct (add_rounded 24 128 ltac:(lia) m e m2 e2) as (ms & es & Es & Bs & Vs).
  { fold x y. split; [apply Qle_trans with (p2 (-100))|apply Qle_trans with (p2 101)]; try apply R100; apply p2_le; lia. }
  rewrite Es in *. fold x y in Vs. set (s := fval (S754_finite false ms es)) in *.
  change (p2 (- (24))) with (1 # 16777216) in *.
  assert (Rs : p2 (-101) <= s <= p2 102).
  { pose proof (p2_pos (-101)). pose proof (p2_pos 101). assert (p2 (-100) == 2 * p2 (-101)) by reflexivity. assert (p2 102 == 2 * p2 101) by reflexivity. lra. }
  unfold f64_of_f32, f_conv. cbn [cond_Zopp binary_normalize].
  assert (Ds := digits_range (Z.pos ms) es (-101) 102 ltac:(lia) Rs).
  destruct (round_exact 53 1024 ltac:(lia) ltac:(lia) ms es) as (mw & ew & Ew & Bw & Vw).
  { apply Z.lt_le_trans with (2 ^ 24)%Z; [apply Bs|]. apply Z.pow_le_mono_r; lia. }
  { lia. }
  rewrite Ew. unfold f64_div, f64_of_nat.
  destruct (count_exact 53 1024 ltac:(lia) ltac:(lia) ltac:(lia) 2 ltac:(lia) ltac:(lia)) as (m1 & e1 & E1 & V1). rewrite E1.
  change (inject_Z (Z.of_nat 2)) with 2 in V1.
  set (w := fval (S754_finite false mw ew)) in *. set (two := fval (S754_finite false m1 e1)) in *.
  assert (Hh : w / two == s * (1#2)).
  { rewrite V1, Vw. change (inject_Z (Z.pos ms) * p2 es) with s. field. }
  destruct (div_rounded 53 1024 ltac:(lia) mw ew m1 e1) as (md & ed & Ed & Bd & Vd).
  { fold w two. rewrite Hh. split; [apply Qle_trans with (p2 (-102)); [apply p2_le; lia|]|apply Qle_trans with (p2 102); [|apply p2_le; lia]].
    - assert (p2 (-101) == 2 * p2 (-102)) by reflexivity. lra.
    - pose proof (p2_pos 102). lra. }
  rewrite Ed in *. fold w two in Vd. rewrite Hh in Vd. set (d := fval (S754_finite false md ed)) in *.
  assert (Ud : 0 < p2 (- (53)) /\ p2 (- (53)) <= 1 # 16777216) by (split; [apply p2_pos|apply (p2_le _ (-24)); lia]).
  set (u := p2 (- (53))) in *. pose proof (p2_pos (-101)) as P0.
  assert (Rd : p2 (-103) <= d <= p2 102).
  { assert (p2 (-101) == 4 * p2 (-103)) by reflexivity. pose proof (p2_pos 102). split; nra. }
  assert (Dd := digits_range (Z.pos md) ed (-103) 102 ltac:(lia) Rd).
  unfold f32_of_f64, f_conv. cbn [cond_Zopp binary_normalize].
  destruct (round_rounded 24 128 ltac:(lia) md ed ltac:(lia)) as (mf & ef & Ef & Bf & Vf).
  rewrite Ef in *. change (inject_Z (Z.pos md) * p2 ed) with d in Vf. change (p2 (- (24))) with (1 # 16777216) in Vf.
  split; [exact I|]. set (f := fval (S754_finite false mf ef)) in *. change (p2 (- (24))) with (1 # 16777216).
  set (v := 1 # 16777216) in *. set (z := x + y) in *.
  assert (V0 : 0 < v /\ v < 1#2) by (split; reflexivity).
  assert (Pz : 0 < z) by (pose proof (p2_pos (-100)); lra).
  rewrite !pow_S by (intro; lra). change ((1 - v) ^ Z.of_nat 0) with 1. change ((1 + v) ^ Z.of_nat 0) with 1.
  split.
  - apply Qle_trans with ((1 - v) * d); [|apply Vf]. rewrite <- !Qmult_assoc. apply Qmult_le_l; [lra|].
    apply Qle_trans with ((1 - u) * (s * (1#2))); [|apply Vd].
    apply Qle_trans with ((1 - v) * (s * (1#2))); [apply Qmult_le_l; [lra|]; lra|].
    apply Qmult_le_compat_r; lra.
  - apply Qle_trans with ((1 + v) * d); [apply Vf|]. rewrite <- !Qmult_assoc. apply Qmult_le_l; [lra|].
    apply Qle_trans with ((1 + u) * (s * (1#2))); [apply Vd|].
    apply Qle_trans with ((1 + v) * (s * (1#2))); [apply Qmult_le_compat_r; lra|].
    apply Qmult_le_l; [lra|]; lra.
Qed.

(** ** The exact order can be missed *)
Definition usual_b (f : spec_float) : bool :=
  match f with
  | S754_finite false m e => Z.ltb (Z.pos m) (2 ^ 24) && Qle_bool (p2 (-100)) (fval f) && Qle_bool (fval f) (p2 100)
  | _ => false
  end.
Lemma usual_b_ok : forall f, usual_b f = true -> usual_score f.
Proof.
  intros f H. destruct f as [s|s| |[|] m e]; try discriminate H. cbn [usual_b] in H.
  apply andb_prop in H. destruct H as [H H3]. apply andb_prop in H. destruct H as [H1 H2].
  exists m, e. split; [reflexivity|]. split; [apply Z.ltb_lt; exact H1|]. split; apply Qle_bool_iff; assumption.
Qed.
Lemma usual_grammar_b : forall g, forallb (fun sec => forallb (fun r => usual_b (r_score r)) (rs_rules sec)) (g_rules g) = true -> usual_grammar g.
Proof.
  intros g H sec r I J. rewrite forallb_forall in H. specialize (H sec I). rewrite forallb_forall in H. apply usual_b_ok. exact (H r J).
Qed.
Local Open Scope string_scope.
Definition f_grammar : text := s2t "[ADDRESS]
@a @b @c
@d @e @f
[a]
NUMBER -> HOUSE -> 0.4
[b]
WORD -> STREET -> 0.2
[c]
TYPE -> SUFTYP -> 0.1
[d]
NUMBER -> HOUSE -> 0.3
[e]
WORD -> CITY -> 0.2
[f]
TYPE -> SUFTYP -> 0.2
".
Definition f_g : grammar := match get_grammar ascii_env sample_atof f_grammar with Ok g => g | _ => mkGrammar [] [] [] end.
Lemma f_g_loaded : is_loaded f_g.
Proof.
  unfold f_g, get_grammar. remember (load_grammar (e_uni ascii_env) sample_atof f_grammar) as o eqn:E. destruct o as [L|m|].
  - exists ascii_uni, sample_atof, f_grammar, L. split; [apply ascii_uni_ok|]. split; [symmetry; exact E|reflexivity].
  - exfalso. vm_compute in E. discriminate.
  - exfalso. vm_compute in E. discriminate.
Qed.
Lemma f_g_usual : usual_grammar f_g.
Proof. apply usual_grammar_b. vm_compute. reflexivity. Qed.
Definition f_rules1 : list rule :=
  [mkRule [I_NUMBER] [O_HOUSE] (f32_dec 4 1); mkRule [I_WORD] [O_STREET] (f32_dec 2 1); mkRule [I_TYPE] [O_SUFTYP] (f32_dec 1 1)].
Definition f_rules2 : list rule :=
  [mkRule [I_NUMBER] [O_HOUSE] (f32_dec 3 1); mkRule [I_WORD] [O_CITY] (f32_dec 2 1); mkRule [I_TYPE] [O_SUFTYP] (f32_dec 2 1)].
Definition f_phrases : list (list token) := match make_phrases ascii_env w_x en w_filter (s2t "12 Main St") with Ok l => l | _ => [] end.
Lemma f_phrases_ok : make_phrases ascii_env w_x en w_filter (s2t "12 Main St") = Ok f_phrases.
Proof. vm_compute. reflexivity. Qed.

Lemma f_derives1 : derives f_g [ADDRESS] 1 f_rules1.
Proof.
  set (g := f_g). 
  eapply (d_meta g (nth 0 (g_metas g) (mkMeta [] [])) (nth 0 (ms_rules (nth 0 (g_metas g) (mkMeta [] []))) []) [] 0).
  - vm_compute. auto.
  - vm_compute. auto.
  - change (map f_name _ ++ [])%list with [rs_name (nth 0 (g_rules g) (mkRules [] [])); rs_name (nth 1 (g_rules g) (mkRules [] [])); rs_name (nth 2 (g_rules g) (mkRules [] []))].
    unfold f_rules1. repeat (apply d_rule; [vm_compute; tauto|vm_compute; tauto|]). apply d_nil.
Qed.
Lemma f_derives2 : derives f_g [ADDRESS] 1 f_rules2.
Proof.
  set (g := f_g). 
  eapply (d_meta g (nth 0 (g_metas g) (mkMeta [] [])) (nth 1 (ms_rules (nth 0 (g_metas g) (mkMeta [] []))) []) [] 0).
  - vm_compute. auto.
  - vm_compute. auto.
  - change (map f_name _ ++ [])%list with [rs_name (nth 3 (g_rules g) (mkRules [] [])); rs_name (nth 4 (g_rules g) (mkRules [] [])); rs_name (nth 5 (g_rules g) (mkRules [] []))].
    unfold f_rules2. repeat (apply d_rule; [vm_compute; tauto|vm_compute; tauto|]). apply d_nil.
Qed.

Lemma f_row : standardize_addr ascii_env f_g w_x en w_filter (s2t "12 Main St") =
  Ok (Some (mkStd [None; some "12"; None; None; None; some "MAIN"; some "STREET"; None; None; None; None; None; None; None; None; None]
                  (s2t "NUMBER WORD TYPE -> HOUSE STREET SUFTYP"))).
Proof. vm_compute. reflexivity. Qed.
Lemma exact_missed : exists e g x locale filt address r ph k rs k' rs', is_loaded g /\ usual_grammar g /\
  make_phrases e x locale filt address = Ok [ph] /\ standardize_addr e g x locale filt address = Ok (Some r) /\
  derives g [ADDRESS] k rs /\ chooses ph (rule_inputs rs) /\ sa_pattern r = join [SP] (pattern_words (rule_inputs rs) (rule_outputs rs)) /\
  derives g [ADDRESS] k' rs' /\ chooses ph (rule_inputs rs') /\ sa_pattern r <> join [SP] (pattern_words (rule_inputs rs') (rule_outputs rs')) /\
  exact_average rs < exact_average rs'.
Proof.
  exists ascii_env, f_g, w_x, en, w_filter, (s2t "12 Main St"). eexists. exists (nth 0 f_phrases []), 1%nat, f_rules1, 1%nat, f_rules2.
  split; [exact f_g_loaded|]. split; [exact f_g_usual|]. split; [vm_compute; reflexivity|]. split; [exact f_row|].
  split; [exact f_derives1|]. split; [vm_compute; repeat constructor|]. split; [vm_compute; reflexivity|].
  split; [exact f_derives2|]. split; [vm_compute; repeat constructor|]. split; [vm_compute; discriminate|]. vm_compute. reflexivity.
Qed.
(** Three equal scores whose average is a different number. *)
Lemma equal_missed : exists f rs, usual_score f /\ (forall r, In r rs -> r_score r = f) /\ rs <> [] /\ SFltb (average32 rs) f = true.
Proof.
  exists (f32_dec 9 1), (repeat (mkRule [I_WORD] [O_STREET] (f32_dec 9 1)) 3). split; [apply usual_b_ok; vm_compute; reflexivity|].
  split; [intros r [<-|[<-|[<-|[]]]]; reflexivity|]. split; [discriminate|vm_compute; reflexivity].
Qed.

Lemma f_sizes : Forall (sizes_ok f_g) f_phrases.
Proof.
  apply Forall_forall. intros ph H. exists 3%nat. split.
  - intros ms refs I K. vm_compute in I. repeat (destruct I as [<-|I]; [vm_compute in K; repeat (destruct K as [<-|K]; [cbn; lia|]); destruct K|]). destruct I.
  - vm_compute in H. destruct H as [<-|[]]. vm_compute. reflexivity.
Qed.
