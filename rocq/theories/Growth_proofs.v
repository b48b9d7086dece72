(** Lemmas about grammars that contain other grammars. *)
From Coq Require Import String List NArith ZArith Bool Lia Arith Sorting.Permutation Floats.SpecFloat.
From Verif Require Import Base_model Class_model Float_model Uni_model Token_model Rule_model Search_model Grammar_model Lexicon_model Tokenizer_model Archive_model Wrapper_model
  Sample_model Search_spec Loaded_spec Lexicon_spec Wrapper_spec Growth_spec Search_proofs Enum_proofs SearchTop_proofs Float_proofs SearchBest_proofs Loaded_proofs Wrapper_proofs WrapperTop_proofs WrapperEx_proofs AnswerEx_proofs.
Import ListNotations.

Lemma contained_derives : forall g g' names k rs, contains g' g -> derives g names k rs -> derives g' names k rs.
Proof.
  intros g g' names k rs (CM & CR) D. induction D as [|ms refs rest k rs I J D IH|sec r rest k rs I J D IH].
  - constructor.
  - destruct (CM ms refs I J) as (ms' & refs' & I' & <- & J' & E). apply (d_meta g' ms' refs'); [exact I'|exact J'|]. rewrite E. exact IH.
  - destruct (CR sec r I J) as (sec' & I' & <- & J'). apply (d_rule g' sec' r); assumption.
Qed.
Lemma contained_search : forall g g' node phrase ps p, is_loaded g -> is_loaded g' -> contains g' g -> (combinations phrase <= 2 ^ 32)%N ->
  search_node g node phrase = Ok ps -> In p ps -> exists ps' p', search_node g' node phrase = Ok ps' /\ In p' ps' /\ p_rules p' = p_rules p.
Proof.
  intros g g' node phrase ps p L L' C CB E I. destruct (search_sound g node phrase ps p (loaded_linked g L) E I) as (k & (D & Ch) & K).
  exact (search_complete g' node phrase k _ (loaded_linked g' L') CB (conj (contained_derives _ _ _ _ _ C D) Ch) K).
Qed.
Lemma best_reached : forall g phs b, is_loaded g -> no_nan_scores g -> Forall (sizes_ok g) phs -> search_best g phs = Ok b ->
  (b = empty_best /\ forall ph, In ph phs -> search g ph = Ok []) \/
  (f_nonneg (b_score b) /\ (exists ph ps p, In ph phs /\ search g ph = Ok ps /\ In p ps /\ b_score b = average32 (p_rules p)) /\
   forall ph ps p, In ph phs -> search g ph = Ok ps -> In p ps -> SFltb (b_score b) (average32 (p_rules p)) = false).
Proof.
  intros g phs b HL HN SZ B. assert (SO := loaded_search_ok g HL HN). destruct (best_all g phs SO SZ) as (rs & b' & F & B' & H1 & H2). rewrite B in B'. injection B' as <-.
  assert (D : (exists ph ps, In ph phs /\ search g ph = Ok ps /\ ps <> []) \/ (forall ph, In ph phs -> search g ph = Ok [])).
  { clear - SO. induction phs as [|ph phs IH]; [right; intros ? []|]. destruct (search_defined g ADDRESS ph (so_linked g SO) (so_address g SO)) as [ps H]. fold (search g ph) in H. destruct ps as [|p ps].
    - destruct IH as [(ph' & ps & A & A2)|IH]; [left; exists ph', ps; split; [right; exact A|exact A2]|right; intros ph' [<-|Hin]; auto].
    - left. exists ph, (p :: ps). split; [left; reflexivity|]. split; [exact H|discriminate]. }
  destruct D as [D|D]; [|left; split; [exact (H2 D)|exact D]]. right. destruct (H1 D) as (FM & NN). split; [exact NN|]. rewrite Forall_forall in SZ.
  assert (X : forall ph r, In ph phs -> search_best1 g [] ph = Ok r -> (r = empty_best /\ search g ph = Ok []) \/
    exists ps p, search g ph = Ok ps /\ In p ps /\ f_nonneg (b_score r) /\ b_score r = average32 (p_rules p) /\ forall q, In q ps -> f_nonneg (average32 (p_rules q)) /\ SFltb (b_score r) (average32 (p_rules q)) = false).
  { intros ph r I E. destruct (search_defined g ADDRESS ph (so_linked g SO) (so_address g SO)) as [ps H]. fold (search g ph) in H. destruct ps as [|p0 ps0].
    - left. rewrite (best1_none g [] ph H) in E. injection E as <-. split; [reflexivity|exact H].
    - right. destruct (best1_some g [] ph _ SO (SZ ph I) H ltac:(discriminate)) as (p & ts & nr & FM' & _ & Q & _ & NN'). rewrite E in Q. injection Q as ->. cbn [b_score].
      exists (p0 :: ps0), p. split; [exact H|]. split; [eapply first_max_In; exact FM'|]. split; [exact NN'|]. split; [reflexivity|]. intros q Iq.
      destruct (path_facts g ph _ q SO (SZ ph I) H Iq) as (A1 & A2 & A3). split; [apply average32_nonneg; assumption|].
      destruct FM' as (l1 & l2 & El & F1 & F2). rewrite Forall_forall in F1, F2. rewrite El in Iq. apply in_app_or in Iq. destruct Iq as [Iq|[<-|Iq]].
      + apply f_lt_asym. exact (F1 q Iq).
      + destruct (SFltb (average32 (p_rules p)) (average32 (p_rules p))) eqn:Z; [|reflexivity]. assert (Z2 := f_lt_asym _ _ Z). unfold f_lt in Z2. congruence.
      + exact (F2 q Iq). }
  assert (IB : In b rs) by (eapply first_max_In; exact FM). destruct (Forall2_right _ _ _ _ _ _ F IB) as (ph & I & E). split.
  - destruct (X ph b I E) as [(-> & _)|(ps & p & A1 & A2 & _ & A4 & _)]; [destruct NN|]. exists ph, ps, p. auto.
  - intros ph' ps' p' I' E' J'. destruct (Forall2_left _ _ _ _ _ _ F I') as (r & Ir & Er). destruct (X ph' r I' Er) as [(_ & Q)|(ps2 & p2 & A1 & _ & A3 & _ & A5)]; [rewrite E' in Q; injection Q as ->; destruct J'|].
    rewrite E' in A1. injection A1 as <-. destruct (A5 p' J') as (A6 & A7). assert (K : SFltb (b_score b) (b_score r) = false).
    { destruct FM as (l1 & l2 & -> & F1 & F2). rewrite Forall_forall in F1, F2. apply in_app_or in Ir. destruct Ir as [Ir|[<-|Ir]].
      - apply f_lt_asym. exact (F1 r Ir).
      - destruct (SFltb (b_score b) (b_score b)) eqn:Z; [|reflexivity]. assert (Z2 := f_lt_asym _ _ Z). unfold f_lt in Z2. congruence.
      - exact (F2 r Ir). }
    exact (f_ge_trans _ _ _ (nonneg_not_nan _ NN) (nonneg_not_nan _ A3) (nonneg_not_nan _ A6) K A7).
Qed.
Lemma contained_score : forall g g' phs, is_loaded g -> is_loaded g' -> no_nan_scores g -> no_nan_scores g' -> contains g' g ->
  Forall (sizes_ok g) phs -> Forall (sizes_ok g') phs -> Forall (fun ph => (combinations ph <= 2 ^ 32)%N) phs ->
  exists b b', search_best g phs = Ok b /\ search_best g' phs = Ok b' /\ SFltb (b_score b') (b_score b) = false.
Proof.
  intros g g' phs L L' N N' C SZ SZ' CB. destruct (best_all g phs (loaded_search_ok g L N) SZ) as (_ & b & _ & B & _). destruct (best_all g' phs (loaded_search_ok g' L' N') SZ') as (_ & b' & _ & B' & _).
  exists b, b'. split; [exact B|]. split; [exact B'|]. rewrite Forall_forall in CB.
  destruct (best_reached g phs b L N SZ B) as [(-> & _)|(NN & (ph & ps & p & I & S1 & J & ->) & _)]; destruct (best_reached g' phs b' L' N' SZ' B') as [(-> & Q)|(NN' & _ & M)].
  - reflexivity.
  - apply f_lt_asym. exact (m1_lt_nonneg _ NN').
  - destruct (contained_search g g' ADDRESS ph ps p L L' C (CB ph I) S1 J) as (ps' & p' & S2 & J' & _). assert (Q2 := Q ph I). unfold search in Q2. rewrite S2 in Q2. injection Q2 as ->. destruct J'.
  - destruct (contained_search g g' ADDRESS ph ps p L L' C (CB ph I) S1 J) as (ps' & p' & S2 & J' & <-). exact (M ph ps' p' I S2 J').
Qed.
Lemma contained_standardized : forall e g g' x locale filt address phs r, is_loaded g -> is_loaded g' -> no_nan_scores g' -> contains g' g ->
  make_phrases e x locale filt address = Ok phs -> Forall (sizes_ok g') phs -> Forall (fun ph => (combinations ph <= 2 ^ 32)%N) phs ->
  standardize_addr e g x locale filt address = Ok (Some r) -> exists r', standardize_addr e g' x locale filt address = Ok (Some r').
Proof.
  intros e g g' x locale filt address phs r L L' N' C P SZ CB H. destruct (row_sound e g x locale filt address r L H) as (phs' & ph & k & rs & ws & P' & I & D & Ch & K & _).
  rewrite P in P'. injection P' as <-. rewrite Forall_forall in CB. destruct (search_complete g' ADDRESS ph k rs (loaded_linked g' L') (CB ph I) (conj (contained_derives _ _ _ _ _ C D) Ch) K) as (ps & p & S1 & J & _).
  destruct (answered e g' x locale filt address phs L' N' SZ P) as ([r'|] & A & Q); [exists r'; exact A|]. exfalso. rewrite ((proj1 Q eq_refl) ph ps I S1) in J. destruct J.
Qed.
Lemma contained_rows : forall e sort g g' x locale filt address phs out row, is_loaded g -> is_loaded g' -> contains g' g ->
  make_phrases e x locale filt address = Ok phs -> Forall (fun ph => (combinations ph <= 2 ^ 32)%N) phs -> (forall rows, search_all g phs = Ok rows \/ search_all g' phs = Ok rows -> sorted_rows rows (sort rows)) ->
  match_addr e sort g x locale filt address = Ok out -> In row out ->
  out = [mkMR (s2t "Failed to match to grammar!"%string) f64_m1 f64_m1] \/ exists out', match_addr e sort g' x locale filt address = Ok out' /\ In row out'.
Proof.
  intros e sort g g' x locale filt address phs out row L L' C P CB SO M I.
  destruct (match_rows e sort g x locale filt address phs L P (fun rows Q => SO rows (or_introl Q))) as (found & rows & out1 & F & M1 & (Pm & _) & _ & F1 & F2). rewrite M in M1. injection M1 as <-.
  destruct (concat found) as [|p0 l0] eqn:Ec; [left; exact (F1 eq_refl)|]. right. assert (F3 := F2 ltac:(discriminate)). rewrite <- Ec in F3. clear F1 F2.
  apply (Permutation_in _ (Permutation_sym Pm)) in I. destruct (Forall2_right _ _ _ _ _ _ F3 I) as (p & Ip & Rp).
  apply in_concat in Ip. destruct Ip as (ps & Ips & Ip). destruct (Forall2_right _ _ _ _ _ _ F Ips) as (ph & Iph & S1). rewrite Forall_forall in CB.
  destruct (contained_search g g' ADDRESS ph ps p L L' C (CB ph Iph) S1 Ip) as (ps' & p' & S2 & Ip' & Er).
  destruct (match_rows e sort g' x locale filt address phs L' P (fun rows Q => SO rows (or_intror Q))) as (found' & rows' & out' & F' & M' & (Pm' & _) & _ & _ & F2').
  exists out'. split; [exact M'|]. destruct (Forall2_left _ _ _ _ _ _ F' Iph) as (ps2 & I2 & S3). unfold search in S3. rewrite S2 in S3. injection S3 as <-.
  assert (Ic : In p' (concat found')) by (apply in_concat; exists ps'; auto).
  assert (F4 := F2' ltac:(intros Z; rewrite Z in Ic; destruct Ic)). destruct (Forall2_left _ _ _ _ _ _ F4 Ic) as (row' & Ir & Rr). apply (Permutation_in _ Pm').
  replace row with row'; [exact Ir|]. rewrite Er in Rr. destruct row as [a b c], row' as [a' b' c'], Rp as (R1 & R2 & R3), Rr as (R4 & R5 & R6). cbn [m_matched m_score m_nrules] in *. congruence.
Qed.
Lemma reordered_same : forall e g g' x locale filt address phs, is_loaded g -> is_loaded g' -> no_nan_scores g -> no_nan_scores g' -> contains g' g -> contains g g' ->
  make_phrases e x locale filt address = Ok phs -> Forall (sizes_ok g) phs -> Forall (sizes_ok g') phs -> Forall (fun ph => (combinations ph <= 2 ^ 32)%N) phs ->
  (exists b b', search_best g phs = Ok b /\ search_best g' phs = Ok b' /\ SFltb (b_score b') (b_score b) = false /\ SFltb (b_score b) (b_score b') = false) /\
  exists o o', standardize_addr e g x locale filt address = Ok o /\ standardize_addr e g' x locale filt address = Ok o' /\ (o = None <-> o' = None).
Proof.
  intros e g g' x locale filt address phs L L' N N' C C' P SZ SZ' CB. split.
  - destruct (contained_score g g' phs L L' N N' C SZ SZ' CB) as (b & b' & B & B' & Q). destruct (contained_score g' g phs L' L N' N C' SZ' SZ CB) as (c' & c & D' & D & Q').
    rewrite B in D. injection D as <-. rewrite B' in D'. injection D' as <-. exists b, b'. auto.
  - destruct (answered e g x locale filt address phs L N SZ P) as (o & A & _). destruct (answered e g' x locale filt address phs L' N' SZ' P) as (o' & A' & _). exists o, o'. split; [exact A|]. split; [exact A'|].
    split; intros ->; [destruct o' as [r|]|destruct o as [r|]]; try reflexivity; exfalso.
    + destruct (contained_standardized e g' g x locale filt address phs r L' L N C' P SZ CB A') as (r' & Z). congruence.
    + destruct (contained_standardized e g g' x locale filt address phs r L L' N' C P SZ' CB A) as (r' & Z). congruence.
Qed.

(** ** An example *)
(** [w_grammar] in another order, with a further section and a further rule. *)
Definition more_grammar : text := s2t "[ADDRESS]
@house @street
@house @street @city
@house @street @box
[box]
BOXH NUMBER -> BOXH BOXT -> 0.5
[street]
WORD -> STREET -> 0.4
WORD TYPE -> STREET SUFTYP -> 0.8
[city]
WORD -> CITY -> 0.3
[house]
NUMBER -> HOUSE -> 0.9
".
(** The same rules as in [w_grammar] only. *)
Definition other_grammar : text := s2t "[street]
WORD TYPE -> STREET SUFTYP -> 0.8
[ADDRESS]
@house @street
@house @street @box
[box]
BOXH NUMBER -> BOXH BOXT -> 0.5
[house]
NUMBER -> HOUSE -> 0.9
".
Definition more_g : grammar := match get_grammar ascii_env sample_atof more_grammar with Ok g => g | _ => mkGrammar [] [] [] end.
Definition other_g : grammar := match get_grammar ascii_env sample_atof other_grammar with Ok g => g | _ => mkGrammar [] [] [] end.
Definition rule_dec : forall a b : rule, {a = b} + {a <> b}.
Proof. repeat decide equality. Defined.
Definition contains_b (g' g : grammar) : bool :=
  forallb (fun ms => forallb (fun refs => existsb (fun ms' => teqb (ms_name ms') (ms_name ms) && existsb (fun refs' => if list_eq_dec (list_eq_dec N.eq_dec) (map f_name refs') (map f_name refs) then true else false) (ms_rules ms')) (g_metas g')) (ms_rules ms)) (g_metas g) &&
  forallb (fun s => forallb (fun r => existsb (fun s' => teqb (rs_name s') (rs_name s) && existsb (fun r' => if rule_dec r' r then true else false) (rs_rules s')) (g_rules g')) (rs_rules s)) (g_rules g).
Lemma contains_b_ok : forall g' g, contains_b g' g = true -> contains g' g.
Proof.
  intros g' g H. unfold contains_b in H. apply andb_prop in H. destruct H as (H1 & H2). rewrite forallb_forall in H1, H2. split.
  - intros ms refs I J. specialize (H1 ms I). rewrite forallb_forall in H1. specialize (H1 refs J). apply existsb_exists in H1. destruct H1 as (ms' & I' & K). apply andb_prop in K. destruct K as (K1 & K2).
    apply existsb_exists in K2. destruct K2 as (refs' & J' & K2). exists ms', refs'. split; [exact I'|]. split; [apply teqb_eq; exact K1|]. split; [exact J'|]. destruct (list_eq_dec _ _ _) as [E|]; [exact E|discriminate].
  - intros s r I J. specialize (H2 s I). rewrite forallb_forall in H2. specialize (H2 r J). apply existsb_exists in H2. destruct H2 as (s' & I' & K). apply andb_prop in K. destruct K as (K1 & K2).
    apply existsb_exists in K2. destruct K2 as (r' & J' & K2). exists s'. split; [exact I'|]. split; [apply teqb_eq; exact K1|]. destruct (rule_dec r' r) as [<-|]; [exact J'|discriminate].
Qed.
Lemma loads_is_loaded : forall t, match get_grammar ascii_env sample_atof t with Ok _ => true | _ => false end = true ->
  is_loaded (match get_grammar ascii_env sample_atof t with Ok g => g | _ => mkGrammar [] [] [] end).
Proof.
  intros t H. unfold get_grammar in *. remember (load_grammar (e_uni ascii_env) sample_atof t) as o eqn:E. destruct o as [L|m|]; try discriminate.
  exists ascii_uni, sample_atof, t, L. split; [apply ascii_uni_ok|]. split; [symmetry; exact E|reflexivity].
Qed.
Lemma phs_sizes : forall g w, width_b g w = true -> (w <= 1000)%nat -> Forall (sizes_ok g) w_phs.
Proof.
  intros g w H W. assert (E : exists a b, w_phs = [a; b] /\ List.length a <= 1000 /\ List.length b <= 1000).
  { do 2 eexists. split; [vm_compute; reflexivity|]. split; apply Nat.leb_le; vm_compute; reflexivity. }
  destruct E as (a & b & -> & A1 & A2). apply width_b_ok in H.
  assert (K : forall ph : list token, List.length ph <= 1000 -> sizes_ok g ph).
  { intros ph L. exists w. split; [exact H|]. change (2 ^ 127)%Z with (170141183460469231731687303715884105728)%Z. assert ((List.length ph + 2) * w <= 1002 * 1000) by (apply Nat.mul_le_mono; lia). lia. }
  constructor; [apply K; exact A1|constructor; [apply K; exact A2|constructor]].
Qed.
Lemma more_setting : is_loaded w_g /\ is_loaded more_g /\ no_nan_scores w_g /\ no_nan_scores more_g /\ contains more_g w_g /\ ~ contains w_g more_g /\
  make_phrases ascii_env w_x en w_filter w_addr = Ok w_phs /\ Forall (sizes_ok w_g) w_phs /\ Forall (sizes_ok more_g) w_phs /\ Forall (fun ph => (combinations ph <= 2 ^ 32)%N) w_phs.
Proof.
  split; [exact w_g_loaded|]. split; [apply loads_is_loaded; vm_compute; reflexivity|]. split; [exact w_g_scores|]. split; [apply nonan_b_ok; vm_compute; reflexivity|].
  split; [apply contains_b_ok; vm_compute; reflexivity|]. split.
  { intros (_ & H). specialize (H (nth 2 (g_rules more_g) (mkRules [] [])) (nth 0 (rs_rules (nth 2 (g_rules more_g) (mkRules [] []))) empty_rule)).
    destruct H as (sec & I & E & _); [vm_compute; tauto|vm_compute; tauto|]. vm_compute in I. repeat (destruct I as [<-|I]; [vm_compute in E; discriminate|]). destruct I. }
  split; [vm_compute; reflexivity|]. split; [exact (proj1 w_phs_sizes)|]. split; [apply (phs_sizes more_g 3); [vm_compute; reflexivity|lia]|exact (proj2 w_phs_sizes)].
Qed.
Lemma other_setting : is_loaded w_g /\ is_loaded other_g /\ no_nan_scores w_g /\ no_nan_scores other_g /\ contains other_g w_g /\ contains w_g other_g /\ other_g <> w_g /\
  make_phrases ascii_env w_x en w_filter w_addr = Ok w_phs /\ Forall (sizes_ok w_g) w_phs /\ Forall (sizes_ok other_g) w_phs /\ Forall (fun ph => (combinations ph <= 2 ^ 32)%N) w_phs.
Proof.
  split; [exact w_g_loaded|]. split; [apply loads_is_loaded; vm_compute; reflexivity|]. split; [exact w_g_scores|]. split; [apply nonan_b_ok; vm_compute; reflexivity|].
  split; [apply contains_b_ok; vm_compute; reflexivity|]. split; [apply contains_b_ok; vm_compute; reflexivity|]. split.
  { intros E. apply (f_equal (fun g => map rs_name (g_rules g))) in E. vm_compute in E. discriminate. }
  split; [vm_compute; reflexivity|]. split; [exact (proj1 w_phs_sizes)|]. split; [apply (phs_sizes other_g 3); [vm_compute; reflexivity|lia]|exact (proj2 w_phs_sizes)].
Qed.
(** An address only the larger grammar knows. *)
Lemma more_matches : standardize_addr ascii_env w_g w_x en w_filter v_addr = Ok None /\ exists r, standardize_addr ascii_env more_g w_x en w_filter v_addr = Ok (Some r).
Proof. split; [vm_compute; reflexivity|]. eexists. vm_compute. reflexivity. Qed.
Lemma more_rows : forall rows, search_all w_g w_phs = Ok rows \/ search_all more_g w_phs = Ok rows -> sorted_rows rows (by_score rows).
Proof.
  intros rows [H|H]; vm_compute in H; injection H as <-.
  - split; [vm_compute; apply Permutation_refl|]. intros l1 a l2 b l3 E. vm_compute in E. destruct l1 as [|r [|r2 l1]]; [injection E as _ E; destruct l2; discriminate|discriminate..].
  - split; [vm_compute; apply Permutation_refl|]. intros l1 a l2 b l3 E. vm_compute in E.
    destruct l1 as [|r l1]; [injection E as <- E; destruct l2 as [|r2 l2]; [injection E as <- _; vm_compute; reflexivity|injection E as _ E; destruct l2; discriminate]|].
    injection E as _ E. destruct l1 as [|r2 l1]; [injection E as _ E; destruct l2; discriminate|]. injection E as _ E. destruct l1; discriminate.
Qed.
