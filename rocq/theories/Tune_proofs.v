(** Changing the scores of a grammar. *)
From Coq Require Import String List NArith ZArith Bool Lia Arith QArith Lqa Floats.SpecFloat.
From Verif Require Import Base_model Class_model Class_spec Float_model Token_model Rule_model Uni_model Search_model Lexicon_model Wrapper_model Search_spec Lexicon_spec Tokenizer_spec Wrapper_spec Split_spec Loaded_spec Read_spec Address_spec
  Order_spec Answer_spec FloatAcc_spec Tune_spec Float_proofs FloatRound_proofs FloatAcc_proofs FloatMono_proofs Search_proofs SearchTop_proofs SearchBest_proofs Loaded_proofs WrapperTop_proofs Address_proofs Growth_proofs Answer_proofs.
Import ListNotations.
Local Open Scope nat_scope.

(** ** Numbers *)
Notation canon32 := (canon 24 128).
Lemma one_24 : (1 < 24)%Z. Proof. lia. Qed.
Lemma lt_24 : (24 < 128)%Z. Proof. lia. Qed.
Lemma number_canon : forall f, float_number f -> positive_score f -> canon32 f.
Proof.
  intros f (V & _) P. destruct f as [s|s| |s m e]; try contradiction; destruct s; try contradiction; [exact I|].
  unfold valid_binary, bounded, canonical_mantissa in V. apply andb_true_iff in V. destruct V as (V1 & V2). apply Zeq_bool_eq in V1. apply Zle_bool_imp_le in V2.
  pose proof (digits2_bounds m) as B. unfold fexp, emin in V1. unfold canon. set (d := Z.pos (digits2_pos m)) in *.
  assert (D : (d <= 24)%Z) by lia. split; [|split; [lia|]].
  - apply Z.lt_le_trans with (2 ^ d)%Z; [lia|]. apply Z.pow_le_mono_r; lia.
  - destruct (Z.eq_dec d 24) as [E|E]; [left; rewrite E in B; change (24 - 1)%Z with 23%Z in *; lia|right; lia].
Qed.
Lemma le_leb : forall f h, canon32 f -> canon32 h -> (le f h <-> at_most f h).
Proof.
  intros f h Cf Ch. rewrite (le_ltb 24 128 one_24 f h Cf Ch). unfold at_most, SFleb, SFltb.
  destruct f as [s|s| |s m e]; try contradiction; destruct s; try contradiction;
  destruct h as [s'|s'| |s' m' e']; try contradiction; destruct s'; try contradiction; try (split; (reflexivity || discriminate)).
  pose proof (compare_finite 24 128 one_24 m e m' e' Cf Ch) as C1. pose proof (compare_finite 24 128 one_24 m' e' m e Ch Cf) as C2.
  destruct (SFcompare (S754_finite false m e) (S754_finite false m' e')) as [[| |]|]; try contradiction;
  destruct (SFcompare (S754_finite false m' e') (S754_finite false m e)) as [[| |]|]; try contradiction; try (split; (reflexivity || discriminate)); exfalso; lra.
Qed.
Lemma le_trans : forall a b c, le a b -> le b c -> le a c.
Proof.
  intros a b c [A|(A1 & A2 & A3)] [B|(B1 & B2 & B3)]; try (left; assumption).
  - left. rewrite A in B1. discriminate B1.
  - right. split; [exact A1|]. split; [exact B2|]. eapply Qle_trans; eassumption.
Qed.
Lemma le_total : forall a b, le a b \/ le b a.
Proof.
  intros a b. unfold le. destruct (is_inf a) eqn:A, (is_inf b) eqn:B; auto.
  destruct (Qlt_le_dec (fval a) (fval b)) as [L|L]; [left|right]; right; (split; [reflexivity|]; split; [reflexivity|]; auto). apply Qlt_le_weak. exact L.
Qed.
Lemma avg_average : forall rs, average32 rs = avg 24 128 (map r_score rs).
Proof.
  intros rs. unfold average32, avg. rewrite map_length.
  assert (E : forall l z, fold_left (fun s r => SFadd 24 128 s (r_score r)) l z = fold_left (SFadd 24 128) (map r_score l) z) by (induction l as [|r l IH]; intros z; cbn [fold_left map]; [reflexivity|apply IH]).
  rewrite E. reflexivity.
Qed.

(** ** The same matches *)
Lemma rescored_sym : forall g g', rescored g g' -> rescored g' g.
Proof.
  intros g g' (M & X & F). split; [congruence|]. split; [congruence|].
  induction F as [|s s' l l' (N & R) _ IH]; constructor; [|exact IH]. split; [congruence|].
  induction R as [|r r' k k' (A & B) _ IHR]; constructor; [split; congruence|exact IHR].
Qed.
Lemma becomes_sym : forall g g' r r', becomes g g' r r' -> becomes g' g r' r.
Proof. intros g g' r r' (i & j & s & s' & A & B & C & D). exists i, j, s', s. auto. Qed.
Lemma counterpart_sym : forall g g' m m', counterpart g g' m m' -> counterpart g' g m' m.
Proof.
  intros g g' m m' (A & B & C & D). split; [congruence|]. split; [congruence|]. split; [congruence|].
  induction D as [|r r' l l' H _ IH]; constructor; [apply becomes_sym; exact H|exact IH].
Qed.
Lemma fitting_same : forall rs rs' pat, Forall2 same_but_score rs rs' -> fitting rs' pat = fitting rs pat.
Proof.
  intros rs rs' pat F. unfold fitting. induction F as [|r r' l l' (A & _) _ IH]; [reflexivity|]. cbn [filter]. rewrite A.
  destruct (list_eq_dec class_dec (firstn (List.length (r_in r)) pat) (r_in r)); cbn [List.length]; rewrite IH; reflexivity.
Qed.
Lemma traced_rescored : forall g g', rescored g g' -> forall names pat k cs rs n rem, traced g names pat k cs rs n rem ->
  exists rs', traced g' names pat k cs rs' n rem /\ Forall2 (becomes g g') rs rs'.
Proof.
  intros g g' (M & _ & F) names pat k cs rs n rem T. induction T as [rem|ms i refs rest pat k cs rs n rem I N T IH|sec i r rest pat k cs rs n rem I N T IH].
  - exists []. split; constructor.
  - destruct IH as (rs' & T' & B). exists rs'. split; [|exact B]. econstructor; [rewrite M; exact I|exact N|exact T'].
  - destruct IH as (rs' & T' & B). apply In_nth_error in I. destruct I as (p & I).
    destruct (forall2_nth _ _ _ _ _ F p sec I) as (sec' & I' & (NM & R)). destruct (forall2_nth _ _ _ _ _ R i r N) as (r' & N' & (RI & RO)).
    exists (r' :: rs'). split.
    + rewrite <- NM, <- RI, <- (fitting_same _ _ _ R). eapply tr_rule; [eapply nth_error_In; exact I'|exact N'|exact T'].
    + constructor; [exists p, i, sec, sec'; auto|exact B].
Qed.
Lemma same_matches : forall g g' phs i m, rescored g g' -> candidate g phs i m -> exists m', candidate g' phs i m' /\ counterpart g g' m m'.
Proof.
  intros g g' phs i m R (ph & N & (C & k & K & T)). destruct (traced_rescored g g' R _ _ _ _ _ _ _ T) as (rs' & T' & B).
  exists (mkL (l_classes m) (l_choices m) rs' (l_times m)). split.
  - exists ph. split; [exact N|]. split; [exact C|]. exists k. split; [exact K|exact T'].
  - repeat split. exact B.
Qed.
Lemma becomes_in : forall g g' r r', becomes g g' r r' -> exists sec sec', In sec (g_rules g) /\ In r (rs_rules sec) /\ In sec' (g_rules g') /\ In r' (rs_rules sec').
Proof.
  intros g g' r r' (i & j & s & s' & A & B & C & D). exists s, s'. repeat split; eapply nth_error_In; eassumption.
Qed.
Lemma becomes_same : forall g g' r r', rescored g g' -> becomes g g' r r' -> same_but_score r r'.
Proof.
  intros g g' r r' (_ & _ & F) (i & j & s & s' & A & B & C & D). destruct (forall2_nth _ _ _ _ _ F i s A) as (s2 & B2 & (_ & R)). rewrite B in B2. injection B2 as <-.
  destruct (forall2_nth _ _ _ _ _ R j r C) as (r2 & D2 & S2). rewrite D in D2. injection D2 as <-. exact S2.
Qed.
Lemma same_outputs : forall g g' rs rs', rescored g g' -> Forall2 (becomes g g') rs rs' -> rule_outputs rs' = rule_outputs rs.
Proof.
  intros g g' rs rs' R F. unfold rule_outputs. induction F as [|r r' l l' B _ IH]; [reflexivity|]. cbn [map concat].
  destruct (becomes_same g g' r r' R B) as (_ & ->). rewrite IH. reflexivity.
Qed.
(** Unchanged rules: the same match. *)
Lemma forall2_same : forall A (R : A -> A -> Prop) l l', Forall2 R l l' -> (forall a b, In a l -> R a b -> b = a) -> l' = l.
Proof.
  intros A R l l' F. induction F as [|a b l l' H _ IH]; intros E; [reflexivity|]. f_equal; [apply E; [left; reflexivity|exact H]|].
  apply IH. intros c d I. apply E. right. exact I.
Qed.
Lemma same_listing : forall g g' m m', counterpart g g' m m' -> (forall a b, In a (l_rules m) -> becomes g g' a b -> b = a) -> m' = m.
Proof.
  intros g g' [c h r t] [c' h' r' t'] (A & B & C & D) E. cbn [l_classes l_choices l_rules l_times] in *. rewrite (forall2_same _ _ _ _ D E). subst. reflexivity.
Qed.

(** ** Comparing the averages *)
Record tunable (g : grammar) (phs : list (list token)) : Prop := {
  tu_loaded : is_loaded g; tu_scores : float_scores g; tu_sizes : Forall (sizes_ok g) phs }.
Lemma float_no_nan : forall g, float_scores g -> no_nan_scores g.
Proof. intros g F sec r I J. apply (F sec r I J). Qed.
Lemma rescored_sizes : forall g g' phs, rescored g g' -> Forall (sizes_ok g) phs -> Forall (sizes_ok g') phs.
Proof.
  intros g g' phs (M & _) F. eapply Forall_impl; [|exact F]. intros ph (w & A & B). exists w. split; [|exact B]. intros ms refs. rewrite M. apply A.
Qed.
Lemma tunable_rescored : forall g g' phs, tunable g phs -> is_loaded g' -> float_scores g' -> rescored g g' -> tunable g' phs.
Proof. intros g g' phs [A B C] L F R. split; [exact L|exact F|]. apply (rescored_sizes g g'); assumption. Qed.
Lemma rule_canon : forall g sec r, is_loaded g -> float_scores g -> In sec (g_rules g) -> In r (rs_rules sec) -> canon32 (r_score r).
Proof.
  intros g sec r L F I J. apply number_canon; [exact (F sec r I J)|]. exact (so_positive g (loaded_search_ok g L (float_no_nan g F)) sec r I J).
Qed.
Lemma candidate_facts : forall g phs i m, tunable g phs -> candidate g phs i m ->
  l_rules m <> [] /\ (Z.of_nat (List.length (l_rules m)) < 2 ^ 127)%Z /\ Forall (fun r => exists sec, In sec (g_rules g) /\ In r (rs_rules sec)) (l_rules m).
Proof.
  intros g phs i m [L F S] (ph & N & Lm). destruct (listed_matches _ _ _ _ Lm) as (k & (Hd & Hc) & Hk).
  rewrite Forall_forall in S. destruct (S ph (nth_error_In _ _ N)) as (w & HW & HL).
  split; [apply (derives_nonempty g _ k _ (loaded_linked g L) Hd); discriminate|]. split.
  - pose proof (derives_bound g _ _ _ w HW Hd) as B. cbn [List.length] in B. eapply Z.le_lt_trans; [|exact HL]. apply Nat2Z.inj_le. nia.
  - clear - Hd. induction Hd; [constructor|assumption|]. constructor; [|assumption]. exists sec. auto.
Qed.
(** A match whose rules are not below those of another one. *)
Lemma average_mono : forall g phs i m rs', tunable g phs -> candidate g phs i m ->
  Forall2 (fun a b => canon32 (r_score a) /\ canon32 (r_score b) /\ le (r_score a) (r_score b)) (l_rules m) rs' ->
  canon32 (average32 (l_rules m)) /\ canon32 (average32 rs') /\ le (average32 (l_rules m)) (average32 rs').
Proof.
  intros g phs i m rs' T C F. destruct (candidate_facts g phs i m T C) as (A & B & _). rewrite !avg_average.
  apply avg_mono; [lia|lia| | |].
  - intro E. apply map_eq_nil in E. contradiction.
  - rewrite map_length. exact B.
  - clear - F. induction F as [|a b l l' H _ IH]; constructor; assumption.
Qed.
Lemma ltb_false : forall a b, canon32 a -> canon32 b -> (SFltb a b = false <-> le b a).
Proof. intros a b A B. symmetry. apply (le_ltb 24 128 one_24 b a B A). Qed.
Lemma ltb_true : forall a b, canon32 a -> canon32 b -> (SFltb a b = true <-> ~ le b a).
Proof.
  intros a b A B. rewrite <- (ltb_false a b A B). destruct (SFltb a b); split; congruence.
Qed.
Lemma rule_canon_of : forall g phs i m r, tunable g phs -> candidate g phs i m -> In r (l_rules m) -> canon32 (r_score r).
Proof.
  intros g phs i m r T C I. destruct (candidate_facts g phs i m T C) as (_ & _ & F). rewrite Forall_forall in F. destruct (F r I) as (sec & J & K).
  exact (rule_canon g sec r (tu_loaded g phs T) (tu_scores g phs T) J K).
Qed.
Lemma average_canon : forall g phs i m, tunable g phs -> candidate g phs i m -> canon32 (average32 (l_rules m)).
Proof.
  intros g phs i m T C. apply (average_mono g phs i m (l_rules m) T C).
  assert (F : forall r, In r (l_rules m) -> canon32 (r_score r)) by (intros r I; exact (rule_canon_of g phs i m r T C I)).
  clear C. induction (l_rules m) as [|r l IH]; constructor.
  - split; [apply F; left; reflexivity|]. split; [apply F; left; reflexivity|apply le_refl].
  - apply IH. intros r' I. apply F. right. exact I.
Qed.
(** If no score of a match falls, its average does not fall. *)
Lemma pair_mono : forall g g' phs i m m', tunable g phs -> tunable g' phs -> candidate g phs i m -> candidate g' phs i m' -> counterpart g g' m m' ->
  (forall a b, In a (l_rules m) -> becomes g g' a b -> at_most (r_score a) (r_score b)) -> le (average32 (l_rules m)) (average32 (l_rules m')).
Proof.
  intros g g' phs i m m' T T' C C' (_ & _ & _ & F) H. apply (average_mono g phs i m (l_rules m') T C).
  assert (K : forall r, In r (l_rules m) -> canon32 (r_score r)) by (intros r I; exact (rule_canon_of g phs i m r T C I)).
  assert (K' : forall r, In r (l_rules m') -> canon32 (r_score r)) by (intros r I; exact (rule_canon_of g' phs i m' r T' C' I)).
  clear C C'. induction F as [|a b l l' B _ IH]; constructor.
  - assert (Ca : canon32 (r_score a)) by (apply K; left; reflexivity). assert (Cb : canon32 (r_score b)) by (apply K'; left; reflexivity).
    split; [exact Ca|]. split; [exact Cb|]. apply (proj2 (le_leb _ _ Ca Cb)). apply H; [left; reflexivity|exact B].
  - apply IH; [intros x y I; apply H; right; exact I|intros r I; apply K; right; exact I|intros r I; apply K'; right; exact I].
Qed.
Lemma at_most_refl : forall f, canon32 f -> at_most f f.
Proof. intros f C. apply (proj1 (le_leb f f C C)). apply le_refl. Qed.
Lemma becomes_canon : forall g g' phs r r', tunable g phs -> tunable g' phs -> becomes g g' r r' -> canon32 (r_score r) /\ canon32 (r_score r').
Proof.
  intros g g' phs r r' T T' B. destruct (becomes_in g g' r r' B) as (s & s' & A1 & A2 & A3 & A4). split.
  - exact (rule_canon g s r (tu_loaded g phs T) (tu_scores g phs T) A1 A2).
  - exact (rule_canon g' s' r' (tu_loaded g' phs T') (tu_scores g' phs T') A3 A4).
Qed.

(** ** Lowering the scores of rules the answer does not use *)
Lemma kept : forall g g' phs i m, is_loaded g -> float_scores g -> Forall (sizes_ok g) phs -> is_loaded g' -> float_scores g' -> rescored g g' -> first_best g phs i m ->
  (forall a b, becomes g g' a b -> b = a \/ (~ In a (l_rules m) /\ at_most (r_score b) (r_score a))) -> first_best g' phs i m.
Proof.
  intros g g' phs i m L F S L' F' R (C & A) H. assert (T : tunable g phs) by (split; assumption). assert (T' := tunable_rescored g g' phs T L' F' R).
  destruct (same_matches g g' phs i m R C) as (m2 & C2 & K2).
  assert (E : m2 = m). { apply (same_listing g g' m m2 K2). intros a b I B. destruct (H a b B) as [E|(NI & _)]; [exact E|contradiction]. }
  subst m2. split; [exact C2|]. intros i' c' Cc'.
  destruct (same_matches g' g phs i' c' (rescored_sym g g' R) Cc') as (c & Cc & Kc). apply counterpart_sym in Kc.
  assert (Lc : le (average32 (l_rules c')) (average32 (l_rules c))).
  { apply (pair_mono g' g phs i' c' c T' T Cc' Cc (counterpart_sym _ _ _ _ Kc)). intros b a _ B. apply becomes_sym in B.
    destruct (becomes_canon g g' phs a b T T' B) as (Ca & Cb). destruct (H a b B) as [->|(_ & E)]; [apply at_most_refl; exact Ca|exact E]. }
  assert (N1 := average_canon g phs i m T C). assert (N2 := average_canon g phs i' c T Cc). assert (N3 := average_canon g' phs i' c' T' Cc').
  destruct (A i' c Cc) as (A1 & A2). split.
  - apply (proj2 (ltb_false _ _ N1 N3)). apply (le_trans _ _ _ Lc). apply (proj1 (ltb_false _ _ N1 N2)). exact A1.
  - intros O. apply (proj2 (ltb_true _ _ N3 N1)). intros Z.
    assert (O' : i' < i \/ i' = i /\ earlier c m).
    { destruct O as [O|(O & P)]; [left; exact O|right]. split; [exact O|]. unfold earlier in *. destruct Kc as (K1 & K3 & _). rewrite K1, K3 in P. exact P. }
    apply (proj1 (ltb_true _ _ N2 N1) (A2 O')). exact (le_trans _ _ _ Z Lc).
Qed.

(** ** Raising the scores of rules the answer does not use *)
Lemma order_total : forall g phs i m m', is_loaded g -> Forall (fun ph => (combinations ph <= 2 ^ 32)%N) phs -> Forall (Forall (fun k => is_inset (t_in k))) phs ->
  candidate g phs i m -> candidate g phs i m' -> m = m' \/ earlier m m' \/ earlier m' m.
Proof.
  intros g phs i m m' L CB SP (ph & N1 & L1) (ph' & N2 & L2). rewrite N1 in N2. injection N2 as <-. rewrite Forall_forall in CB, SP. assert (I := nth_error_In _ _ N1).
  destruct (search_defined g ADDRESS ph (loaded_linked g L) (loaded_address g L)) as (ps & E).
  destruct (OrderTop_proofs.search_listed g ADDRESS ph ps (loaded_linked g L) (CB ph I) (SP ph I) E) as (ds & ls & O1 & O2 & _).
  apply O2 in L1. apply O2 in L2. exact (sorted_total _ _ _ _ _ O1 L1 L2).
Qed.
Lemma changed_or_same : forall g g' l l', Forall2 (becomes g g') l l' -> (exists a b, In b l' /\ becomes g g' a b /\ b <> a) \/ l' = l.
Proof.
  intros g g' l l' F. induction F as [|a b l l' B _ IH]; [right; reflexivity|]. destruct (rule_dec b a) as [->|N].
  - destruct IH as [(x & y & I & J)| ->]; [left; exists x, y; split; [right; exact I|exact J]|right; reflexivity].
  - left. exists a, b. split; [left; reflexivity|]. split; [exact B|exact N].
Qed.
Lemma raised : forall g g' phs i m i' m', is_loaded g -> Forall (fun ph => (combinations ph <= 2 ^ 32)%N) phs ->
  Forall (Forall (fun k => is_inset (t_in k))) phs -> rescored g g' -> first_best g phs i m -> first_best g' phs i' m' ->
  (forall a b, becomes g g' a b -> In a (l_rules m) -> b = a) ->
  (i' = i /\ m' = m) \/ exists a b, In b (l_rules m') /\ becomes g g' a b /\ b <> a.
Proof.
  intros g g' phs i m i' m' L CB SP R (C & A) (C' & A') H.
  destruct (same_matches g' g phs i' m' (rescored_sym g g' R) C') as (c & Cc & Kc). apply counterpart_sym in Kc.
  destruct (changed_or_same g g' (l_rules c) (l_rules m')) as [Ch|E]; [apply Kc|right; exact Ch|left].
  assert (Ec : c = m'). { destruct c as [c1 c2 c3 c4], m' as [m1 m2 m3 m4]. destruct Kc as (K1 & K2 & K3 & _). cbn [l_classes l_choices l_rules l_times] in *. congruence. }
  subst c. destruct (same_matches g g' phs i m R C) as (m2 & C2 & K2).
  assert (E2 : m2 = m). { apply (same_listing g g' m m2 K2). intros a b I B. exact (H a b B I). }
  subst m2. destruct (A i' m' Cc) as (A1 & A2). destruct (A' i m C2) as (A3 & A4).
  assert (Ei : i' = i).
  { destruct (Nat.lt_trichotomy i' i) as [K|[K|K]]; [|exact K|]; exfalso.
    - rewrite A2 in A3 by (left; exact K). discriminate A3.
    - rewrite A4 in A1 by (left; exact K). discriminate A1. }
  subst i'. split; [reflexivity|]. destruct (order_total g phs i m m' L CB SP C Cc) as [K|[K|K]]; [symmetry; exact K| |]; exfalso.
  - rewrite A4 in A1 by (right; split; [reflexivity|exact K]). discriminate A1.
  - rewrite A2 in A3 by (right; split; [reflexivity|exact K]). discriminate A3.
Qed.

(** ** Raising a score far enough *)
Definition int_float (n : Z) : Prop := exists f, canon32 f /\ is_inf f = false /\ (fval f == inject_Z n)%Q.
Lemma int_floats : forall n, (1 <= n <= 2 ^ 24)%Z -> int_float n.
Proof.
  intros n H. destruct (Z.eq_dec n (2 ^ 24)) as [->|NE].
  - exists (S754_finite false 8388608 1). split; [|split; reflexivity]. split; [reflexivity|]. split; [lia|]. left. discriminate.
  - destruct n as [|p|p]; try lia.
    assert (D : (1 <= Zdigits2 (Z.pos p) <= 24)%Z).
    { pose proof (Zdigits2_pos (Z.pos p) ltac:(lia)). split; [lia|]. change (2 ^ 24)%Z with 16777216%Z in *. apply (Zdigits2_le (Z.pos p) 24); [lia|lia|]. change (2 ^ 24)%Z with 16777216%Z. lia. }
    destruct (round_exact 24 128 one_24 lt_24 p 0) as (m & e & _ & B & V); [change (2 ^ 24)%Z with 16777216%Z in *; lia|lia|].
    change (p2 0) with 1%Q in V. rewrite Qmult_1_r in V. cbn [fval] in V.
    assert (P := p2_pos e).
    assert (U : (p2 (23 + e) <= inject_Z (Z.pos p))%Q).
    { rewrite <- V, p2_plus. apply Qmult_le_r; [exact P|]. rewrite p2_Z by lia. apply inj_le. exact (proj1 B). }
    assert (W : (inject_Z (Z.pos p) < p2 (24 + e))%Q).
    { rewrite <- V, p2_plus. apply Qmult_lt_r; [exact P|]. rewrite p2_Z by lia. apply inj_lt. exact (proj2 B). }
    assert (U2 : (23 + e < 24)%Z). { apply p2_lt_inv. eapply Qle_lt_trans; [exact U|]. rewrite p2_Z by lia. apply inj_lt. lia. }
    assert (W2 : (0 < 24 + e)%Z). { apply p2_lt_inv. eapply Qle_lt_trans; [|exact W]. change (p2 0) with (inject_Z 1). apply inj_le. lia. }
    exists (S754_finite false m e). split; [|split; [reflexivity|exact V]]. split; [apply B|]. split; [lia|]. left. apply B.
Qed.
(** A value of the format is not changed by rounding. *)
Lemma near_exact : forall x f h, nearest 24 128 x f -> canon32 h -> is_inf h = false -> (fval h == x)%Q -> is_inf f = false /\ (fval f == x)%Q.
Proof.
  intros x f h N C I V. assert (Nh : nearest 24 128 x h) by (eapply nearest_eq; [exact V|apply (near_self 24 128 one_24 h C I)]).
  assert (A := near_mono 24 128 one_24 x x f h N Nh (Qle_refl x)). assert (B := near_mono 24 128 one_24 x x h f Nh N (Qle_refl x)).
  destruct A as [A|(A1 & A2 & A3)]; [congruence|]. destruct B as [B|(B1 & B2 & B3)]; [congruence|]. split; [exact A1|]. lra.
Qed.
Lemma one_value : canon32 float_one /\ is_inf float_one = false /\ (fval float_one == 1)%Q.
Proof. vm_compute. repeat split; try discriminate. left. discriminate. Qed.
Lemma ones_sum : forall n, (1 <= n <= 2 ^ 24)%Z -> let f := fold_left (SFadd 24 128) (repeat float_one (Z.to_nat n)) (S754_zero false) in
  canon32 f /\ is_inf f = false /\ (fval f == inject_Z n)%Q.
Proof.
  assert (G : forall k z a, (Z.of_nat k + a <= 2 ^ 24)%Z -> (0 <= a)%Z -> canon32 z -> is_inf z = false -> (fval z == inject_Z a)%Q ->
    let f := fold_left (SFadd 24 128) (repeat float_one k) z in canon32 f /\ is_inf f = false /\ (fval f == inject_Z (Z.of_nat k + a))%Q).
  { destruct one_value as (C1 & I1 & V1).
    induction k as [|k IH]; intros z a HB Ha C I V; cbn [repeat fold_left]; [auto|].
    assert (N := add_near 24 128 one_24 lt_24 z float_one C C1 I I1).
    destruct (int_floats (a + 1)) as (h & Ch & Ih & Vh); [lia|].
    destruct (near_exact _ _ h N Ch Ih) as (J & W). { rewrite Vh, V, V1, inject_Z_plus. reflexivity. }
    replace (Z.of_nat (S k) + a)%Z with (Z.of_nat k + (a + 1))%Z by lia. apply IH; [lia|lia|exact (near_canon 24 128 _ _ N)|exact J|].
    rewrite W, V, V1, inject_Z_plus. reflexivity. }
  intros n H. specialize (G (Z.to_nat n) (S754_zero false) 0%Z). rewrite Z2Nat.id, Z.add_0_r in G by lia. apply G; try lia; reflexivity.
Qed.
Lemma count_value : forall n, (0 < n)%nat -> (Z.of_nat n <= 2 ^ 24)%Z -> exists m e, binary_normalize 24 128 (Z.of_nat n) 0 false = S754_finite false m e /\
  (fval (S754_finite false m e) == inject_Z (Z.of_nat n))%Q.
Proof.
  intros n H HB. destruct (count_cases 24 128 one_24 lt_24 n H) as (m & e & E); [eapply Z.le_lt_trans; [exact HB|reflexivity]|].
  exists m, e. split; [exact E|]. destruct (int_floats (Z.of_nat n)) as (h & Ch & Ih & Vh); [lia|].
  destruct (Z.of_nat n) as [|p|p] eqn:EZ; try lia. cbn [binary_normalize] in E. assert (N := round_near 24 128 one_24 lt_24 p 0). rewrite E in N.
  destruct (near_exact _ _ h N Ch Ih) as (_ & W); [rewrite Vh; change (p2 0) with 1%Q; ring|]. rewrite W. change (p2 0) with 1%Q. ring.
Qed.
Lemma repeat_forall2 : forall A B (R : A -> B -> Prop) b l, Forall (fun a => R a b) l -> Forall2 R l (repeat b (List.length l)).
Proof. intros A B R b l F. induction F; constructor; assumption. Qed.
Lemma average_below : forall rs, rs <> [] -> (Z.of_nat (List.length rs) <= 2 ^ 24)%Z -> Forall (fun r => canon32 (r_score r) /\ le (r_score r) float_one) rs ->
  le (average32 rs) float_one.
Proof.
  intros rs NE HB F. destruct one_value as (C1 & I1 & V1). set (n := List.length rs) in *.
  assert (Pn : (0 < n)%nat) by (unfold n; destruct rs; [congruence|cbn; lia]).
  assert (E : le (avg 24 128 (map r_score rs)) (avg 24 128 (repeat float_one n))).
  { apply (avg_mono 24 128 one_24 lt_24).
    - intro E. apply map_eq_nil in E. contradiction.
    - rewrite map_length. eapply Z.le_lt_trans; [exact HB|reflexivity].
    - unfold n. rewrite <- (map_length r_score rs). apply repeat_forall2. rewrite Forall_map. eapply Forall_impl; [|exact F].
      intros r (A & B). split; [exact A|]. split; [exact C1|exact B]. }
  rewrite avg_average. apply (le_trans _ _ _ E). unfold avg. rewrite repeat_length.
  destruct (ones_sum (Z.of_nat n)) as (Cs & Is & Vs); [lia|]. rewrite Nat2Z.id in Cs, Is, Vs.
  destruct (count_value n Pn HB) as (m & e & Ec & Vc). rewrite Ec.
  assert (N := div_near 24 128 one_24 lt_24 _ m e Cs Is).
  eapply (near_mono 24 128 one_24); [exact N|apply (near_self 24 128 one_24 float_one C1 I1)|]. rewrite Vs, Vc, V1.
  assert (Q0 : (0 < inject_Z (Z.of_nat n))%Q) by (apply (inj_lt 0); lia). apply Qle_shift_div_r; [exact Q0|]. rewrite Qmult_1_l. apply Qle_refl.
Qed.
Lemma le_zero : forall f, canon32 f -> le (S754_zero false) f.
Proof.
  intros f C. unfold le. destruct (is_inf f) eqn:E; [left; reflexivity|right]. split; [reflexivity|]. split; [reflexivity|]. apply (canon_nonneg 24 128 f C).
Qed.
Lemma add_zero_l : forall f, canon32 f -> SFadd 24 128 (S754_zero false) f = f.
Proof. intros [s|s| |s m e] C; try contradiction; destruct s; try contradiction; reflexivity. Qed.
Lemma add_zero_r : forall f, canon32 f -> SFadd 24 128 f (S754_zero false) = f.
Proof. intros [s|s| |s m e] C; try contradiction; destruct s; try contradiction; reflexivity. Qed.
Lemma sum_above : forall fs a, Forall canon32 fs -> canon32 a -> canon32 (fold_left (SFadd 24 128) fs a) /\ le a (fold_left (SFadd 24 128) fs a) /\
  forall s, In s fs -> le s (fold_left (SFadd 24 128) fs a).
Proof.
  intros fs a F. revert a. induction F as [|f fs C F IH]; intros a Ca; cbn [fold_left]; [split; [exact Ca|split; [apply le_refl|intros s []]]|].
  assert (Cs := add_canon 24 128 one_24 lt_24 a f Ca C). destruct (IH _ Cs) as (A & B & D). split; [exact A|]. split.
  - eapply le_trans; [|exact B]. rewrite <- (add_zero_r a Ca) at 1. apply (add_mono 24 128 one_24 lt_24); try assumption; [exact I|apply le_refl|apply le_zero; exact C].
  - intros s [<-|J]; [|apply D; exact J]. eapply le_trans; [|exact B]. rewrite <- (add_zero_l f C) at 1.
    apply (add_mono 24 128 one_24 lt_24); try assumption; [exact I|apply le_zero; exact Ca|apply le_refl].
Qed.
Definition float_two : spec_float := f32_dec 2 0.
Lemma two_value : canon32 float_two /\ is_inf float_two = false /\ (fval float_two == 2)%Q.
Proof. vm_compute. repeat split; try discriminate. left. discriminate. Qed.
Lemma big_value : canon32 float_2_25 /\ is_inf float_2_25 = false /\ (fval float_2_25 == inject_Z (2 ^ 25))%Q.
Proof. vm_compute. repeat split; try discriminate. left. discriminate. Qed.
Lemma average_above : forall rs r, (Z.of_nat (List.length rs) <= 2 ^ 24)%Z -> Forall (fun r => canon32 (r_score r)) rs -> In r rs -> le float_2_25 (r_score r) ->
  le float_two (average32 rs).
Proof.
  intros rs r HB F J L. destruct big_value as (C1 & I1 & V1). destruct two_value as (C2 & I2 & V2). rewrite avg_average. unfold avg. rewrite map_length.
  assert (Pn : (0 < List.length rs)%nat) by (destruct rs; [destruct J|cbn; lia]).
  destruct (count_value _ Pn HB) as (m & e & Ec & Vc). rewrite Ec.
  destruct (sum_above (map r_score rs) (S754_zero false)) as (Cs & _ & D); [rewrite Forall_map; exact F|exact I|].
  assert (Ls : le float_2_25 (fold_left (SFadd 24 128) (map r_score rs) (S754_zero false))) by (eapply le_trans; [exact L|apply D; apply in_map; exact J]).
  destruct (div_mono 24 128 one_24 lt_24 _ _ m e C1 Cs Ls) as (_ & _ & Ld). eapply le_trans; [|exact Ld].
  eapply (near_mono 24 128 one_24); [apply (near_self 24 128 one_24 float_two C2 I2)|apply (div_near 24 128 one_24 lt_24 float_2_25 m e C1 I1)|].
  rewrite V1, V2, Vc. assert (Q0 : (0 < inject_Z (Z.of_nat (List.length rs)))%Q) by (apply (inj_lt 0); lia).
  apply Qle_shift_div_l; [exact Q0|]. change 2%Q with (inject_Z 2). rewrite <- inject_Z_mult. apply inj_le. lia.
Qed.
Lemma one_below_two : ~ le float_two float_one.
Proof. intros [H|(_ & _ & H)]; [discriminate H|]. destruct one_value as (_ & _ & V1). destruct two_value as (_ & _ & V2). rewrite V1, V2 in H. lra. Qed.
Lemma raise_enough : forall g g' phs i m a, is_loaded g -> float_scores g -> Forall (sizes_ok g) phs -> Forall (fun ph => (combinations ph <= 2 ^ 32)%N) phs ->
  Forall (Forall (fun k => is_inset (t_in k))) phs -> is_loaded g' -> float_scores g' -> rescored g g' ->
  (forall sec r, In sec (g_rules g) -> In r (rs_rules sec) -> at_most (r_score r) float_one) ->
  (forall i' m', candidate g phs i' m' -> (Z.of_nat (List.length (l_rules m')) <= 2 ^ 24)%Z) ->
  only_user g phs i m a -> only_changes g g' a -> (forall b, becomes g g' a b -> at_most float_2_25 (r_score b)) ->
  exists m', counterpart g g' m m' /\ first_best g' phs i m'.
Proof.
  intros g g' phs i m a L F SZ CB SP L' F' R LO LEN (C & Ia & U) OC BIG. assert (T : tunable g phs) by (split; assumption). assert (T' := tunable_rescored g g' phs T L' F' R).
  destruct (same_matches g g' phs i m R C) as (m' & C' & K). exists m'. split; [exact K|]. split; [exact C'|].
  assert (Lm : List.length (l_rules m') = List.length (l_rules m)) by (destruct K as (_ & _ & _ & K); symmetry; clear - K; induction K; cbn; congruence).
  assert (Hi : le float_two (average32 (l_rules m'))).
  { assert (J : exists b, In b (l_rules m') /\ becomes g g' a b).
    { destruct K as (_ & _ & _ & K). clear - K Ia. induction K as [|x y l l' B _ IH]; [destruct Ia|]. destruct Ia as [->|I]; [exists y; split; [left; reflexivity|exact B]|].
      destruct (IH I) as (b & J1 & J2). exists b. split; [right; exact J1|exact J2]. }
    destruct J as (b & Jb & Bb). apply (average_above _ b).
    - rewrite Lm. exact (LEN i m C).
    - apply Forall_forall. intros r Ir. exact (rule_canon_of g' phs i m' r T' C' Ir).
    - exact Jb.
    - apply (proj2 (le_leb _ _ (proj1 big_value) (rule_canon_of g' phs i m' b T' C' Jb))). apply BIG. exact Bb. }
  assert (N' := average_canon g' phs i m' T' C').
  intros i' c' Cc'. destruct (same_matches g' g phs i' c' (rescored_sym g g' R) Cc') as (c & Cc & Kc). apply counterpart_sym in Kc.
  destruct (in_dec rule_dec a (l_rules c)) as [Ic|Nc].
  - destruct (U i' c Cc Ic) as (-> & ->).
    assert (E : m' = c').
    { destruct K as (K1 & K2 & _), Kc as (Q1 & Q2 & _).
      destruct (order_total g' phs i m' c' L' CB SP C' Cc') as [E|[E|E]]; [exact E| |]; exfalso; (apply (earlier_self m'); unfold earlier in *; rewrite ?K1, ?K2, ?Q1, ?Q2 in *; exact E). }
    subst c'. split; [apply (proj2 (ltb_false _ _ N' N')); apply le_refl|]. intros [O|(_ & O)]; [lia|destruct (earlier_self _ O)].
  - assert (E : c' = c). { apply (same_listing g g' c c' Kc). intros x y I B. apply (OC x y B). intros ->. contradiction. }
    subst c'. assert (Nc1 := average_canon g phs i' c T Cc). destruct (candidate_facts g phs i' c T Cc) as (A1 & A2 & A3).
    assert (Lo : le (average32 (l_rules c)) float_one).
    { apply average_below; [exact A1|exact (LEN i' c Cc)|]. apply Forall_forall. intros r I. assert (Cr := rule_canon_of g phs i' c r T Cc I). split; [exact Cr|].
      apply (proj2 (le_leb _ _ Cr (proj1 one_value))). rewrite Forall_forall in A3. destruct (A3 r I) as (sec & J1 & J2). exact (LO sec r J1 J2). }
    assert (NG : ~ le (average32 (l_rules m')) (average32 (l_rules c))).
    { intros Z. apply one_below_two. eapply le_trans; [exact Hi|]. eapply le_trans; [exact Z|exact Lo]. }
    assert (LT : SFltb (average32 (l_rules c)) (average32 (l_rules m')) = true) by (apply (proj2 (ltb_true _ _ Nc1 N')); exact NG).
    split; [|intros _; exact LT]. apply (proj2 (ltb_false _ _ N' Nc1)). destruct (le_total (average32 (l_rules c)) (average32 (l_rules m'))) as [Z|Z]; [exact Z|contradiction].
Qed.

(** ** as_standardize *)
Lemma kept_row : forall e g g' x locale filt address phs i m, is_loaded g -> float_scores g -> built x -> simple_words x -> apart_tables (e_uni e) -> word_tables (e_uni e) ->
  let t := e_upper e (x_locale x) (e_nfc e (e_upper e locale (e_nfc e address))) in blank_lines (e_uni e) t -> case_clear (e_uni e) x t -> tabs_apart (e_uni e) x ->
  read_address (e_uni e) x filt t phs -> Forall (sizes_ok g) phs -> Forall (fun ph => (combinations ph <= 2 ^ 32)%N) phs ->
  is_loaded g' -> float_scores g' -> rescored g g' -> first_best g phs i m ->
  (forall a b, becomes g g' a b -> b = a \/ (~ In a (l_rules m) /\ at_most (r_score b) (r_score a))) ->
  standardize_addr e g' x locale filt address = standardize_addr e g x locale filt address.
Proof.
  intros e g g' x locale filt address phs i m L F B S1 T1 T2 t BL CE NT R SZ CB L' F' RS FB H.
  assert (P := R). apply (proj2 (make_phrases_are e x locale filt address phs B S1 T1 T2 BL CE NT)) in P.
  assert (FB' := kept g g' phs i m L F SZ L' F' RS FB H).
  destruct (answered e g x locale filt address phs L (float_no_nan g F) SZ P) as (o & E & _). rewrite E.
  assert (A := proj1 (address_answer e g x locale filt address phs o L (float_no_nan g F) B S1 T1 T2 BL CE NT R SZ CB) E).
  apply (proj2 (address_answer e g' x locale filt address phs o L' (float_no_nan g' F') B S1 T1 T2 BL CE NT R (rescored_sizes g g' phs RS SZ) CB)).
  destruct o as [r|].
  - destruct A as (i2 & m2 & ph & ws & FB2 & A). destruct (chosen_unique g phs i2 m2 i m L SZ CB (read_sorted _ _ _ _ _ R) FB2 FB) as (-> & ->).
    exists i, m, ph, ws. split; [exact FB'|exact A].
  - destruct (A i m (proj1 FB)).
Qed.
