(** Concrete grammars for the examples of Tune_props, and the two ways in which tuning fails. *)
From Coq Require Import String List NArith ZArith Bool Lia Arith QArith Lqa Sorting.Sorted Floats.SpecFloat.
From Verif Require Import Base_model Class_model Class_spec Float_model Token_model Rule_model Uni_model Grammar_model Search_model Lexicon_model Tokenizer_model Wrapper_model Sample_model Search_spec Lexicon_spec Tokenizer_spec Wrapper_spec Split_spec Loaded_spec Read_spec Address_spec
  Order_spec Answer_spec FloatAcc_spec Tune_spec FloatMono_proofs Search_proofs SearchTop_proofs SearchBest_proofs Loaded_proofs TokExample_proofs Split_proofs SplitEx_proofs WrapperEx_proofs Address_proofs AddressEx_proofs Order_proofs OrderTop_proofs Growth_proofs Answer_proofs AnswerEx_proofs Tune_proofs.
Import ListNotations.
Local Open Scope nat_scope.

(** ** Checks *)
Definition same_b (r r' : rule) : bool :=
  (if list_eq_dec class_dec (r_in r') (r_in r) then true else false) && (if rule_dec r' (mkRule (r_in r') (r_out r) (r_score r')) then true else false).
Fixpoint all2 {A B} (p : A -> B -> bool) (l : list A) (l' : list B) : bool :=
  match l, l' with [], [] => true | a :: l, b :: l' => p a b && all2 p l l' | _, _ => false end.
Lemma all2_ok : forall A B (p : A -> B -> bool) (R : A -> B -> Prop), (forall a b, p a b = true -> R a b) -> forall l l', all2 p l l' = true -> Forall2 R l l'.
Proof.
  intros A B p R H. induction l as [|a l IH]; intros [|b l'] E; try discriminate E; constructor; apply andb_true_iff in E; [apply H|apply IH]; apply E.
Qed.
Definition rescored_b (g g' : grammar) : bool := all2 (fun s s' => teqb (rs_name s') (rs_name s) && all2 same_b (rs_rules s) (rs_rules s')) (g_rules g) (g_rules g').
Lemma rescored_b_ok : forall g g', g_metas g' = g_metas g -> g_index g' = g_index g -> rescored_b g g' = true -> rescored g g'.
Proof.
  intros g g' M X E. split; [exact M|]. split; [exact X|]. revert E. apply all2_ok. intros s s' E. apply andb_true_iff in E. destruct E as (E1 & E2).
  split; [apply teqb_eq; exact E1|]. revert E2. apply all2_ok. intros r r' E. unfold same_b in E. apply andb_true_iff in E. destruct E as (A & B). split.
  - destruct (list_eq_dec class_dec (r_in r') (r_in r)); [assumption|discriminate A].
  - destruct (rule_dec r' (mkRule (r_in r') (r_out r) (r_score r'))) as [Q|]; [rewrite Q; reflexivity|discriminate B].
Qed.
Definition pairs (g g' : grammar) : list (rule * rule) := flat_map (fun ss => combine (rs_rules (fst ss)) (rs_rules (snd ss))) (combine (g_rules g) (g_rules g')).
Lemma combine_nth_in : forall A B (l : list A) (l' : list B) i a b, nth_error l i = Some a -> nth_error l' i = Some b -> In (a, b) (combine l l').
Proof.
  induction l as [|x l IH]; intros [|y l'] [|i] a b H K; try discriminate; cbn [nth_error combine] in *; [left; congruence|right; eapply IH; eassumption].
Qed.
Lemma becomes_pair : forall g g' r r', becomes g g' r r' -> In (r, r') (pairs g g').
Proof.
  intros g g' r r' (i & j & s & s' & A & B & C & D). apply in_flat_map. exists (s, s'). split; [eapply combine_nth_in; eassumption|cbn [fst snd]; eapply combine_nth_in; eassumption].
Qed.
Definition floats_b (g : grammar) : bool := forallb (fun s => forallb (fun r => valid_binary 24 128 (r_score r) && (match r_score r with S754_nan => false | _ => true end)) (rs_rules s)) (g_rules g).
Lemma floats_b_ok : forall g, floats_b g = true -> float_scores g.
Proof.
  intros g E sec r I J. unfold floats_b in E. rewrite forallb_forall in E. assert (K := E sec I). rewrite forallb_forall in K. assert (Q := K r J). apply andb_true_iff in Q. destruct Q as (A & B).
  split; [exact A|]. intros Z. rewrite Z in B. discriminate B.
Qed.
Definition most_b (g : grammar) : bool := forallb (fun s => forallb (fun r => SFleb (r_score r) float_one) (rs_rules s)) (g_rules g).
Lemma most_b_ok : forall g, most_b g = true -> forall sec r, In sec (g_rules g) -> In r (rs_rules sec) -> at_most (r_score r) float_one.
Proof. intros g E sec r I J. unfold most_b in E. rewrite forallb_forall in E. assert (K := E sec I). rewrite forallb_forall in K. exact (K r J). Qed.

(** ** The matches of one tokenization *)
Definition fits1 (g : grammar) (ph : list token) : Prop := is_loaded g /\ Forall (sizes_ok g) [ph] /\ Forall (fun ph => (combinations ph <= 2 ^ 32)%N) [ph] /\ Forall (Forall (fun k => is_inset (t_in k))) [ph].
Lemma cand_enum : forall g ph ps, fits1 g ph -> search g ph = Ok ps -> exists ls, map p_rules ps = map l_rules ls /\ forall i m, candidate g [ph] i m <-> i = 0 /\ In m ls.
Proof.
  intros g ph ps (L & SZ & CB & SP) H. inversion CB; subst. inversion SP; subst.
  destruct (search_listed g ADDRESS ph ps (loaded_linked g L)) as (ds & ls & A & B & C & D & _); try assumption. exists ls. split; [exact C|]. intros i m. split.
  - intros (ph' & N & K). destruct i as [|[|i]]; [|discriminate N|discriminate N]. injection N as <-. split; [reflexivity|]. apply B in K. exact (echo_all _ _ _ _ _ D K).
  - intros (-> & I). exists ph. split; [reflexivity|]. apply B. clear - D I. assert (G : forall s d l, echoes s d l -> In m l -> In m s \/ In m d).
    { intros s d l E. induction E as [s|x s d l E IH|x s d l J E IH]; intros K; [destruct K| |].
      - destruct K as [->|K]; [right; left; reflexivity|]. destruct (IH K) as [[->|Q]|Q]; [right; left; reflexivity|left; exact Q|right; right; exact Q].
      - destruct K as [->|K]; [left; exact J|apply IH; exact K]. }
    destruct (G _ _ _ D I) as [[]|K]. exact K.
Qed.

(** ** One rule for both words, or one rule for each *)
Definition tune_src (a b c : string) : text := s2t ("[ADDRESS]
@pair
@left @right

[pair]
NUMBER WORD -> POSTAL CITY -> " ++ a ++ "

[left]
NUMBER -> HOUSE -> " ++ b ++ "

[right]
WORD -> STREET -> " ++ c ++ "
")%string.
Definition tune_g (a b c : string) : grammar := match load_grammar ascii_uni sample_atof (tune_src a b c) with Ok L => gl_grammar L | _ => mkGrammar [] [] [] end.
Lemma tune_loaded : forall a b c, (match load_grammar ascii_uni sample_atof (tune_src a b c) with Ok _ => true | _ => false end) = true -> is_loaded (tune_g a b c).
Proof.
  intros a b c H. unfold tune_g. destruct (load_grammar ascii_uni sample_atof (tune_src a b c)) as [L| |] eqn:E; try discriminate H.
  exists ascii_uni, sample_atof, (tune_src a b c), L. split; [apply ascii_uni_ok|]. split; [exact E|reflexivity].
Qed.
Definition v_ph : list token := hd [] (match make_phrases ascii_env w_x en w_filter v_addr with Ok p => p | _ => [] end).
Lemma v_read : read_address ascii_uni w_x w_filter v_text [v_ph].
Proof.
  destruct v_setting as (A1 & A2 & A3 & A4 & A5 & A6 & A7). apply (make_phrases_are ascii_env w_x en w_filter v_addr [v_ph] A1 A2 A3 A4 A5 A6 A7). vm_compute. reflexivity.
Qed.
Lemma v_insets : Forall (Forall (fun k => is_inset (t_in k))) [v_ph].
Proof. exact (read_sorted _ _ _ _ _ v_read). Qed.
Lemma v_combs : Forall (fun ph => (combinations ph <= 2 ^ 32)%N) [v_ph].
Proof. constructor; [vm_compute; discriminate|constructor]. Qed.
Definition g_first : grammar := tune_g "0.9" "0.4" "0.4".
(** A rule of the other match lowered; the same rule raised beyond 2^25. *)
Definition g_lower : grammar := tune_g "0.9" "0.2" "0.4".
Definition g_higher : grammar := tune_g "0.9" "33554432" "0.4".
Definition r_pair : rule := mkRule [I_NUMBER; I_WORD] [O_POSTAL; O_CITY] (f32_dec 9 1).
Definition r_left : rule := mkRule [I_NUMBER] [O_HOUSE] (f32_dec 4 1).
Definition r_right : rule := mkRule [I_WORD] [O_STREET] (f32_dec 4 1).
Lemma g_first_loaded : is_loaded g_first. Proof. apply tune_loaded. vm_compute. reflexivity. Qed.
Lemma g_lower_loaded : is_loaded g_lower. Proof. apply tune_loaded. vm_compute. reflexivity. Qed.
Lemma g_higher_loaded : is_loaded g_higher. Proof. apply tune_loaded. vm_compute. reflexivity. Qed.
Lemma sizes_of : forall g ph, width_b g 2 = true -> (Z.of_nat ((List.length ph + 2) * 2 + 1) < 2 ^ 127)%Z -> Forall (sizes_ok g) [ph].
Proof. intros g ph W B. constructor; [|constructor]. exists 2. split; [apply width_b_ok; exact W|exact B]. Qed.
Lemma g_first_fits : fits1 g_first v_ph.
Proof.
  split; [exact g_first_loaded|]. split; [apply sizes_of; vm_compute; reflexivity|]. split; [exact v_combs|exact v_insets].
Qed.
(** Two matches. *)
Lemma two_cands : forall g ph p1 p2, fits1 g ph -> search g ph = Ok [p1; p2] ->
  exists m1 m2, l_rules m1 = p_rules p1 /\ l_rules m2 = p_rules p2 /\ forall i m, candidate g [ph] i m <-> i = 0 /\ (m = m1 \/ m = m2).
Proof.
  intros g ph p1 p2 F H. destruct (cand_enum g ph _ F H) as (ls & E & C). destruct ls as [|m1 [|m2 [|m3 ls]]]; try discriminate E. injection E as E1 E2.
  exists m1, m2. split; [symmetry; exact E1|]. split; [symmetry; exact E2|]. intros i m. rewrite C. cbn [In]. split.
  - intros (A & [B|[B|[]]]); auto.
  - intros (A & [B|B]); auto.
Qed.
Lemma best_of : forall g ph m1 m2, (forall i m, candidate g [ph] i m <-> i = 0 /\ (m = m1 \/ m = m2)) ->
  SFltb (average32 (l_rules m2)) (average32 (l_rules m1)) = true -> SFltb (average32 (l_rules m1)) (average32 (l_rules m2)) = false ->
  SFltb (average32 (l_rules m1)) (average32 (l_rules m1)) = false -> first_best g [ph] 0 m1.
Proof.
  intros g ph m1 m2 C H1 H2 H3. split; [apply C; auto|]. intros i m K. apply C in K. destruct K as (-> & [->| ->]).
  - split; [exact H3|]. intros [O|(_ & O)]; [lia|destruct (earlier_self _ O)].
  - split; [exact H2|]. intros _. exact H1.
Qed.
Lemma g_first_search : exists p1 p2, search g_first v_ph = Ok [p1; p2] /\ p_rules p1 = [r_pair] /\ p_rules p2 = [r_left; r_right].
Proof. eexists. eexists. split; [vm_compute; reflexivity|]. split; vm_compute; reflexivity. Qed.
Lemma g_first_cands : exists m1 m2, l_rules m1 = [r_pair] /\ l_rules m2 = [r_left; r_right] /\
  (forall i m, candidate g_first [v_ph] i m <-> i = 0 /\ (m = m1 \/ m = m2)) /\ first_best g_first [v_ph] 0 m1.
Proof.
  destruct g_first_search as (p1 & p2 & H & E1 & E2). destruct (two_cands g_first v_ph p1 p2 g_first_fits H) as (m1 & m2 & R1 & R2 & C). rewrite E1 in R1. rewrite E2 in R2.
  exists m1, m2. split; [exact R1|]. split; [exact R2|]. split; [exact C|]. apply (best_of g_first v_ph m1 m2 C); rewrite ?R1, ?R2; vm_compute; reflexivity.
Qed.
Lemma g_lower_rescored : rescored g_first g_lower.
Proof. apply rescored_b_ok; vm_compute; reflexivity. Qed.
Lemma g_higher_rescored : rescored g_first g_higher.
Proof. apply rescored_b_ok; vm_compute; reflexivity. Qed.
Definition r_lower : rule := mkRule [I_NUMBER] [O_HOUSE] (f32_dec 2 1).
Definition r_higher : rule := mkRule [I_NUMBER] [O_HOUSE] float_2_25.
Lemma g_lower_pairs : forall a b, becomes g_first g_lower a b -> (a = r_pair /\ b = r_pair) \/ (a = r_left /\ b = r_lower) \/ (a = r_right /\ b = r_right).
Proof.
  intros a b B. apply becomes_pair in B. assert (E : pairs g_first g_lower = [(r_pair, r_pair); (r_left, r_lower); (r_right, r_right)]) by (vm_compute; reflexivity).
  rewrite E in B. destruct B as [B|[B|[B|[]]]]; injection B as <- <-; auto.
Qed.
Lemma g_higher_pairs : forall a b, becomes g_first g_higher a b -> (a = r_pair /\ b = r_pair) \/ (a = r_left /\ b = r_higher) \/ (a = r_right /\ b = r_right).
Proof.
  intros a b B. apply becomes_pair in B. assert (E : pairs g_first g_higher = [(r_pair, r_pair); (r_left, r_higher); (r_right, r_right)]) by (vm_compute; reflexivity).
  rewrite E in B. destruct B as [B|[B|[B|[]]]]; injection B as <- <-; auto.
Qed.
Lemma pair_left : r_pair <> r_left. Proof. intro E. discriminate (f_equal r_in E). Qed.
Lemma right_left : r_right <> r_left. Proof. intro E. discriminate (f_equal r_in E). Qed.
(** The examples. *)
Lemma lower_example : exists i m, is_loaded g_first /\ float_scores g_first /\ Forall (sizes_ok g_first) [v_ph] /\ is_loaded g_lower /\ float_scores g_lower /\ rescored g_first g_lower /\
  first_best g_first [v_ph] i m /\ rule_outputs (l_rules m) = [O_POSTAL; O_CITY] /\
  (forall a b, becomes g_first g_lower a b -> b = a \/ (~ In a (l_rules m) /\ at_most (r_score b) (r_score a))) /\
  exists a b, becomes g_first g_lower a b /\ b <> a.
Proof.
  destruct g_first_cands as (m1 & m2 & R1 & R2 & C & FB). exists 0, m1. split; [exact g_first_loaded|]. split; [apply floats_b_ok; vm_compute; reflexivity|].
  split; [apply g_first_fits|]. split; [exact g_lower_loaded|]. split; [apply floats_b_ok; vm_compute; reflexivity|]. split; [exact g_lower_rescored|]. split; [exact FB|].
  split; [rewrite R1; reflexivity|]. split.
  - intros a b B. apply g_lower_pairs in B. destruct B as [(-> & ->)|[(-> & ->)|(-> & ->)]]; auto. right. rewrite R1. split; [|vm_compute; reflexivity].
    intros [E|[]]. exact (pair_left E).
  - exists r_left, r_lower. split; [exists 1, 0, (mkRules (s2t "left"%string) [r_left]), (mkRules (s2t "left"%string) [r_lower]); repeat split; vm_compute; reflexivity|]. intros E. apply (f_equal r_score) in E. vm_compute in E. discriminate E.
Qed.
Lemma g_higher_only : only_changes g_first g_higher r_left.
Proof. intros r r' B N. apply g_higher_pairs in B. destruct B as [(-> & ->)|[(-> & ->)|(-> & ->)]]; congruence. Qed.
Lemma only_user_left : exists m1 m2, l_rules m1 = [r_pair] /\ l_rules m2 = [r_left; r_right] /\ first_best g_first [v_ph] 0 m1 /\ candidate g_first [v_ph] 0 m1 /\
  only_user g_first [v_ph] 0 m2 r_left.
Proof.
  destruct g_first_cands as (m1 & m2 & R1 & R2 & C & FB). exists m1, m2. split; [exact R1|]. split; [exact R2|]. split; [exact FB|]. split; [apply C; auto|].
  split; [apply C; auto|]. split; [rewrite R2; left; reflexivity|]. intros i m K I. apply C in K. destruct K as (-> & [->| ->]); [|auto]. rewrite R1 in I. destruct I as [I|[]]. destruct (pair_left I).
Qed.
Lemma higher_example : exists i m a, (is_loaded g_first /\ float_scores g_first /\ Forall (sizes_ok g_first) [v_ph] /\ Forall (fun ph => (combinations ph <= 2 ^ 32)%N) [v_ph] /\
    Forall (Forall (fun k => is_inset (t_in k))) [v_ph]) /\ is_loaded g_higher /\ float_scores g_higher /\ rescored g_first g_higher /\
  (forall sec r, In sec (g_rules g_first) -> In r (rs_rules sec) -> at_most (r_score r) float_one) /\
  (forall i' m', candidate g_first [v_ph] i' m' -> (Z.of_nat (List.length (l_rules m')) <= 2 ^ 24)%Z) /\
  only_user g_first [v_ph] i m a /\ only_changes g_first g_higher a /\ (forall b, becomes g_first g_higher a b -> at_most float_2_25 (r_score b)) /\ ~ first_best g_first [v_ph] i m.
Proof.
  destruct only_user_left as (m1 & m2 & R1 & R2 & FB & C1 & U). exists 0, m2, r_left. split.
  - destruct g_first_fits as (A & B & C & D). split; [exact A|]. split; [apply floats_b_ok; vm_compute; reflexivity|]. auto.
  - split; [exact g_higher_loaded|]. split; [apply floats_b_ok; vm_compute; reflexivity|]. split; [exact g_higher_rescored|]. split; [apply most_b_ok; vm_compute; reflexivity|]. split.
    + intros i' m' K. destruct g_first_cands as (n1 & n2 & Q1 & Q2 & C & _). apply C in K. destruct K as (_ & [->| ->]); rewrite ?Q1, ?Q2; vm_compute; discriminate.
    + split; [exact U|]. split; [exact g_higher_only|]. split.
      * intros b B. apply g_higher_pairs in B. destruct B as [(E & _)|[(_ & ->)|(E & _)]]; [destruct (pair_left (eq_sym E))|vm_compute; reflexivity|destruct (right_left (eq_sym E))].
      * intros (_ & FB2). destruct (FB2 0 m1 C1) as (Z & _). rewrite R1, R2 in Z. vm_compute in Z. discriminate Z.
Qed.

(** Scores up to one may not suffice. *)
Lemma not_within_range : exists g phs i m a, (is_loaded g /\ float_scores g /\ Forall (sizes_ok g) phs /\ Forall (fun ph => (combinations ph <= 2 ^ 32)%N) phs /\ Forall (Forall (fun k => is_inset (t_in k))) phs) /\
  (forall sec r, In sec (g_rules g) -> In r (rs_rules sec) -> at_most (r_score r) float_one) /\ only_user g phs i m a /\
  forall g' m', is_loaded g' -> float_scores g' -> rescored g g' -> only_changes g g' a -> (forall b, becomes g g' a b -> at_most (r_score b) float_one) ->
    counterpart g g' m m' -> ~ first_best g' phs i m'.
Proof.
  destruct only_user_left as (m1 & m2 & R1 & R2 & FB & C1 & U). exists g_first, [v_ph], 0, m2, r_left. split.
  - destruct g_first_fits as (A & B & C & D). split; [exact A|]. split; [apply floats_b_ok; vm_compute; reflexivity|]. auto.
  - split; [apply most_b_ok; vm_compute; reflexivity|]. split; [exact U|]. intros g' m' L' F' RS OC UP (_ & _ & _ & K) (C' & A').
    rewrite R2 in K. inversion K as [|x b1 l l' B1 K1 E1 E2]; subst. inversion K1 as [|x b2 l l'' B2 K2 E3 E4]; subst. inversion K2; subst.
    assert (Eb : b2 = r_right) by (apply (OC r_right b2 B2); exact right_left). subst b2. rewrite <- E2 in A'.
    destruct (same_matches g_first g' [v_ph] 0 m1 RS C1) as (n & Cn & Kn).
    assert (En : n = m1). { apply (same_listing g_first g' m1 n Kn). rewrite R1. intros x y [<-|[]] B. apply (OC r_pair y B). exact pair_left. }
    subst n. destruct (A' 0 m1 Cn) as (Z & _). rewrite R1 in Z.
    destruct (becomes_in _ _ _ _ B1) as (_ & s1 & _ & _ & I1 & I2). assert (Cb := rule_canon g' s1 b1 L' F' I1 I2).
    destruct (becomes_in _ _ _ _ B2) as (_ & s2 & _ & _ & J1 & J2). assert (Cr := rule_canon g' s2 r_right L' F' J1 J2).
    assert (Lb := proj2 (le_leb _ _ Cb (proj1 one_value)) (UP b1 B1)).
    destruct (avg_mono 24 128 one_24 lt_24 [r_score b1; r_score r_right] [float_one; r_score r_right]) as (N1 & N2 & LE).
    + discriminate.
    + reflexivity.
    + constructor; [split; [exact Cb|split; [exact (proj1 one_value)|exact Lb]]|]. constructor; [split; [exact Cr|split; [exact Cr|apply le_refl]]|constructor].
    + change (avg 24 128 [r_score b1; r_score r_right]) with (avg 24 128 (map r_score [b1; r_right])) in *. rewrite <- avg_average in *.
      assert (Np : canon 24 128 (average32 [r_pair])) by (vm_compute; repeat split; try discriminate; left; discriminate).
      assert (Lp := proj1 (ltb_false _ _ N1 Np) Z). assert (W := proj2 (ltb_false _ _ N2 Np) (le_trans _ _ _ Lp LE)). vm_compute in W. discriminate W.
Qed.

(** ** Raising a rule which the answer uses *)
Definition used_src (a : string) : text := s2t ("[ADDRESS]
@first @second
@first @first

[first]
WORD -> STREET -> " ++ a ++ "

[second]
WORD -> CITY -> 0.7
")%string.
Definition used_g (a : string) : grammar := match load_grammar ascii_uni sample_atof (used_src a) with Ok L => gl_grammar L | _ => mkGrammar [] [] [] end.
Lemma used_loaded : forall a, (match load_grammar ascii_uni sample_atof (used_src a) with Ok _ => true | _ => false end) = true -> is_loaded (used_g a).
Proof.
  intros a H. unfold used_g. destruct (load_grammar ascii_uni sample_atof (used_src a)) as [L| |] eqn:E; try discriminate H.
  exists ascii_uni, sample_atof, (used_src a), L. split; [apply ascii_uni_ok|]. split; [exact E|reflexivity].
Qed.
Definition u_before : grammar := used_g "0.5".
Definition u_after : grammar := used_g "0.9".
Definition u_ph : list token := [tk "MAIN" [I_WORD]; tk "CITY" [I_WORD]].
Definition r_5 : rule := mkRule [I_WORD] [O_STREET] (f32_dec 5 1).
Definition r_9 : rule := mkRule [I_WORD] [O_STREET] (f32_dec 9 1).
Definition r_7 : rule := mkRule [I_WORD] [O_CITY] (f32_dec 7 1).
Lemma u_fits : fits1 u_before u_ph /\ fits1 u_after u_ph.
Proof.
  split; (split; [apply used_loaded; vm_compute; reflexivity|]; split; [apply sizes_of; vm_compute; reflexivity|]; split; [constructor; [vm_compute; discriminate|constructor]|repeat constructor]).
Qed.
Lemma raise_used : exists g g' phs i m i' m' a, is_loaded g /\ float_scores g /\ is_loaded g' /\ float_scores g' /\ rescored g g' /\ first_best g phs i m /\ In a (l_rules m) /\
  only_changes g g' a /\ (forall b, becomes g g' a b -> at_most (r_score a) (r_score b)) /\ first_best g' phs i' m' /\ rule_outputs (l_rules m') <> rule_outputs (l_rules m).
Proof.
  destruct u_fits as (F1 & F2).
  assert (S1 : exists p1 p2, search u_before u_ph = Ok [p1; p2] /\ p_rules p1 = [r_5; r_7] /\ p_rules p2 = [r_5; r_5]) by (eexists; eexists; split; [vm_compute; reflexivity|]; split; vm_compute; reflexivity).
  assert (S2 : exists p1 p2, search u_after u_ph = Ok [p1; p2] /\ p_rules p1 = [r_9; r_7] /\ p_rules p2 = [r_9; r_9]) by (eexists; eexists; split; [vm_compute; reflexivity|]; split; vm_compute; reflexivity).
  destruct S1 as (p1 & p2 & H & E1 & E2). destruct (two_cands _ _ p1 p2 F1 H) as (m1 & m2 & R1 & R2 & C). rewrite E1 in R1. rewrite E2 in R2.
  destruct S2 as (q1 & q2 & H' & E1' & E2'). destruct (two_cands _ _ q1 q2 F2 H') as (n1 & n2 & Q1 & Q2 & C'). rewrite E1' in Q1. rewrite E2' in Q2.
  assert (P : forall a b, becomes u_before u_after a b -> (a = r_5 /\ b = r_9) \/ (a = r_7 /\ b = r_7)).
  { intros a b B. apply becomes_pair in B. assert (E : pairs u_before u_after = [(r_5, r_9); (r_7, r_7)]) by (vm_compute; reflexivity).
    rewrite E in B. destruct B as [B|[B|[]]]; injection B as <- <-; auto. }
  exists u_before, u_after, [u_ph], 0, m1, 0, n2, r_5. split; [apply F1|]. split; [apply floats_b_ok; vm_compute; reflexivity|]. split; [apply F2|]. split; [apply floats_b_ok; vm_compute; reflexivity|].
  split; [apply rescored_b_ok; vm_compute; reflexivity|]. split; [apply (best_of _ _ m1 m2 C); rewrite ?R1, ?R2; vm_compute; reflexivity|].
  split; [rewrite R1; left; reflexivity|]. split; [intros r r' B N; apply P in B; destruct B as [(-> & ->)|(-> & ->)]; congruence|].
  split; [intros b B; apply P in B; destruct B as [(_ & ->)|(E & _)]; [vm_compute; reflexivity|discriminate (f_equal r_out E)]|].
  split; [|rewrite Q2, R1; discriminate].
  assert (C2 : forall i m, candidate u_after [u_ph] i m <-> i = 0 /\ (m = n2 \/ m = n1)) by (intros i m; rewrite C'; tauto).
  apply (best_of _ _ n2 n1 C2); rewrite ?Q1, ?Q2; vm_compute; reflexivity.
Qed.
Lemma row_example : exists i m, (built w_x /\ simple_words w_x /\ apart_tables ascii_uni /\ word_tables ascii_uni /\ blank_lines ascii_uni v_text /\ case_clear ascii_uni w_x v_text /\ tabs_apart ascii_uni w_x) /\
  read_address ascii_uni w_x w_filter v_text [v_ph] /\ Forall (fun ph => (combinations ph <= 2 ^ 32)%N) [v_ph] /\ first_best g_first [v_ph] i m /\
  (forall a b, becomes g_first g_lower a b -> b = a \/ (~ In a (l_rules m) /\ at_most (r_score b) (r_score a))) /\
  exists r, standardize_addr ascii_env g_lower w_x en w_filter v_addr = Ok (Some r) /\ sa_pattern r = s2t "NUMBER WORD -> POSTAL CITY"%string.
Proof.
  destruct lower_example as (i & m & L & F & SZ & L' & F' & RS & FB & _ & H & _). exists i, m. split; [exact v_setting|]. split; [exact v_read|]. split; [exact v_combs|]. split; [exact FB|]. split; [exact H|].
  destruct v_setting as (A1 & A2 & A3 & A4 & A5 & A6 & A7).
  rewrite (kept_row ascii_env g_first g_lower w_x en w_filter v_addr [v_ph] i m L F A1 A2 A3 A4 A5 A6 A7 v_read SZ v_combs L' F' RS FB H).
  eexists. split; [vm_compute; reflexivity|]. vm_compute. reflexivity.
Qed.
Lemma other_example : exists i m i' m', is_loaded g_first /\ Forall (fun ph => (combinations ph <= 2 ^ 32)%N) [v_ph] /\ Forall (Forall (fun k => is_inset (t_in k))) [v_ph] /\ rescored g_first g_higher /\
  first_best g_first [v_ph] i m /\ first_best g_higher [v_ph] i' m' /\ (forall a b, becomes g_first g_higher a b -> In a (l_rules m) -> b = a) /\
  rule_outputs (l_rules m) = [O_POSTAL; O_CITY] /\ rule_outputs (l_rules m') = [O_HOUSE; O_STREET].
Proof.
  destruct higher_example as (_ & _ & _ & (L & F & SZ & CB & SP) & L' & F' & RS & LO & LEN & _). destruct only_user_left as (m1 & m2 & R1 & R2 & FB & C1 & U).
  assert (BG : forall b, becomes g_first g_higher r_left b -> at_most float_2_25 (r_score b)).
  { intros b B. apply g_higher_pairs in B. destruct B as [(E & _)|[(_ & ->)|(E & _)]]; [destruct (pair_left (eq_sym E))|vm_compute; reflexivity|destruct (right_left (eq_sym E))]. }
  destruct (raise_enough g_first g_higher [v_ph] 0 m2 r_left L F SZ CB SP L' F' RS LO LEN U g_higher_only BG) as (m' & (_ & _ & _ & K) & FB').
  exists 0, m1, 0, m'. split; [exact L|]. split; [exact CB|]. split; [exact SP|]. split; [exact RS|]. split; [exact FB|]. split; [exact FB'|]. split.
  - intros a b B I. rewrite R1 in I. destruct I as [<-|[]]. apply (g_higher_only r_pair b B). exact pair_left.
  - split; [rewrite R1; reflexivity|]. rewrite (same_outputs _ _ _ _ RS K), R2. reflexivity.
Qed.
Lemma same_example : exists i m m', rescored g_first g_lower /\ candidate g_first [v_ph] i m /\ candidate g_lower [v_ph] i m' /\ counterpart g_first g_lower m m' /\ l_rules m' <> l_rules m.
Proof.
  destruct g_first_cands as (m1 & m2 & R1 & R2 & C & FB). destruct (same_matches g_first g_lower [v_ph] 0 m2 g_lower_rescored) as (m' & C' & K); [apply C; auto|].
  exists 0, m2, m'. split; [exact g_lower_rescored|]. split; [apply C; auto|]. split; [exact C'|]. split; [exact K|]. destruct K as (_ & _ & _ & K). rewrite R2 in *. intros E. rewrite E in K.
  inversion K as [|x y l l' B _ E1 E2]; subst. apply g_lower_pairs in B. destruct B as [(B & _)|[(_ & B)|(B & _)]].
  - destruct (pair_left (eq_sym B)).
  - apply (f_equal r_score) in B. vm_compute in B. discriminate B.
  - destruct (right_left (eq_sym B)).
Qed.
