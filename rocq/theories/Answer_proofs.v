(** The first of the best matches, and the answers. *)
From Coq Require Import String List NArith ZArith Bool Lia Arith Sorting.Sorted Sorting.Permutation Floats.SpecFloat.
From Verif Require Import Base_model Class_model Class_spec Float_model Token_model Rule_model Uni_model Search_model Lexicon_model Tokenizer_model Wrapper_model Search_spec Lexicon_spec Tokenizer_spec Wrapper_spec Split_spec Loaded_spec Read_spec Address_spec
  Order_spec Answer_spec Float_proofs Search_proofs SearchTop_proofs SearchBest_proofs Pattern_proofs Loaded_proofs Wrapper_proofs WrapperTop_proofs Address_proofs Order_proofs OrderTop_proofs.
Import ListNotations.

(** ** The order *)
Lemma lex_asym : forall a b, lex_lt a b -> lex_lt b a -> False.
Proof. intros a b H. induction H as [x y a b H|x a b H IH]; intros K; inversion K; subst; unfold class_lt in *; try lia. apply IH. assumption. Qed.
Lemma choice_asym : forall a b, choice_lt a b -> choice_lt b a -> False.
Proof. intros a b H. induction H as [x y a b H|x a b H IH]; intros K; inversion K; subst; try lia. apply IH. assumption. Qed.
Lemma earlier_asym : forall a b, earlier a b -> earlier b a -> False.
Proof.
  intros a b [H|(E & H)] [K|(F & K)].
  - exact (lex_asym _ _ H K).
  - rewrite F in H. exact (lex_asym _ _ H H).
  - rewrite E in K. exact (lex_asym _ _ K K).
  - exact (choice_asym _ _ H K).
Qed.
Lemma earlier_self : forall a, ~ earlier a a.
Proof. intros a H. exact (earlier_asym a a H H). Qed.
Lemma sorted_split : forall A (R : A -> A -> Prop) l1 x l2, StronglySorted R (l1 ++ x :: l2) -> (forall y, In y l1 -> R y x) /\ (forall y, In y l2 -> R x y).
Proof.
  induction l1 as [|a l1 IH]; intros x l2 H; cbn [app] in H; inversion H; subst.
  - split; [intros y []|]. rewrite Forall_forall in *. assumption.
  - destruct (IH x l2) as (A1 & A2); [assumption|]. split; [|exact A2]. intros y [<-|I]; [|apply A1; exact I]. rewrite Forall_forall in *. apply H3. apply in_or_app. right. left. reflexivity.
Qed.
Lemma sorted_total : forall A (R : A -> A -> Prop) l x y, StronglySorted R l -> In x l -> In y l -> x = y \/ R x y \/ R y x.
Proof.
  intros A R l x y H. induction H as [|a l H IH F]; intros Ix Iy; [destruct Ix|]. rewrite Forall_forall in F. destruct Ix as [<-|Ix], Iy as [<-|Iy]; auto.
Qed.
Lemma sorted_nodup : forall l, StronglySorted earlier l -> NoDup l.
Proof. intros l H. induction H as [|a l H IH F]; constructor; [|exact IH]. intros I. rewrite Forall_forall in F. exact (earlier_self a (F a I)). Qed.
Lemma echo_all : forall A (s ds l : list A) y, echoes s ds l -> In y ds -> In y l.
Proof. intros A s ds l y H. induction H as [s|a s ds l H IH|a s ds l I H IH]; intros K; [exact K| |right; apply IH; exact K]. destruct K as [<-|K]; [left; reflexivity|right; apply IH; exact K]. Qed.
Lemma echo_first : forall A (v : A -> spec_float) s ds l, echoes s ds l -> forall l1 x l2, l = l1 ++ x :: l2 ->
  Forall (fun y => SFltb (v y) (v x) = true) l1 -> Forall (fun y => SFltb (v x) (v y) = false) l2 -> In x s \/ first_max v ds x.
Proof.
  intros A v s ds l H. induction H as [s|a s ds l H IH|a s ds l I H IH]; intros l1 x l2 E F1 F2.
  - destruct l1; discriminate.
  - destruct l1 as [|b l1]; cbn [app] in E; injection E as -> ->.
    + right. exists [], ds. split; [reflexivity|]. split; [constructor|]. rewrite Forall_forall in *. intros y Iy. apply F2. eapply echo_all; eassumption.
    + inversion F1; subst. destruct (IH l1 x l2 eq_refl) as [[->|K]|(d1 & d2 & -> & D1 & D2)]; try assumption.
      * exfalso. match goal with K : SFltb (v x) (v x) = true |- _ => assert (Z := f_lt_irrefl (v x)); unfold f_lt in Z; congruence end.
      * left. exact K.
      * right. exists (b :: d1), d2. split; [reflexivity|]. split; [constructor; assumption|assumption].
  - destruct l1 as [|b l1]; cbn [app] in E; injection E as -> ->; [left; exact I|]. inversion F1; subst. exact (IH l1 x l2 eq_refl ltac:(assumption) F2).
Qed.
Lemma map_split : forall A B C (f : A -> C) (g : B -> C) (v : C -> spec_float) la lb a, map f la = map g lb -> first_max (fun a => v (f a)) la a ->
  exists b, g b = f a /\ first_max (fun b => v (g b)) lb b.
Proof.
  intros A B C f g v la lb a E (l1 & l2 & -> & F1 & F2). rewrite map_app in E. cbn [map] in E.
  symmetry in E. apply map_eq_app in E. destruct E as (m1 & m2 & -> & E1 & E2). destruct m2 as [|b m2]; [discriminate|]. cbn [map] in E2. injection E2 as E2 E3.
  exists b. split; [exact E2|]. exists m1, m2. split; [reflexivity|]. rewrite E2. rewrite Forall_forall in F1, F2. split; apply Forall_forall.
  - intros y Iy. apply (in_map g) in Iy. rewrite E1 in Iy. apply in_map_iff in Iy. destruct Iy as (z & <- & Iz). apply F1. exact Iz.
  - intros y Iy. apply (in_map g) in Iy. rewrite E3 in Iy. apply in_map_iff in Iy. destruct Iy as (z & <- & Iz). apply F2. exact Iz.
Qed.
(** ** The best match of a tokenization *)
Lemma phrase_first : forall g node ph ps p, linked g -> (combinations ph <= 2 ^ 32)%N -> Forall (fun k => StronglySorted class_lt (t_in k)) ph -> search_node g node ph = Ok ps ->
  first_max (fun p => average32 (p_rules p)) ps p ->
  exists m, listed_match g node ph m /\ l_rules m = p_rules p /\ forall m', listed_match g node ph m' ->
    SFltb (average32 (l_rules m)) (average32 (l_rules m')) = false /\ (earlier m' m -> SFltb (average32 (l_rules m')) (average32 (l_rules m)) = true).
Proof.
  intros g node ph ps p L C Sp S1 FM. destruct (search_listed g node ph ps L C Sp S1) as (ds & ls & A1 & A2 & A3 & A4 & _).
  destruct (map_split _ _ _ p_rules l_rules average32 ps ls p A3 FM) as (m & Em & (l1 & l2 & El & F1 & F2)).
  destruct (echo_first _ (fun b => average32 (l_rules b)) _ _ _ A4 l1 m l2 El F1 F2) as [[]|(d1 & d2 & -> & D1 & D2)].
  exists m. split; [apply A2; apply in_or_app; right; left; reflexivity|]. split; [exact Em|]. intros m' K. apply A2 in K. apply sorted_split in A1. destruct A1 as (O1 & O2).
  rewrite Forall_forall in D1, D2. apply in_app_or in K. destruct K as [K|[<-|K]].
  - split; [|intros _; apply D1; exact K]. specialize (D1 m' K). apply f_lt_asym. exact D1.
  - split; [apply f_lt_irrefl|]. intros Q. destruct (earlier_self _ Q).
  - split; [apply D2; exact K|]. intros Q. destruct (earlier_asym _ _ Q (O2 m' K)).
Qed.

Lemma traced_reads : forall g names pat k cs rs n rem, traced g names pat k cs rs n rem -> pat = rule_inputs rs ++ rem.
Proof.
  intros g names pat k cs rs n rem H. induction H as [| |sec i r rest pat k cs rs n rem I N H IH]; [reflexivity|assumption|].
  unfold rule_inputs in *. cbn [map concat]. rewrite <- app_assoc, <- IH. reflexivity.
Qed.
Lemma listed_inputs : forall g node ph m, listed_match g node ph m -> rule_inputs (l_rules m) = l_classes m.
Proof. intros g node ph m (_ & k & _ & T). apply traced_reads in T. rewrite app_nil_r in T. symmetry. exact T. Qed.
Lemma traced_derives : forall g names pat k cs rs n rem, traced g names pat k cs rs n rem -> derives g names k rs.
Proof.
  intros g names pat k cs rs n rem H. induction H as [|ms i refs rest pat k cs rs n rem I N H IH|sec i r rest pat k cs rs n rem I N H IH]; [constructor| |].
  - econstructor; [exact I|eapply nth_error_In; exact N|exact IH].
  - econstructor; [exact I|eapply nth_error_In; exact N|exact IH].
Qed.
Lemma derives_traced : forall g names k rs, derives g names k rs -> forall rem, exists cs n, traced g names (rule_inputs rs ++ rem) k cs rs n rem.
Proof.
  intros g names k rs H. induction H as [|ms refs rest k rs I N H IH|sec r rest k rs I N H IH]; intros rem.
  - exists [], 1. constructor.
  - destruct (IH rem) as (cs & n & T). apply In_nth_error in N. destruct N as (i & N). exists (i :: cs), n. econstructor; eassumption.
  - destruct (IH rem) as (cs & n & T). apply In_nth_error in N. destruct N as (i & N). exists (i :: cs). eexists.
    unfold rule_inputs in *. cbn [map concat]. rewrite <- app_assoc. econstructor; eassumption.
Qed.
Lemma listed_matches : forall g node ph m, listed_match g node ph m -> exists k, matches g node ph k (l_rules m) /\ k <= List.length ph + 2.
Proof.
  intros g node ph m H. assert (E := listed_inputs _ _ _ _ H). destruct H as (C & k & K & T). exists k. split; [|exact K]. split; [eapply traced_derives; exact T|]. rewrite E. exact C.
Qed.
Lemma matches_listed : forall g node ph k rs, matches g node ph k rs -> k <= List.length ph + 2 -> exists m, listed_match g node ph m /\ l_rules m = rs.
Proof.
  intros g node ph k rs (D & C) K. destruct (derives_traced _ _ _ _ D []) as (cs & n & T). rewrite app_nil_r in T. exists (mkL (rule_inputs rs) cs rs n). split; [|reflexivity].
  split; [exact C|]. exists k. split; [exact K|exact T].
Qed.
(** ** The best of all tokenizations *)
Definition fit_phrase (g : grammar) (ph : list token) : Prop :=
  sizes_ok g ph /\ (combinations ph <= 2 ^ 32)%N /\ Forall (fun k => StronglySorted class_lt (t_in k)) ph.
Lemma listed_nonneg : forall g ph m, search_ok g -> fit_phrase g ph -> listed_match g ADDRESS ph m -> f_nonneg (average32 (l_rules m)).
Proof.
  intros g ph m SO (SZ & C & _) H. destruct (listed_matches _ _ _ _ H) as (k & M & K). destruct (search_complete g ADDRESS ph k _ (so_linked g SO) C M K) as (ps & p & S1 & I & E).
  destruct (path_facts g ph ps p SO SZ S1 I) as (A & B & D). rewrite <- E. apply average32_nonneg; assumption.
Qed.
Lemma unlisted : forall g ph, search_ok g -> fit_phrase g ph -> (search g ph = Ok [] <-> forall m, ~ listed_match g ADDRESS ph m).
Proof.
  intros g ph SO (SZ & C & _). split.
  - intros E m H. destruct (listed_matches _ _ _ _ H) as (k & M & K). destruct (search_complete g ADDRESS ph k _ (so_linked g SO) C M K) as (ps & p & S1 & I & _).
    unfold search in E. rewrite S1 in E. injection E as ->. destruct I.
  - intros H. destruct (search_defined g ADDRESS ph (so_linked g SO) (so_address g SO)) as (ps & E). fold (search g ph) in E. destruct ps as [|p ps]; [exact E|].
    destruct (search_sound g ADDRESS ph _ p (so_linked g SO) E (or_introl eq_refl)) as (k & M & K). destruct (matches_listed _ _ _ _ _ M K) as (m & L & _). destruct (H m L).
Qed.
Lemma one_best : forall g ph b, search_ok g -> fit_phrase g ph -> search_best1 g [] ph = Ok b ->
  (b = empty_best /\ forall m, ~ listed_match g ADDRESS ph m) \/
  exists m ps p, listed_match g ADDRESS ph m /\ b_score b = average32 (l_rules m) /\ f_nonneg (b_score b) /\ l_rules m = p_rules p /\ search g ph = Ok ps /\ In p ps /\
    reclass_tokens ph p = Ok (b_tokens b, true) /\ b_matched b = pattern_str (b_tokens b) /\
    forall m', listed_match g ADDRESS ph m' -> SFltb (average32 (l_rules m)) (average32 (l_rules m')) = false /\ (earlier m' m -> SFltb (average32 (l_rules m')) (average32 (l_rules m)) = true).
Proof.
  intros g ph b SO FP B. destruct (search_defined g ADDRESS ph (so_linked g SO) (so_address g SO)) as (ps & E). fold (search g ph) in E. destruct ps as [|p0 ps].
  - left. split; [rewrite (best1_none g [] ph E) in B; injection B as <-; reflexivity|]. apply unlisted; assumption.
  - right. assert (FP' := FP). destruct FP' as (SZ & C & Sp). destruct (best1_some g [] ph _ SO SZ E ltac:(discriminate)) as (p & ts & nr & FM & R & Q & _ & NN).
    rewrite B in Q. injection Q as ->. cbn [b_score b_tokens b_matched]. destruct (phrase_first g ADDRESS ph _ p (so_linked g SO) C Sp E FM) as (m & L & Em & A).
    exists m, (p0 :: ps), p. rewrite Em in *. repeat (split; [first [assumption|reflexivity|eapply first_max_In; exact FM]|]). exact A.
Qed.
Lemma forall2_nth : forall A B (R : A -> B -> Prop) la lb, Forall2 R la lb -> forall i a, nth_error la i = Some a -> exists b, nth_error lb i = Some b /\ R a b.
Proof. intros A B R la lb F. induction F as [|a b la lb H F IH]; intros i a' N; [destruct i; discriminate|]. destruct i as [|i]; [injection N as <-; exists b; split; [reflexivity|exact H]|exact (IH i a' N)]. Qed.
Lemma forall2_nth_r : forall A B (R : A -> B -> Prop) la lb, Forall2 R la lb -> forall i b, nth_error lb i = Some b -> exists a, nth_error la i = Some a /\ R a b.
Proof. intros A B R la lb F. induction F as [|a b la lb H F IH]; intros i b' N; [destruct i; discriminate|]. destruct i as [|i]; [injection N as <-; exists a; split; [reflexivity|exact H]|exact (IH i b' N)]. Qed.
Lemma nth_before : forall A (l1 : list A) x l2 i y, nth_error (l1 ++ x :: l2) i = Some y -> (i < List.length l1 /\ In y l1) \/ (i = List.length l1 /\ y = x) \/ (List.length l1 < i /\ In y l2).
Proof.
  induction l1 as [|a l1 IH]; intros x l2 i y N; destruct i as [|i]; cbn [app nth_error List.length] in *.
  - right. left. split; [reflexivity|congruence].
  - right. right. split; [lia|]. eapply nth_error_In. exact N.
  - left. split; [lia|]. left. congruence.
  - destruct (IH x l2 i y N) as [(A1 & A2)|[(-> & A2)|(A1 & A2)]]; [left; split; [lia|right; exact A2]|right; left; split; [reflexivity|exact A2]|right; right; split; [lia|exact A2]].
Qed.
Lemma best_first : forall g phs b, search_ok g -> Forall (fit_phrase g) phs -> search_best g phs = Ok b ->
  (b = empty_best /\ forall i m, ~ candidate g phs i m) \/
  exists i m ph ps p, first_best g phs i m /\ nth_error phs i = Some ph /\ l_rules m = p_rules p /\ search g ph = Ok ps /\ In p ps /\ f_nonneg (b_score b) /\
    b_score b = average32 (l_rules m) /\ reclass_tokens ph p = Ok (b_tokens b, true) /\ b_matched b = pattern_str (b_tokens b).
Proof.
  intros g phs b SO FP B. assert (SZ : Forall (sizes_ok g) phs) by (eapply Forall_impl; [|exact FP]; intros ph (K & _); exact K).
  destruct (best_all g phs SO SZ) as (rs & b' & F & B' & H1 & H2). rewrite B in B'. injection B' as <-. rewrite Forall_forall in FP.
  assert (X : forall i ph, nth_error phs i = Some ph -> fit_phrase g ph) by (intros i ph N; apply FP; eapply nth_error_In; exact N).
  assert (D : (exists ph ps, In ph phs /\ search g ph = Ok ps /\ ps <> []) \/ (forall ph, In ph phs -> search g ph = Ok [])).
  { clear - SO. induction phs as [|ph phs IH]; [right; intros ? []|]. destruct (search_defined g ADDRESS ph (so_linked g SO) (so_address g SO)) as [ps H]. fold (search g ph) in H. destruct ps as [|p ps].
    - destruct IH as [(ph' & ps & A & A2)|IH]; [left; exists ph', ps; split; [right; exact A|exact A2]|right; intros ph' [<-|Hin]; auto].
    - left. exists ph, (p :: ps). split; [left; reflexivity|]. split; [exact H|discriminate]. }
  destruct D as [D|D].
  - right. destruct (H1 D) as ((l1 & l2 & -> & F1 & F2) & NN). set (i := List.length l1). assert (Ni : nth_error (l1 ++ b :: l2) i = Some b).
    { unfold i. rewrite nth_error_app2, Nat.sub_diag by lia. reflexivity. }
    destruct (forall2_nth_r _ _ _ _ _ F i b Ni) as (ph & Np & Bp). destruct (one_best g ph b SO (X _ _ Np) Bp) as [(-> & _)|(m & ps & p & L & Sc & _ & Er & Es & Ip & R & M & A)]; [destruct NN|].
    exists i, m, ph, ps, p. split; [|repeat (split; [assumption|]); assumption]. split; [exists ph; split; assumption|]. intros i' m' (ph' & Np' & L').
    destruct (forall2_nth _ _ _ _ _ F i' ph' Np') as (b' & Nb & Bp'). destruct (one_best g ph' b' SO (X _ _ Np') Bp') as [(_ & Q)|(m2 & ps2 & p2 & L2 & Sc2 & NN2 & _ & _ & _ & _ & _ & A2)]; [destruct (Q _ L')|].
    rewrite Forall_forall in F1, F2. assert (N1 := nonneg_not_nan _ NN). assert (N2 := nonneg_not_nan _ NN2). assert (N3 := nonneg_not_nan _ (listed_nonneg g ph' m' SO (X _ _ Np') L')).
    destruct (A2 m' L') as (A3 & _). rewrite <- Sc2 in A3. rewrite <- Sc in *. destruct (nth_before _ _ _ _ _ _ Nb) as [(O & I)|[(O & I)|(O & I)]].
    + assert (K := F1 b' I). assert (K2 : f_lt (average32 (l_rules m')) (b_score b) = true).
      { destruct (f_lt (average32 (l_rules m')) (b_score b)) eqn:Z; [reflexivity|]. exfalso. assert (Z2 := f_ge_trans _ _ _ N2 N3 N1 A3 Z). unfold f_lt in Z2. congruence. }
      split; [apply f_lt_asym; exact K2|intros _; exact K2].
    + subst b'. fold i in O. subst i'. rewrite Np in Np'. injection Np' as <-. destruct (A m' L') as (A4 & A5). split; [exact A4|]. intros [O|(_ & O)]; [lia|apply A5; exact O].
    + fold i in O. split; [|intros [Q|(Q & _)]; lia]. exact (f_ge_trans _ _ _ N1 N2 N3 (F2 b' I) A3).
  - left. split; [exact (H2 D)|]. intros i m (ph & Np & L). assert (Ip := nth_error_In _ _ Np). apply (proj1 (unlisted g ph SO (FP ph Ip)) (D ph Ip) m L).
Qed.
Lemma first_unique : forall g phs i m i' m', linked g -> Forall (fit_phrase g) phs -> In ADDRESS (section_names g) -> first_best g phs i m -> first_best g phs i' m' -> i = i' /\ m = m'.
Proof.
  intros g phs i m i' m' L FP AD (C1 & A1) (C2 & A2). destruct (A1 i' m' C2) as (B1 & D1). destruct (A2 i m C1) as (B2 & D2).
  assert (E : i = i').
  { destruct (Nat.lt_trichotomy i i') as [K|[K|K]]; [|exact K|]; exfalso.
    - rewrite D2 in B1 by (left; exact K). discriminate.
    - rewrite D1 in B2 by (left; exact K). discriminate. }
  subst i'. split; [reflexivity|]. destruct C1 as (ph & N1 & L1), C2 as (ph' & N2 & L2). rewrite N1 in N2. injection N2 as <-.
  rewrite Forall_forall in FP. destruct (FP ph (nth_error_In _ _ N1)) as (_ & C & Sp). destruct (search_defined g ADDRESS ph L AD) as (ps & E).
  destruct (search_listed g ADDRESS ph ps L C Sp E) as (ds & ls & O1 & O2 & _). apply O2 in L1. apply O2 in L2. destruct (sorted_total _ _ _ _ _ O1 L1 L2) as [K|[K|K]]; [exact K| |]; exfalso.
  - rewrite D2 in B1 by (right; split; [reflexivity|exact K]). discriminate.
  - rewrite D1 in B2 by (right; split; [reflexivity|exact K]). discriminate.
Qed.
Lemma standard_fun : forall x k c w w', standard_of x k c w -> standard_of x k c w' -> w = w'.
Proof.
  intros x k c w w' [(l1 & le & l2 & E & I & N & ->)|(N & ->)] [(l1' & le' & l2' & E' & I' & N' & ->)|(N' & ->)].
  - rewrite E in E'. assert (K : le = le'); [|subst; reflexivity]. clear E. revert l1' E' N'. induction l1 as [|a l1 IH]; intros [|b l1'] E' N'; cbn [app] in E'; injection E' as E1 E2.
    + exact E1.
    + subst. destruct (N' b (or_introl eq_refl) I).
    + subst. destruct (N le' (or_introl eq_refl) I').
    + apply (IH (fun f J => N f (or_intror J)) l1' E2 (fun f J => N' f (or_intror J))).
  - destruct (N' le); [rewrite E; apply in_or_app; right; left; reflexivity|exact I].
  - destruct (N le'); [rewrite E'; apply in_or_app; right; left; reflexivity|exact I'].
  - reflexivity.
Qed.
Lemma standards_fun : forall x ks cs ws ws', standards x ks cs ws -> standards x ks cs ws' -> ws = ws'.
Proof.
  intros x ks cs ws ws' H. revert ws'. induction H as [|k c w ks cs ws H1 H IH]; intros ws' K; inversion K; subst; [reflexivity|]. f_equal; [eapply standard_fun; eassumption|apply IH; assumption].
Qed.
Lemma answer_unique : forall g x phs o o', linked g -> Forall (fit_phrase g) phs -> In ADDRESS (section_names g) -> answer g x phs o -> answer g x phs o' -> o = o'.
Proof.
  intros g x phs [r|] [r'|] L FP AD H K; [| | |reflexivity].
  - destruct H as (i & m & ph & ws & F1 & N1 & S1 & A1 & B1), K as (i' & m' & ph' & ws' & F2 & N2 & S2 & A2 & B2).
    destruct (first_unique g phs i m i' m' L FP AD F1 F2) as (<- & <-). rewrite N1 in N2. injection N2 as <-. rewrite (standards_fun _ _ _ _ _ S2 S1) in *.
    destruct r as [rf rp], r' as [rf2 rp2]. simpl in A1, B1, A2, B2. subst. reflexivity.
  - destruct H as (i & m & ph & ws & (F1 & _) & _). destruct (K i m F1).
  - destruct K as (i & m & ph & ws & (F1 & _) & _). destruct (H i m F1).
Qed.
Lemma answer_holds : forall e g x locale filt address phs o, is_loaded g -> no_nan_scores g -> Forall (fit_phrase g) phs ->
  make_phrases e x locale filt address = Ok phs -> standardize_addr e g x locale filt address = Ok o -> answer g x phs o.
Proof.
  intros e g x locale filt address phs o HL HN FP P H. assert (SO := loaded_search_ok g HL HN). destruct o as [r|].
  - apply address_columns in H. destruct H as (phs' & b & ks & P' & B & Le & F & E & EP). rewrite P in P'. injection P' as <-.
    destruct (best_first g phs b SO FP B) as [(-> & _)|(i & m & ph & ps & p & FB & N & Er & S1 & Ip & _ & _ & R & M)]; [discriminate Le|].
    assert (Lm : listed_match g ADDRESS ph m) by (destruct FB as ((ph' & N' & K) & _); rewrite N in N'; injection N' as <-; exact K). assert (EI := listed_inputs _ _ _ _ Lm).
    destruct (reclass_faithful g ADDRESS ph ps p (loaded_linked g HL) (loaded_balanced g HL) S1 Ip) as (ts & R' & T1 & T2 & _ & _ & T3 & _ & T4).
    rewrite R in R'. injection R' as <-. exists i, m, ph, (map t_std ks). split; [exact FB|]. split; [exact N|]. rewrite <- EI, Er in *. split; [eapply standards_all; [exact F|assumption..]|].
    split; [|rewrite EP, M, (pattern_str_spec _ _ T3), T4; reflexivity].
    rewrite E. apply map_ext. intros c. destruct (words_kept _ _ _ F) as (O & _). rewrite <- T4, <- O, combine_placed. reflexivity.
  - unfold standardize_addr in H. rewrite P in H. cbn [obind] in H. destruct (search_best g phs) as [b| |] eqn:B; try discriminate. cbn [obind] in H.
    destruct (best_first g phs b SO FP B) as [(_ & Q)|(i & m & ph & ps & p & _ & _ & _ & _ & _ & NN & _)]; [exact Q|]. exfalso.
    assert (Le : f_le f_zero (b_score b) = true). { destruct (b_score b) as [[|]|[|]| |[|] mm ee]; try contradiction; reflexivity. }
    rewrite Le in H. destruct (collect _ _ _); discriminate.
Qed.
Lemma answer_exact : forall e g x locale filt address phs o, is_loaded g -> no_nan_scores g -> Forall (fit_phrase g) phs ->
  make_phrases e x locale filt address = Ok phs -> (standardize_addr e g x locale filt address = Ok o <-> answer g x phs o).
Proof.
  intros e g x locale filt address phs o HL HN FP P. split; [apply answer_holds; assumption|]. intros A.
  assert (SZ : Forall (sizes_ok g) phs) by (eapply Forall_impl; [|exact FP]; intros ph (K & _); exact K).
  destruct (answered e g x locale filt address phs HL HN SZ P) as (o' & H & _). assert (A' := answer_holds _ _ _ _ _ _ _ _ HL HN FP P H).
  rewrite (answer_unique g x phs o o' (loaded_linked g HL) FP (loaded_address g HL) A A'). exact H.
Qed.
Lemma best_chosen : forall g phs, is_loaded g -> no_nan_scores g -> Forall (sizes_ok g) phs -> Forall (fun ph => (combinations ph <= 2 ^ 32)%N) phs ->
  Forall (Forall (fun k => is_inset (t_in k))) phs ->
  exists b, search_best g phs = Ok b /\
    ((forall i m, ~ candidate g phs i m) /\ b = mkBest [] f32_m1 [] f32_m1 \/
     exists i m ph, first_best g phs i m /\ nth_error phs i = Some ph /\ b_score b = average32 (l_rules m) /\
       map t_text (b_tokens b) = map t_text ph /\ map t_in (b_tokens b) = map (fun c => [c]) (l_classes m) /\ map t_out (b_tokens b) = rule_outputs (l_rules m) /\
       b_matched b = join [SP] (pattern_words (l_classes m) (rule_outputs (l_rules m)))).
Proof.
  intros g phs HL HN SZ C Sp. assert (SO := loaded_search_ok g HL HN).
  assert (FP : Forall (fit_phrase g) phs). { rewrite Forall_forall in *. intros ph I. split; [apply SZ; exact I|]. split; [apply C; exact I|]. exact (Sp ph I). }
  destruct (best_all g phs SO SZ) as (_ & b & _ & B & _). exists b. split; [exact B|].
  destruct (best_first g phs b SO FP B) as [(-> & Q)|(i & m & ph & ps & p & FB & N & Er & S1 & Ip & _ & Sc & R & M)]; [left; split; [exact Q|reflexivity]|]. right.
  assert (Lm : listed_match g ADDRESS ph m) by (destruct FB as ((ph' & N' & K) & _); rewrite N in N'; injection N' as <-; exact K). assert (EI := listed_inputs _ _ _ _ Lm).
  destruct (reclass_faithful g ADDRESS ph ps p (loaded_linked g HL) (loaded_balanced g HL) S1 Ip) as (ts & R' & T1 & T2 & _ & _ & T3 & _ & T4).
  rewrite R in R'. injection R' as <-. exists i, m, ph. split; [exact FB|]. split; [exact N|]. split; [exact Sc|]. rewrite <- EI, Er in *.
  split; [exact T1|]. split; [exact T3|]. split; [exact T4|]. rewrite M, (pattern_str_spec _ _ T3), T4. reflexivity.
Qed.
Lemma chosen_unique : forall g phs i m i' m', is_loaded g -> Forall (sizes_ok g) phs -> Forall (fun ph => (combinations ph <= 2 ^ 32)%N) phs -> Forall (Forall (fun k => is_inset (t_in k))) phs ->
  first_best g phs i m -> first_best g phs i' m' -> i = i' /\ m = m'.
Proof.
  intros g phs i m i' m' HL SZ C Sp. apply first_unique; [exact (loaded_linked g HL)| |exact (loaded_address g HL)].
  rewrite Forall_forall in *. intros ph I. split; [apply SZ; exact I|]. split; [apply C; exact I|]. exact (Sp ph I).
Qed.
(** ** From the address *)
Lemma picked_sorted : forall u x ks bs a, picked u x ks bs a -> Forall (fun k => is_inset (t_in k)) ks -> Forall (fun k => is_inset (t_in k)) a.
Proof.
  intros u x ks bs a H. induction H as [|k ks bs a N H IH|k ks bs a N H IH|k ks bs a ws new N W F H IH]; intros K; [constructor| | |]; inversion K; subst.
  - constructor; [assumption|apply IH; assumption].
  - constructor; [assumption|apply IH; assumption].
  - apply Forall_app. split; [|apply IH; assumption]. clear - F. induction F as [|w k' ws new (_ & H) F IH]; constructor; assumption.
Qed.
Lemma read_sorted : forall u x filt t phs, read_address u x filt t phs -> Forall (Forall (fun k => is_inset (t_in k))) phs.
Proof.
  intros u x filt t phs (all & ks & (ps & groups & _ & _ & _ & K) & Sf & (_ & T)). apply Forall_forall. intros ph I. apply In_nth_error in I. destruct I as (i & N). apply T in N. destruct N as (bs & P & _).
  eapply picked_sorted; [exact P|]. clear - K Sf. induction Sf; [constructor|..]; inversion K; subst; auto.
Qed.
Lemma address_answer : forall e g x locale filt address phs o, is_loaded g -> no_nan_scores g -> built x -> simple_words x -> apart_tables (e_uni e) -> word_tables (e_uni e) ->
  let t := e_upper e (x_locale x) (e_nfc e (e_upper e locale (e_nfc e address))) in blank_lines (e_uni e) t -> case_clear (e_uni e) x t -> tabs_apart (e_uni e) x ->
  read_address (e_uni e) x filt t phs -> Forall (sizes_ok g) phs -> Forall (fun ph => (combinations ph <= 2 ^ 32)%N) phs ->
  (standardize_addr e g x locale filt address = Ok o <-> answer g x phs o).
Proof.
  intros e g x locale filt address phs o HL HN B S1 T1 T2 t BL CE NT R SZ C. assert (P := R). apply (proj2 (make_phrases_are e x locale filt address phs B S1 T1 T2 BL CE NT)) in P.
  apply answer_exact; try assumption. assert (Q := read_sorted _ _ _ _ _ R). rewrite Forall_forall in *. intros ph I. split; [apply SZ; exact I|]. split; [apply C; exact I|]. exact (Q ph I).
Qed.
Lemma address_parse : forall e x locale filt address phs rows, built x -> simple_words x -> apart_tables (e_uni e) -> word_tables (e_uni e) ->
  let t := e_upper e (x_locale x) (e_nfc e (e_upper e locale (e_nfc e address))) in blank_lines (e_uni e) t -> case_clear (e_uni e) x t -> tabs_apart (e_uni e) x ->
  read_address (e_uni e) x filt t phs -> (parse_table (parse_addr e x locale filt address) = Ok rows <-> parse_report phs rows).
Proof.
  intros e x locale filt address phs rows B S1 T1 T2 t BL CE NT R. assert (P := R). apply (proj2 (make_phrases_are e x locale filt address phs B S1 T1 T2 BL CE NT)) in P.
  assert (H : forall r, parse_table (parse_addr e x locale filt address) = Ok r -> parse_report phs r).
  { intros r H. destruct (parse_rows _ _ _ _ _ _ H) as [(_ & m & K)|(phs' & P' & K)]; [congruence|]. rewrite P in P'. injection P' as <-. exact K. }
  split; [apply H|]. intros K. assert (D : exists r, parse_table (parse_addr e x locale filt address) = Ok r) by (unfold parse_addr; rewrite P; eexists; reflexivity). destruct D as (r & D). rewrite D. f_equal.
  assert (K' := H r D). clear - K K'. assert (N : forall n, nth_error r n = nth_error rows n).
  { intros n. destruct (nth_error r n) as [a|] eqn:E.
    - apply K' in E. apply K in E. symmetry. exact E.
    - destruct (nth_error rows n) as [a|] eqn:E2; [|reflexivity]. apply K in E2. apply K' in E2. congruence. }
  clear K K'. revert rows N. induction r as [|a r IH]; intros [|b rows] N; [reflexivity|discriminate (N 0)|discriminate (N 0)|]. f_equal; [injection (N 0); auto|apply IH; intros n; exact (N (S n))].
Qed.
(** ** All matches *)
Lemma forall2_flip : forall A B (R : A -> B -> Prop) a b, Forall2 R a b -> Forall2 (fun x y => R y x) b a.
Proof. intros A B R a b F. induction F; constructor; assumption. Qed.
Lemma forall2_eq_map : forall A B C D (f : A -> C) (h : B -> C) (R : C -> D -> Prop) la lb ld, map f la = map h lb -> Forall2 (fun a d => R (f a) d) la ld -> Forall2 (fun b d => R (h b) d) lb ld.
Proof.
  intros A B C D f h R la lb ld E F. revert lb E. induction F as [|a d la ld H F IH]; intros [|b lb] E; try discriminate; [constructor|]. cbn [map] in E. injection E as E1 E2.
  constructor; [rewrite <- E1; exact H|apply IH; exact E2].
Qed.
Lemma all_found : forall g phs found, linked g -> Forall (fun ph => (combinations ph <= 2 ^ 32)%N /\ Forall (fun k => StronglySorted class_lt (t_in k)) ph) phs ->
  Forall2 (fun ph ps => search g ph = Ok ps) phs found ->
  exists dss ls, Forall2 (fun ph ds => NoDup ds /\ forall m, In m ds <-> listed_match g ADDRESS ph m) phs dss /\
    map p_rules (concat found) = map l_rules ls /\ Permutation ls (flat_map (fun m => repeat m (l_times m)) (concat dss)) /\ (forall m, In m ls <-> In m (concat dss)).
Proof.
  intros g phs found L FP F. induction F as [|ph ps phs found H F IH].
  - exists [], []. split; [constructor|]. split; [reflexivity|]. split; [constructor|reflexivity].
  - inversion FP as [|? ? (C & Sp) FP']; subst. destruct (IH FP') as (dss & ls & A1 & A2 & A3 & A4). destruct (search_listed g ADDRESS ph ps L C Sp H) as (ds & l & B1 & B2 & B3 & B4 & B5).
    exists (ds :: dss), (l ++ ls). split; [constructor; [split; [apply sorted_nodup; exact B1|exact B2]|exact A1]|]. cbn [concat]. rewrite !map_app, flat_map_app. split; [f_equal; assumption|].
    split; [apply Permutation_app; assumption|]. intros m. rewrite !in_app_iff, A4. assert (Q : In m l <-> In m ds); [|rewrite Q; reflexivity].
    split; [|apply echo_all with (s := []); exact B4]. intros K. destruct (echoes_in _ _ _ _ B4 _ K) as [[]|Z]. exact Z.
Qed.
Lemma match_exact : forall e sort g x locale filt address phs, is_loaded g ->
  Forall (fun ph => (combinations ph <= 2 ^ 32)%N /\ Forall (fun k => StronglySorted class_lt (t_in k)) ph) phs ->
  make_phrases e x locale filt address = Ok phs -> (forall rows, search_all g phs = Ok rows -> sorted_rows rows (sort rows)) ->
  exists out, match_addr e sort g x locale filt address = Ok out /\ match_report g phs out.
Proof.
  intros e sort g x locale filt address phs HL FP P HS. destruct (match_rows e sort g x locale filt address phs HL P HS) as (found & rows & out & F & M & (PM & SR) & NE & R0 & R1).
  exists out. split; [exact M|]. split; [exact SR|]. destruct (all_found g phs found (loaded_linked g HL) FP F) as (dss & ls & A1 & A2 & A3 & A4).
  assert (CA : forall m, In m (concat dss) <-> exists i, candidate g phs i m).
  { intros m. rewrite in_concat. split.
    - intros (ds & I & J). apply In_nth_error in I. destruct I as (i & N). destruct (forall2_nth_r _ _ _ _ _ A1 i ds N) as (ph & N' & _ & Q). exists i, ph. split; [exact N'|apply Q; exact J].
    - intros (i & ph & N & Lm). destruct (forall2_nth _ _ _ _ _ A1 i ph N) as (ds & N' & _ & Q). exists ds. split; [eapply nth_error_In; exact N'|apply Q; exact Lm]. }
  assert (NB : forall P1 : Prop, (concat found = [] -> P1) -> (concat found <> [] -> P1) -> P1) by (intros P1 H1 H2; destruct (concat found); [apply H1; reflexivity|apply H2; discriminate]).
  destruct (concat found) as [|p0 l0] eqn:Ec.
  - assert (ls = []) by (destruct ls; [reflexivity|discriminate A2]). subst ls. exists dss, []. split; [exact A1|]. split; [exact A3|]. split; [intros _; apply R0; reflexivity|].
    intros (i & m & K). exfalso. assert (Z : In m (concat dss)) by (apply CA; exists i; exact K). apply A4 in Z. exact Z.
  - specialize (R1 ltac:(discriminate)). apply (forall2_eq_map _ _ _ _ p_rules l_rules (fun rs row => reports rs (m_matched row) (m_score row) (m_nrules row)) _ _ _ A2) in R1.
    apply forall2_flip in R1. destruct (Permutation_Forall2 PM R1) as (ls' & P' & R2). apply forall2_flip in R2. exists dss, ls'. split; [exact A1|].
    split; [eapply Permutation_trans; [apply Permutation_sym; exact P'|exact A3]|]. split; [|intros _; exact R2].
    intros Q. exfalso. destruct ls as [|m ls]; [discriminate A2|]. assert (Z : In m (concat dss)) by (apply A4; left; reflexivity). apply CA in Z. destruct Z as (i & Z). exact (Q i m Z).
Qed.
Lemma address_matches : forall e sort g x locale filt address phs, is_loaded g -> built x -> simple_words x -> apart_tables (e_uni e) -> word_tables (e_uni e) ->
  let t := e_upper e (x_locale x) (e_nfc e (e_upper e locale (e_nfc e address))) in blank_lines (e_uni e) t -> case_clear (e_uni e) x t -> tabs_apart (e_uni e) x ->
  read_address (e_uni e) x filt t phs -> Forall (fun ph => (combinations ph <= 2 ^ 32)%N) phs -> (forall rows, search_all g phs = Ok rows -> sorted_rows rows (sort rows)) ->
  exists out, match_addr e sort g x locale filt address = Ok out /\ match_report g phs out.
Proof.
  intros e sort g x locale filt address phs HL B S1 T1 T2 t BL CE NT R C HS. assert (P := R). apply (proj2 (make_phrases_are e x locale filt address phs B S1 T1 T2 BL CE NT)) in P.
  apply match_exact; try assumption. assert (Q := read_sorted _ _ _ _ _ R). rewrite Forall_forall in *. intros ph I. split; [apply C; exact I|exact (Q ph I)].
Qed.
