(** Lemmas about grammars that say the same. *)
From Coq Require Import String List NArith Bool Lia Arith.
From Verif Require Import Base_model Class_model Float_model Uni_model Token_model Rule_model Search_model Grammar_model Lexicon_model Tokenizer_model Archive_model Wrapper_model
  Search_spec Grammar_spec Loaded_spec Lexicon_spec End_spec Alike_spec Search_proofs SearchTop_proofs Enum_proofs Loaded_proofs End_proofs.
Import ListNotations.

Lemma derives_apart : forall g a b k rs, derives g (a ++ b) k rs -> exists k1 k2 r1 r2, derives g a k1 r1 /\ derives g b k2 r2 /\ rs = r1 ++ r2.
Proof.
  intros g a b k rs H. remember (a ++ b) as ns eqn:E. revert a E. induction H as [|ms refs rest k rs IM IR H IH|sec r rest k rs IS IR H IH]; intros a E.
  - symmetry in E. apply app_eq_nil in E. destruct E as (-> & ->). exists 0, 0, [], []. split; [constructor|]. split; [constructor|reflexivity].
  - destruct a as [|x a]; cbn [app] in E.
    + subst b. exists 0, (S k), [], rs. split; [constructor|]. split; [eapply d_meta; eauto|reflexivity].
    + injection E as <- ->. destruct (IH (map f_name refs ++ a)) as (k1 & k2 & r1 & r2 & A & B & C); [rewrite app_assoc; reflexivity|].
      exists (S k1), k2, r1, r2. split; [eapply d_meta; eauto|]. auto.
  - destruct a as [|x a]; cbn [app] in E.
    + subst b. exists 0, k, [], (r :: rs). split; [constructor|]. split; [eapply d_rule; eauto|reflexivity].
    + injection E as <- ->. destruct (IH a eq_refl) as (k1 & k2 & r1 & r2 & A & B & C). exists k1, k2, (r :: r1), r2. split; [eapply d_rule; eauto|]. split; [exact B|]. cbn [app]. congruence.
Qed.
Lemma inputs_in : forall r rs c, In r rs -> In c (r_in r) -> In c (rule_inputs rs).
Proof. intros r rs c I J. unfold rule_inputs. apply in_concat. exists (r_in r). split; [apply in_map; exact I|exact J]. Qed.

Section S.
Variables (g g' : grammar) (phrase : list token) (R : text -> text -> Prop).
Hypotheses (LK : linked g) (LK' : linked g') (AL : corresponds R phrase g g').

Definition fits (pat : list intype) : Prop := Forall (has_class phrase) pat.
Definition RR (r r' : sref) : Prop := R (f_name r) (f_name r') /\ ref_ok g r /\ ref_ok g' r'.
Definition same_path (p p' : spath) : Prop := p_rules p = p_rules p' /\ p_rem p = p_rem p' /\ Forall2 RR (p_next p) (p_next p') /\ fits (p_rem p).

Lemma vain_none : forall h, linked h -> forall next n lim level p q, Forall (ref_ok h) next -> In n (ref_names next) -> hopeless h phrase n -> fits (p_rem p) -> ~ reaches h next lim level p q.
Proof.
  intros h LH next n lim level p q F I D FT (_ & k & ds & PD & _ & _ & RM). apply (pder_derives h next k ds LH F) in PD. apply in_split in I. destruct I as (a & b & E). unfold ref_names in E. rewrite E in PD.
  apply derives_apart in PD. destruct PD as (k1 & k2 & r1 & r2 & _ & PD & ->). change (n :: b) with ([n] ++ b) in PD. apply derives_apart in PD. destruct PD as (k3 & k4 & r3 & r4 & PD & _ & ->).
  destruct (D _ _ PD) as (r & IR & c & IC & NC). apply NC. unfold fits in FT. rewrite Forall_forall in FT. apply FT. rewrite RM. apply in_or_app. left. apply (inputs_in r); [|exact IC].
  apply in_or_app. right. apply in_or_app. left. exact IR.
Qed.
Lemma unfit_none : forall r p, unfit phrase r -> fits (p_rem p) -> match_rule r p = None.
Proof.
  intros r p (c & IC & NC) FT. destruct (match_rule r p) as [q|] eqn:E; [|reflexivity]. apply match_rule_spec in E. destruct E as (E & _). exfalso. apply NC. unfold fits in FT. rewrite Forall_forall in FT. apply FT. rewrite E. apply in_or_app. left. exact IC.
Qed.
Lemma rules_same : forall rs rs', aligned eq (unfit phrase) (unfit phrase) rs rs' -> forall p p', same_path p p' -> Forall2 same_path (match_rules rs p) (match_rules rs' p').
Proof.
  intros rs rs' A. induction A as [|r r' l m <- A IH|r l m U A IH|r l m U A IH]; intros p p' SP; cbn [match_rules].
  - constructor.
  - specialize (IH p p' SP). destruct SP as (E1 & E2 & E3 & E4). destruct (match_rule r p) as [q|] eqn:M.
    + apply match_rule_spec in M. destruct M as (M1 & M2 & M3).
      assert (M' : match_rule r p' = Some (mkPath (p_rules q) (p_next p') (p_rem q))) by (apply match_rule_spec; cbn [p_rem p_rules p_next]; split; [congruence|split; [congruence|reflexivity]]).
      rewrite M'. constructor; [|exact IH]. split; [reflexivity|]. split; [reflexivity|]. cbn [p_next]. split; [rewrite M3; exact E3|]. unfold fits in *. rewrite M1 in E4. apply Forall_app in E4. exact (proj2 E4).
    + destruct (match_rule r p') as [q'|] eqn:M'; [|exact IH]. apply match_rule_spec in M'. destruct M' as (M1 & M2 & M3).
      assert (M'' : match_rule r p = Some (mkPath (p_rules q') (p_next p) (p_rem q'))) by (apply match_rule_spec; cbn [p_rem p_rules p_next]; split; [congruence|split; [congruence|reflexivity]]). congruence.
  - assert (E4 := SP). destruct E4 as (_ & _ & _ & E4). rewrite (unfit_none r p U E4). apply IH. exact SP.
  - assert (E4 := SP). destruct E4 as (_ & E2 & _ & E4). rewrite E2 in E4. rewrite (unfit_none r p' U E4). apply IH. exact SP.
Qed.
Lemma sconcat_same : forall {A B} (F : A -> sres (list spath)) (F' : B -> sres (list spath)) (Rel : A -> B -> Prop) P Q l l', aligned Rel P Q l l' ->
  (forall x b, In x l -> P x -> F x = Done b -> b = []) -> (forall x b, In x l' -> Q x -> F' x = Done b -> b = []) ->
  (forall x x' b b', In x l -> In x' l' -> Rel x x' -> F x = Done b -> F' x' = Done b' -> Forall2 same_path b b') ->
  forall a a', sconcat F l = Done a -> sconcat F' l' = Done a' -> Forall2 same_path a a'.
Proof.
  intros A B F F' Rel P Q l l' AG. induction AG as [|x y l m RXY AG IH|x l m PX AG IH|y l m QY AG IH]; intros HP HQ HR a a' H H'; cbn [sconcat] in *.
  - injection H as <-. injection H' as <-. constructor.
  - destruct (F x) as [b| |] eqn:E; try discriminate. destruct (F' y) as [b'| |] eqn:E'; try discriminate. cbn [sbind] in *.
    destruct (sconcat F l) as [c| |] eqn:E2; try discriminate. destruct (sconcat F' m) as [c'| |] eqn:E2'; try discriminate. cbn [sbind] in *. injection H as <-. injection H' as <-.
    apply Forall2_app; [apply (HR x y); auto; left; reflexivity|]. apply IH; auto; intros; [eapply HP|eapply HQ|eapply HR]; eauto; right; assumption.
  - destruct (F x) as [b| |] eqn:E; try discriminate. cbn [sbind] in *. destruct (sconcat F l) as [c| |] eqn:E2; try discriminate. cbn [sbind] in *. injection H as <-.
    rewrite (HP x b (or_introl eq_refl) PX E). cbn [app]. apply IH; auto; intros; [eapply HP|eapply HR]; eauto; right; assumption.
  - destruct (F' y) as [b| |] eqn:E; try discriminate. cbn [sbind] in *. destruct (sconcat F' m) as [c| |] eqn:E2; try discriminate. cbn [sbind] in *. injection H' as <-.
    rewrite (HQ y b (or_introl eq_refl) QY E). cbn [app]. apply IH; auto; intros; [eapply HQ|eapply HR]; eauto; right; assumption.
Qed.
Lemma aligned_F2 : forall {A B} (Rel : A -> B -> Prop) l l', Forall2 Rel l l' -> aligned Rel (fun _ => False) (fun _ => False) l l'.
Proof. intros A B Rel l l' F. induction F; constructor; auto. Qed.
Lemma refs_names : forall refs refs', (forall r, In r refs -> ref_ok g r) -> (forall r, In r refs' -> ref_ok g' r) -> Forall2 R (ref_names refs) (ref_names refs') -> Forall2 RR refs refs'.
Proof.
  induction refs as [|r refs IH]; intros [|r' refs'] A B F; inversion F; subst; constructor.
  - split; [assumption|]. split; [apply A; left; reflexivity|apply B; left; reflexivity].
  - apply IH; [intros; apply A; right; assumption|intros; apply B; right; assumption|assumption].
Qed.
Lemma next_ok : forall l l', Forall2 RR l l' -> Forall (ref_ok g) l /\ Forall (ref_ok g') l'.
Proof. intros l l' F. induction F as [|a b l l' (_ & A & B) F (IH1 & IH2)]; split; constructor; auto. Qed.
Lemma none_nil : forall {A} (l : list A), (forall x, ~ In x l) -> l = [].
Proof. intros A [|x l] H; [reflexivity|]. destruct (H x (or_introl eq_refl)). Qed.
Lemma vain_match : forall h f lim p next level b, linked h -> (forall r, In r next -> ref_ok h r) -> Forall (ref_ok h) (p_next p) -> vain h phrase next -> fits (p_rem p) ->
  match next ++ p_next p with [] => Done [] | nx => match_next f h lim (mkPath (p_rules p) nx (p_rem p)) level end = Done b -> b = [].
Proof.
  intros h f lim p next level b LH RO FN (n & I & D) FT H. destruct (next ++ p_next p) as [|r rest] eqn:E; [injection H as <-; reflexivity|].
  apply none_nil. intros q J. apply (proj1 (proj2 (chars f) h lim (mkPath (p_rules p) (r :: rest) (p_rem p)) level b (linked_nonempty h LH) ltac:(discriminate) H q)) in J. cbn [p_next] in J. rewrite <- E in J.
  revert J. apply (vain_none h LH _ n); [apply Forall_app; split; [apply Forall_forall; exact RO|exact FN]|unfold ref_names; rewrite map_app; apply in_or_app; left; exact I|exact D|exact FT].
Qed.
Lemma meta_named : forall h r i m n, linked h -> f_meta r = Some i -> nth_error (g_metas h) i = Some m -> ms_name m = f_name r -> f_name r = n -> forall m', In m' (g_metas h) -> ms_name m' = n -> m' = m.
Proof. intros h r i m n LH _ EI EN E m' I E'. apply (linked_meta_unique h); auto; [eapply nth_error_In; eauto|congruence]. Qed.
Lemma match_same : forall f,
  (forall f' lim r r' p p' level l l', RR r r' -> same_path p p' -> do_match f g lim r p level = Done l -> do_match f' g' lim r' p' level = Done l' -> Forall2 same_path l l') /\
  (forall f' lim p p' level l l', same_path p p' -> match_next f g lim p level = Done l -> match_next f' g' lim p' level = Done l' -> Forall2 same_path l l').
Proof.
  induction f as [|f (IH1 & IH2)]; [split; intros; discriminate|]. split.
  - intros f' lim r r' p p' level l l' (RN & OK & OK') SP H H'. destruct f' as [|f']; [discriminate|]. cbn [do_match] in H, H'. destruct (Nat.ltb lim level); [injection H as <-; injection H' as <-; constructor|].
    assert (SP' := SP). destruct SP' as (E1 & E2 & E3 & E4). assert (E4' := E4). rewrite E2 in E4'. destruct (next_ok _ _ E3) as (NO & NO').
    destruct (AL _ _ RN) as [(m & m' & I & NM & I' & NM' & AG)|(s & s' & I & NM & I' & NM' & AG)].
    + destruct OK as [(i & m0 & FM & EM & NE)|(FM & i & s0 & FR & ES & NE)]; [|exfalso; apply (linked_meta_rule_disj g m s0 LK I); [eapply nth_error_In; exact ES|congruence]].
      destruct OK' as [(i' & m0' & FM' & EM' & NE')|(FM' & i' & s0' & FR' & ES' & NE')]; [|exfalso; apply (linked_meta_rule_disj g' m' s0' LK' I'); [eapply nth_error_In; exact ES'|congruence]].
      rewrite FM, EM in H. rewrite FM', EM' in H'.
      assert (m = m0) by (apply (linked_meta_unique g); auto; [eapply nth_error_In; exact EM|congruence]). assert (m' = m0') by (apply (linked_meta_unique g'); auto; [eapply nth_error_In; exact EM'|congruence]). subst m0 m0'.
      refine (sconcat_same _ _ _ _ _ _ _ AG _ _ _ _ _ H H').
      * intros refs b IR V HD. apply (vain_match g f lim p refs level b); auto. intros q J. eapply (lk_refs g LK); eauto.
      * intros refs b IR V HD. apply (vain_match g' f' lim p' refs level b); auto. intros q J. eapply (lk_refs g' LK'); eauto.
      * intros refs refs' b b' IR IR' RF HD HD'. apply refs_names in RF; [|intros q J; eapply (lk_refs g LK); eauto|intros q J; eapply (lk_refs g' LK'); eauto].
        assert (FA := Forall2_app RF E3). destruct (refs ++ p_next p) as [|q nx], (refs' ++ p_next p') as [|q' nx']; try (inversion FA; fail).
        -- injection HD as <-. injection HD' as <-. constructor.
        -- refine (IH2 f' lim _ _ level b b' _ HD HD'). split; [exact E1|]. split; [exact E2|]. split; [exact FA|exact E4].
    + destruct OK as [(i & m0 & FM & EM & NE)|(FM & i & s0 & FR & ES & NE)]; [exfalso; apply (linked_meta_rule_disj g m0 s LK); [eapply nth_error_In; exact EM|exact I|congruence]|].
      destruct OK' as [(i' & m0' & FM' & EM' & NE')|(FM' & i' & s0' & FR' & ES' & NE')]; [exfalso; apply (linked_meta_rule_disj g' m0' s' LK'); [eapply nth_error_In; exact EM'|exact I'|congruence]|].
      rewrite FM, FR, ES in H. rewrite FM', FR', ES' in H'.
      assert (s = s0) by (apply (linked_rule_unique g); auto; [eapply nth_error_In; exact ES|congruence]). assert (s' = s0') by (apply (linked_rule_unique g'); auto; [eapply nth_error_In; exact ES'|congruence]). subst s0 s0'.
      injection H as <-. injection H' as <-. apply rules_same; assumption.
  - intros f' lim p p' level l l' SP H H'. destruct f' as [|f']; [discriminate|]. cbn [match_next] in H, H'. destruct SP as (E1 & E2 & E3 & E4). destruct E3 as [|r r' nx nx' RA E3]; [injection H as <-; injection H' as <-; constructor|].
    destruct (do_match f g lim r _ (S level)) as [mr| |] eqn:M; try discriminate. destruct (do_match f' g' lim r' _ (S level)) as [mr'| |] eqn:M'; try discriminate. cbn [sbind] in H, H'.
    assert (MR : Forall2 same_path mr mr'). { refine (IH1 f' lim r r' _ _ (S level) mr mr' RA _ M M'). split; [exact E1|]. split; [exact E2|]. split; [exact E3|exact E4]. }
    refine (sconcat_same _ _ _ _ _ _ _ (aligned_F2 _ _ _ MR) _ _ _ _ _ H H'); [intros x b _ []|intros x b _ []|].
    intros q q' b b' _ _ SQ HD HD'. assert (SQ' := SQ). destruct SQ' as (Q1 & Q2 & Q3 & Q4). destruct Q3; [injection HD as <-; injection HD' as <-; constructor; [exact SQ|constructor]|].
    refine (sconcat_same _ _ _ _ _ _ _ (aligned_F2 _ _ _ MR) _ _ _ _ _ HD HD'); [intros z c _ []|intros z c _ []|].
    intros z z' c c' _ _ SZ HZ HZ'. assert (SZ' := SZ). destruct SZ' as (_ & _ & Z3 & _). destruct Z3; [injection HZ as <-; injection HZ' as <-; constructor|].
    exact (IH2 f' lim z z' level c c' SZ HZ HZ').
Qed.
Lemma ptr_of : forall h n n', linked h -> (In n (section_names h) -> n = n' -> exists sp, section_ptr h n = Some sp /\ ref_ok h sp /\ f_name sp = n).
Proof.
  intros h n n' LH I _. destruct (section_ptr h n) as [sp|] eqn:E; [|apply (section_ptr_None h n LH) in E; contradiction]. exists sp. split; [reflexivity|]. apply section_ptr_ok; assumption.
Qed.
Lemma alike_names : forall n n', R n n' -> In n (section_names g) /\ In n' (section_names g').
Proof.
  intros n n' RN. unfold section_names. destruct (AL _ _ RN) as [(m & m' & I & NM & I' & NM' & _)|(s & s' & I & NM & I' & NM' & _)]; subst; split; apply in_or_app; (left; apply in_map; assumption) || (right; apply in_map; assumption).
Qed.
Lemma enumerate_fits : forall pat, In pat (enumerate phrase) -> fits pat.
Proof.
  intros pat I. apply enumerate_sound in I. unfold fits. unfold chooses in I. clear -I. induction I as [|k c ph pat IC I IH]; constructor.
  - exists k. split; [left; reflexivity|exact IC].
  - eapply Forall_impl; [|exact IH]. intros d (k' & J & K). exists k'. split; [right; exact J|exact K].
Qed.
Lemma search_same : forall n n', R n n' -> search_node g n phrase = search_node g' n' phrase.
Proof.
  intros n n' RN. destruct (alike_names n n' RN) as (IN & IN'). destruct (search_defined g n phrase LK IN) as (ps & EP). destruct (search_defined g' n' phrase LK' IN') as (ps' & EP'). rewrite EP, EP'. f_equal.
  assert (C := search_char g n phrase ps LK EP). assert (C' := search_char g' n' phrase ps' LK' EP').
  unfold search_node in EP, EP'. destruct (section_ptr g n) as [sp|] eqn:ES; [|discriminate]. destruct (section_ptr g' n') as [sp'|] eqn:ES'; [|discriminate].
  destruct (section_ptr_ok g n sp LK ES) as (OK & NM). destruct (section_ptr_ok g' n' sp' LK' ES') as (OK' & NM').
  destruct (sconcat _ (enumerate phrase)) as [ms| |] eqn:EM in EP; try discriminate. destruct (sconcat _ (enumerate phrase)) as [ms'| |] eqn:EM' in EP'; try discriminate.
  assert (F : Forall2 same_path ms ms').
  { refine (sconcat_same _ _ (fun a b => a = b /\ fits a) (fun _ => False) (fun _ => False) _ _ _ _ _ _ _ _ EM EM'); [|intros x b _ []|intros x b _ []|].
    - apply aligned_F2. assert (X : Forall fits (enumerate phrase)) by (apply Forall_forall; exact enumerate_fits). clear -X. induction X; constructor; auto.
    - intros pat pat' b b' _ _ (<- & FT) HD HD'. refine (proj1 (match_same _) _ _ sp sp' _ _ 0 b b' _ _ HD HD'); [split; [rewrite NM, NM'; exact RN|auto]|]. split; [reflexivity|]. split; [reflexivity|]. split; [constructor|exact FT]. }
  injection EP as EP. injection EP' as EP'. assert (G : map p_rules ps = map p_rules ps').
  { rewrite <- EP, <- EP'. clear -F. induction F as [|p p' l l' (A & B & _) F IH]; [reflexivity|]. cbn [filter]. rewrite <- B. destruct (p_rem p); cbn [map]; rewrite IH; congruence. }
  assert (Z : forall q, In q ps -> p_next q = [] /\ p_rem q = []) by (intros q I; apply C in I; tauto). assert (Z' : forall q, In q ps' -> p_next q = [] /\ p_rem q = []) by (intros q I; apply C' in I; tauto).
  clear -G Z Z'. revert ps' G Z'. induction ps as [|p ps IH]; intros [|p' ps'] G Z'; try discriminate; [reflexivity|]. cbn [map] in G. injection G as G1 G2. f_equal.
  - destruct (Z p (or_introl eq_refl)) as (A & B). destruct (Z' p' (or_introl eq_refl)) as (A' & B'). destruct p as [a1 a2 a3], p' as [b1 b2 b3]. cbn [p_next p_rem p_rules] in *. congruence.
  - apply IH; [intros; apply Z; right; assumption|exact G2|intros; apply Z'; right; assumption].
Qed.
End S.

(** ** Whole calls *)
Lemma same_search : forall g g' ph, is_loaded g -> is_loaded g' -> say_same ph g g' -> search g ph = search g' ph.
Proof. intros g g' ph L L' (R & RA & AL). unfold search. apply (search_same g g' ph R); auto; apply loaded_linked; assumption. Qed.
Lemma same_best : forall g g' phs, is_loaded g -> is_loaded g' -> Forall (fun ph => say_same ph g g') phs -> search_best g phs = search_best g' phs.
Proof.
  intros g g' phs L L' F. unfold search_best. generalize (mkBest [] f32_m1 [] f32_m1). induction F as [|ph phs SS F IH]; intros b; [reflexivity|]. cbn [search_best_loop]. unfold search_best1. rewrite (same_search g g' ph L L' SS).
  destruct (obind (search g' ph) _); cbn [obind]; auto.
Qed.
Lemma same_all : forall g g' phs, is_loaded g -> is_loaded g' -> Forall (fun ph => say_same ph g g') phs -> search_all g phs = search_all g' phs.
Proof.
  intros g g' phs L L' F. unfold search_all. assert (E : omap (all_phrase g) phs = omap (all_phrase g') phs); [|rewrite E; reflexivity].
  induction F as [|ph phs SS F IH]; [reflexivity|]. cbn [omap]. rewrite IH. unfold all_phrase at 1 3. rewrite (same_search g g' ph L L' SS). reflexivity.
Qed.
(** Only names and rules matter. *)
Lemma meta_alike : forall g h m, alike g h -> In m (g_metas g) -> exists m', In m' (g_metas h) /\ ms_name m' = ms_name m /\ map ref_names (ms_rules m') = map ref_names (ms_rules m).
Proof.
  intros g h m (A & _) I. assert (J : In (ms_name m, map ref_names (ms_rules m)) (plain (g_metas h))) by (rewrite <- A; unfold plain; apply in_map_iff; exists m; split; [reflexivity|exact I]).
  unfold plain in J. apply in_map_iff in J. destruct J as (m' & E & J). injection E as E1 E2. exists m'. auto.
Qed.
Lemma derives_alike : forall g h, alike g h -> forall ns k rs, derives g ns k rs -> derives h ns k rs.
Proof.
  intros g h A ns k rs D. induction D as [|ms refs rest k rs IM IR D IH|sec r rest k rs IS IR D IH]; [constructor| |].
  - destruct (meta_alike g h ms A IM) as (m' & I' & NM & E). assert (J : In (ref_names refs) (map ref_names (ms_rules m'))) by (rewrite E; apply in_map; exact IR). apply in_map_iff in J. destruct J as (refs' & EN & J).
    rewrite <- NM. eapply d_meta; [exact I'|exact J|]. unfold ref_names in EN. rewrite EN. exact IH.
  - eapply d_rule; [rewrite <- (proj2 A); exact IS|exact IR|exact IH].
Qed.
Lemma hopeless_alike : forall g h ph n, alike g h -> hopeless g ph n -> hopeless h ph n.
Proof. intros g h ph n A H k rs D. apply (H k). apply (derives_alike h g (alike_sym _ _ A)). exact D. Qed.
Lemma aligned_map : forall {A B A' B'} (f : A -> A') (h : B -> B') (Rel : A' -> B' -> Prop) P Q l m,
  aligned Rel P Q (map f l) (map h m) <-> aligned (fun x y => Rel (f x) (h y)) (fun x => P (f x)) (fun y => Q (h y)) l m.
Proof.
  intros A B A' B' f h Rel P Q l m. split; intros H.
  - remember (map f l) as l1 eqn:E1. remember (map h m) as m1 eqn:E2. revert l m E1 E2. induction H as [|a b l1 m1 RAB H IH|a l1 m1 PA H IH|b l1 m1 QB H IH]; intros l m E1 E2.
    + symmetry in E1, E2. apply map_eq_nil in E1, E2. subst. constructor.
    + destruct l as [|x l]; [discriminate|]. destruct m as [|y m]; [discriminate|]. injection E1 as -> E1. injection E2 as -> E2. apply al_both; [exact RAB|]. apply IH; assumption.
    + destruct l as [|x l]; [discriminate|]. injection E1 as -> E1. apply al_left; [exact PA|]. apply IH; assumption.
    + destruct m as [|y m]; [discriminate|]. injection E2 as -> E2. apply al_right; [exact QB|]. apply IH; assumption.
  - induction H; cbn [map]; constructor; auto.
Qed.
Lemma aligned_impl : forall {A B} (R R' : A -> B -> Prop) (P P' : A -> Prop) (Q Q' : B -> Prop) l m, (forall x y, R x y -> R' x y) -> (forall x, P x -> P' x) -> (forall y, Q y -> Q' y) -> aligned R P Q l m -> aligned R' P' Q' l m.
Proof. intros A B R R' P P' Q Q' l m H1 H2 H3 H. induction H; constructor; auto. Qed.
Lemma corresponds_alike : forall g g' h h' R ph, alike g h -> alike g' h' -> corresponds R ph g g' -> corresponds R ph h h'.
Proof.
  intros g g' h h' R ph A A' C n n' RN. destruct (C n n' RN) as [(m & m' & I & NM & I' & NM' & AG)|(s & s' & I & NM & I' & NM' & AG)].
  - left. destruct (meta_alike g h m A I) as (m1 & J & N1 & E). destruct (meta_alike g' h' m' A' I') as (m1' & J' & N1' & E'). exists m1, m1'. split; [exact J|]. split; [congruence|]. split; [exact J'|]. split; [congruence|].
    apply (proj1 (aligned_map ref_names ref_names (Forall2 R) (fun ns => exists n, In n ns /\ hopeless h ph n) (fun ns => exists n, In n ns /\ hopeless h' ph n) _ _)). rewrite E, E'.
    apply (proj2 (aligned_map ref_names ref_names (Forall2 R) _ _ _ _)). eapply aligned_impl; [| | |exact AG]; cbv beta; [auto| |].
    + intros refs (x & IX & HX). exists x. split; [exact IX|]. apply (hopeless_alike g h); assumption.
    + intros refs (x & IX & HX). exists x. split; [exact IX|]. apply (hopeless_alike g' h'); assumption.
  - right. exists s, s'. rewrite <- (proj2 A), <- (proj2 A'). auto 10.
Qed.
Lemma grammar_both : forall e atof gr g, uni_ok (e_uni e) -> grammar_of (e_uni e) atof gr g -> exists h, get_grammar e atof gr = Ok h /\ is_loaded h /\ alike g h.
Proof.
  intros e atof gr g U H. destruct (grammar_exists e atof gr g U H) as (h & E & A). exists h. split; [exact E|]. split; [|exact A]. exact (proj2 (grammar_loads e atof gr h U E)).
Qed.
Lemma calls_same : forall e atof sort address gr gr' g g' lx locale filt, uni_ok (e_uni e) -> grammar_of (e_uni e) atof gr g -> grammar_of (e_uni e) atof gr' g' ->
  (forall x phs, get_lexicon e lx = Ok x -> make_phrases e x locale filt address = Ok phs -> Forall (fun ph => say_same ph g g') phs) ->
  std_standardize e atof address gr lx locale filt = std_standardize e atof address gr' lx locale filt /\
  std_match_address e atof sort address gr lx locale filt = std_match_address e atof sort address gr' lx locale filt.
Proof.
  intros e atof sort address gr gr' g g' lx locale filt U G G' H. destruct (grammar_both e atof gr g U G) as (h & E & L & A). destruct (grammar_both e atof gr' g' U G') as (h' & E' & L' & A').
  unfold std_standardize, std_match_address. rewrite E, E'. cbn [obind]. destruct (get_lexicon e lx) as [x| |] eqn:EX; cbn [obind]; [|auto|auto].
  unfold standardize_addr, match_addr. destruct (make_phrases e x locale filt address) as [phs| |] eqn:EP; cbn [obind]; [|auto|auto].
  assert (F : Forall (fun ph => say_same ph h h') phs).
  { eapply Forall_impl; [|exact (H x phs eq_refl EP)]. intros ph (R & RA & C). exists R. split; [exact RA|]. exact (corresponds_alike _ _ _ _ _ _ A A' C). }
  rewrite (same_best h h' phs L L' F), (same_all h h' phs L L' F). auto.
Qed.
(** Sections that are reached. *)
Lemma reached_same : forall f g g' ph, f ADDRESS = ADDRESS -> (forall n, reached g ADDRESS n -> same_lines f g g' n) -> say_same ph g g'.
Proof.
  intros f g g' ph FA H. exists (fun n n' => reached g ADDRESS n /\ n' = f n). split; [split; [constructor|symmetry; exact FA]|]. intros n n' (RC & ->). destruct (H n RC) as [(m & m' & I & I' & NM & NM' & E)|(s & s' & I & I' & NM & NM' & E)].
  - left. exists m, m'. split; [exact I|]. split; [exact NM|]. split; [exact I'|]. split; [exact NM'|]. 
    assert (K : forall refs, In refs (ms_rules m) -> Forall (reached g ADDRESS) (ref_names refs)) by (intros refs J; apply Forall_forall; intros x JX; apply (rc_next g ADDRESS m refs); auto; rewrite NM; exact RC).
    clear -E K. revert E K. generalize (ms_rules m) (ms_rules m'). intros l. induction l as [|refs l IH]; intros [|refs' l'] E K; cbn [map] in E; try discriminate; [constructor|]. injection E as E1 E2. apply al_both.
    + rewrite E1. specialize (K refs (or_introl eq_refl)). clear -K. induction K as [|x ns RX K IH]; cbn [map]; constructor; auto.
    + apply IH; [exact E2|]. intros r J. apply K. right. exact J.
  - right. exists s, s'. split; [exact I|]. split; [exact NM|]. split; [exact I'|]. split; [exact NM'|]. rewrite E. clear. induction (rs_rules s) as [|r l IH]; constructor; auto.
Qed.
Lemma calls_reached : forall e atof sort f address gr gr' g g' lx locale filt, uni_ok (e_uni e) -> grammar_of (e_uni e) atof gr g -> grammar_of (e_uni e) atof gr' g' ->
  f ADDRESS = ADDRESS -> (forall n, reached g ADDRESS n -> same_lines f g g' n) ->
  std_standardize e atof address gr lx locale filt = std_standardize e atof address gr' lx locale filt /\
  std_match_address e atof sort address gr lx locale filt = std_match_address e atof sort address gr' lx locale filt.
Proof.
  intros e atof sort f address gr gr' g g' lx locale filt U G G' FA H. apply (calls_same e atof sort address gr gr' g g'); auto. intros x phs _ _. apply Forall_forall. intros ph _. apply (reached_same f); assumption.
Qed.
