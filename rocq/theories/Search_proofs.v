(** Lemmas about the search. *)
From Coq Require Import List NArith ZArith Bool Lia Arith.
From Verif Require Import Base_model Class_model Token_model Rule_model Search_model Search_spec.
Import ListNotations.

(** ** Class equality *)
Lemma in_code_inj : forall a b, in_code a = in_code b -> a = b.
Proof. intros a b H; destruct a; destruct b; try reflexivity; discriminate H. Qed.
Lemma in_eqb_eq : forall a b, in_eqb a b = true <-> a = b.
Proof.
  intros a b. unfold in_eqb. rewrite Z.eqb_eq. split; [apply in_code_inj | congruence].
Qed.
Lemma in_eqb_refl : forall a, in_eqb a a = true.
Proof. intros; apply in_eqb_eq; reflexivity. Qed.
Lemma iset_mem_In : forall c s, iset_mem c s = true <-> In c s.
Proof.
  intros. unfold iset_mem. rewrite existsb_exists. split.
  - intros [x [H1 H2]]. apply in_eqb_eq in H2. congruence.
  - intros. exists c. split; auto. apply in_eqb_refl.
Qed.
Lemma teqb_eq : forall a b, teqb a b = true <-> a = b.
Proof.
  induction a as [|x a IH]; intros [|y b]; simpl; split; intro H; try congruence; auto.
  - apply andb_true_iff in H as [H1 H2]. apply N.eqb_eq in H1. apply IH in H2. congruence.
  - inversion H; subst. rewrite N.eqb_refl. simpl. apply IH. reflexivity.
Qed.
Lemma teqb_refl : forall a, teqb a a = true.
Proof. intros; apply teqb_eq; reflexivity. Qed.
Lemma teqb_neq : forall a b, teqb a b = false <-> a <> b.
Proof.
  intros a b. destruct (teqb a b) eqn:E.
  - apply teqb_eq in E. split; congruence.
  - split; auto. intros _ H. apply teqb_eq in H. congruence.
Qed.

(** ** Rule matching *)
Lemma strip_prefix_app : forall ins pat rest,
  strip_prefix ins pat = Some rest <-> pat = ins ++ rest.
Proof.
  induction ins as [|e ins IH]; intros pat rest; simpl.
  - split; congruence.
  - destruct pat as [|x pat]; [split; discriminate|].
    destruct (in_eqb x e) eqn:E.
    + apply in_eqb_eq in E. subst. rewrite IH. split; congruence.
    + split; [discriminate|]. intros H. inversion H. subst. rewrite in_eqb_refl in E. discriminate.
Qed.
Lemma match_rule_spec : forall r p q,
  match_rule r p = Some q <->
  (p_rem p = r_in r ++ p_rem q /\ p_rules q = p_rules p ++ [r] /\ p_next q = p_next p).
Proof.
  intros r p q. unfold match_rule.
  destruct (Nat.ltb (List.length (p_rem p)) (List.length (r_in r))) eqn:L.
  - apply Nat.ltb_lt in L. split; [discriminate|]. intros [H _]. rewrite H, app_length in L. lia.
  - destruct (strip_prefix (r_in r) (p_rem p)) as [rest|] eqn:E.
    + apply strip_prefix_app in E. split.
      * intros H. inversion H; subst; simpl. auto.
      * intros [H1 [H2 H3]]. rewrite E in H1. apply app_inv_head in H1. subst rest.
        destruct q; simpl in *. subst. reflexivity.
    + split; [discriminate|]. intros [H _].
      apply strip_prefix_app in H. congruence.
Qed.
Lemma match_rules_In : forall rs p q,
  In q (match_rules rs p) <->
  exists r, In r rs /\ p_rem p = r_in r ++ p_rem q /\ p_rules q = p_rules p ++ [r] /\ p_next q = p_next p.
Proof.
  induction rs as [|r rs IH]; intros p q; simpl.
  - split; [tauto | intros [r [[] _]]].
  - destruct (match_rule r p) as [q'|] eqn:E.
    + simpl. rewrite IH. split.
      * intros [H|H].
        -- subst. apply match_rule_spec in E. exists r. tauto.
        -- destruct H as [r' H]. exists r'. tauto.
      * intros [r' [[H|H] H']].
        -- subst. apply match_rule_spec in H'. left. congruence.
        -- right. exists r'. tauto.
    + rewrite IH. split.
      * intros [r' H]. exists r'. tauto.
      * intros [r' [[H|H] H']].
        -- subst. apply match_rule_spec in H'. congruence.
        -- exists r'. tauto.
Qed.

(** ** The result monad *)
Lemma sconcat_In : forall {A B} (f : A -> sres (list B)) l r,
  sconcat f l = Done r ->
  forall y, In y r <-> exists x a, In x l /\ f x = Done a /\ In y a.
Proof.
  induction l as [|x l IH]; simpl; intros r H y.
  - inversion H; subst. split; [intros [] | intros [x [a [[] _]]]].
  - destruct (f x) as [a| |] eqn:E; simpl in H; try discriminate.
    destruct (sconcat f l) as [b| |] eqn:E2; simpl in H; try discriminate.
    inversion H; subst. rewrite in_app_iff. rewrite (IH b eq_refl y). split.
    + intros [H1|[x' [a' [H1 [H2 H3]]]]].
      * exists x, a. auto.
      * exists x', a'. auto.
    + intros [x' [a' [[H1|H1] [H2 H3]]]].
      * subst. left. congruence.
      * right. exists x', a'. auto.
Qed.
Lemma sconcat_Done : forall {A B} (f : A -> sres (list B)) l,
  (forall x, In x l -> exists a, f x = Done a) -> exists r, sconcat f l = Done r.
Proof.
  induction l as [|x l IH]; simpl; intros H.
  - eauto.
  - destruct (H x (or_introl eq_refl)) as [a Ha]. rewrite Ha. simpl.
    destruct IH as [r Hr]; [intros; apply H; auto|]. rewrite Hr. simpl. eauto.
Qed.
Lemma sconcat_Done_each : forall {A B} (f : A -> sres (list B)) l r,
  sconcat f l = Done r -> forall x, In x l -> exists a, f x = Done a.
Proof.
  induction l as [|y l IH]; simpl; intros r H x Hx; [destruct Hx|].
  destruct (f y) as [a| |] eqn:E; simpl in H; try discriminate.
  destruct (sconcat f l) as [b| |] eqn:E2; simpl in H; try discriminate.
  destruct Hx as [->|Hx]; eauto.
Qed.
Lemma sconcat_fuel : forall {A B} (f : A -> sres (list B)) l,
  (forall x, In x l -> f x <> NoFuel) -> sconcat f l <> NoFuel.
Proof.
  induction l as [|x l IH]; simpl; intros H; [discriminate|].
  specialize (H x (or_introl eq_refl)) as Hx.
  destruct (f x); simpl; try congruence.
  assert (sconcat f l <> NoFuel) by (apply IH; auto).
  destruct (sconcat f l); simpl; congruence.
Qed.
Lemma sconcat_ext : forall {A B} (f g : A -> sres (list B)) l,
  (forall x, In x l -> f x = g x) -> sconcat f l = sconcat g l.
Proof.
  induction l as [|x l IH]; simpl; intros H; [reflexivity|].
  rewrite H by auto. destruct (g x); simpl; auto. rewrite IH; auto.
Qed.
Lemma sconcat_ext_mono : forall {A B} (f g : A -> sres (list B)) l,
  (forall x, In x l -> f x <> NoFuel -> g x = f x) -> sconcat f l <> NoFuel -> sconcat g l = sconcat f l.
Proof.
  induction l as [|x l IH]; simpl; intros H HF; [reflexivity|].
  destruct (f x) as [a| |] eqn:E.
  - rewrite (H x (or_introl eq_refl)); [|congruence]. rewrite E. simpl in *.
    rewrite IH; auto. destruct (sconcat f l); simpl in *; congruence.
  - simpl in HF. congruence.
  - rewrite (H x (or_introl eq_refl)); [|congruence]. rewrite E. reflexivity.
Qed.

(** ** Derivations through the resolved references *)
Inductive pder (g : grammar) : list sref -> nat -> list rule -> Prop :=
| pd_nil : pder g [] 0 []
| pd_meta : forall sp i ms refs rest k ds,
    f_meta sp = Some i -> nth_error (g_metas g) i = Some ms -> In refs (ms_rules ms) ->
    pder g (refs ++ rest) k ds -> pder g (sp :: rest) (S k) ds
| pd_rule : forall sp i rs r rest k ds,
    f_meta sp = None -> f_rule sp = Some i -> nth_error (g_rules g) i = Some rs -> In r (rs_rules rs) ->
    pder g rest k ds -> pder g (sp :: rest) k (r :: ds).

(** What a finished search step returns. *)
Definition reaches (g : grammar) (next : list sref) (lim level : nat) (p q : spath) : Prop :=
  p_next q = [] /\
  exists k ds, pder g next k ds /\ level + k <= lim /\
               p_rules q = p_rules p ++ ds /\ p_rem p = rule_inputs ds ++ p_rem q.

Definition nonempty_metas (g : grammar) : Prop :=
  forall ms refs, In ms (g_metas g) -> In refs (ms_rules ms) -> refs <> [].

Definition match_char (f : nat) : Prop := forall g lim sp p level l,
  nonempty_metas g ->
  do_match f g lim sp p level = Done l ->
  (forall i, f_meta sp = Some i -> forall q, In q l <-> reaches g (sp :: p_next p) lim level p q) /\
  (f_meta sp = None -> forall q, In q l <->
     level <= lim /\ exists i rs r, f_rule sp = Some i /\ nth_error (g_rules g) i = Some rs /\ In r (rs_rules rs) /\
        p_rem p = r_in r ++ p_rem q /\ p_rules q = p_rules p ++ [r] /\ p_next q = p_next p).
Definition next_char (f : nat) : Prop := forall g lim p level l,
  nonempty_metas g -> p_next p <> [] ->
  match_next f g lim p level = Done l ->
  forall q, In q l <-> reaches g (p_next p) lim (S level) p q.

Lemma rule_inputs_cons : forall r ds, rule_inputs (r :: ds) = r_in r ++ rule_inputs ds.
Proof. reflexivity. Qed.

Lemma chars_step : forall f, match_char f -> next_char f -> match_char (S f) /\ next_char (S f).
Proof.
  intros f IHm IHn. split.
  - intros g lim sp p level l NE H. cbn [do_match] in H.
    destruct (Nat.ltb lim level) eqn:L.
    { apply Nat.ltb_lt in L. inversion H; subst. split.
      - intros i _ q. split; [intros []|]. intros [_ [k [ds [_ [Hk _]]]]]. lia.
      - intros _ q. split; [intros []|]. intros [Hk _]. lia. }
    apply Nat.ltb_ge in L.
    destruct (f_meta sp) as [i|] eqn:EM.
    + split; [|discriminate]. intros i' Ei q. inversion Ei; subst i'; clear Ei.
      destruct (nth_error (g_metas g) i) as [ms|] eqn:EN; [|discriminate].
      rewrite (sconcat_In _ _ _ H q). split.
      * intros [refs [a [Hin [Ha Hq]]]].
        assert (NEr : refs <> []) by (apply (NE ms); [eapply nth_error_In; eauto|auto]).
        destruct (refs ++ p_next p) as [|s0 nx] eqn:ENX.
        { apply app_eq_nil in ENX. destruct ENX; congruence. }
        assert (Hc := fun N => IHn g lim _ level a NE N Ha); cbn [p_next] in Hc; specialize (Hc ltac:(discriminate)); clear Ha; rename Hc into Ha.
        apply Ha in Hq. destruct Hq as [Hn [k [ds [Hd [Hk [Hr Hm]]]]]]. cbn [p_next p_rules p_rem] in *.
        split; [exact Hn|]. exists (S k), ds. repeat split; auto; [|lia].
        eapply pd_meta; eauto. rewrite ENX. exact Hd.
      * intros [Hn [k [ds [Hd [Hk [Hr Hm]]]]]]. inversion Hd; subst; [|congruence].
        replace i0 with i in * by congruence. rewrite EN in H3. inversion H3; subst ms0. clear H3.
        destruct (sconcat_Done_each _ _ _ H refs) as [a Ha]; [auto|].
        exists refs, a. split; [auto|]. split; [exact Ha|].
        assert (NEr : refs <> []) by (apply (NE ms); [eapply nth_error_In; eauto|auto]).
        destruct (refs ++ p_next p) as [|s0 nx] eqn:ENX.
        { apply app_eq_nil in ENX. destruct ENX; congruence. }
        assert (Hc := fun N => IHn g lim _ level a NE N Ha); cbn [p_next] in Hc; specialize (Hc ltac:(discriminate)); clear Ha; rename Hc into Ha.
        apply Ha. split; [exact Hn|]. exists k0, ds. cbn [p_next p_rules p_rem]. repeat split; auto. lia.
    + split; [discriminate|]. intros _ q.
      destruct (f_rule sp) as [i|] eqn:ER.
      * destruct (nth_error (g_rules g) i) as [rs|] eqn:EN; [|discriminate].
        inversion H; subst. rewrite match_rules_In. split.
        -- intros [r Hr]. split; [lia|]. exists i, rs, r. tauto.
        -- intros [_ [i' [rs' [r [H1 [H2 H3]]]]]]. inversion H1; subst i'. rewrite EN in H2. inversion H2; subst.
           exists r. tauto.
      * inversion H; subst. split; [intros []|]. intros [_ [i [rs [r [H1 _]]]]]. discriminate.
  - intros g lim p level l NE Hnx H q. cbn [match_next] in H.
    destruct (p_next p) as [|sp rest] eqn:EP; [congruence|].
    destruct (do_match f g lim sp (mkPath (p_rules p) rest (p_rem p)) (S level)) as [mr| |] eqn:EM;
      cbn [sbind] in H; try discriminate.
    destruct (IHm _ _ _ _ _ _ NE EM) as [CM CR]. cbn [p_next p_rules p_rem] in CM, CR.
    destruct (f_meta sp) as [i|] eqn:EI.
    + (* meta: all results are complete *)
      specialize (CM i eq_refl).
      assert (Hl : forall y, In y l <-> In y mr).
      { intros y. rewrite (sconcat_In _ _ _ H y). split.
        - intros [x [a [Hx [Ha Hy]]]]. assert (p_next x = []) by (apply CM in Hx; apply Hx).
          rewrite H0 in Ha. inversion Ha; subst. destruct Hy as [<-|[]]. exact Hx.
        - intros Hy. exists y, [y]. assert (p_next y = []) by (apply CM in Hy; apply Hy).
          rewrite H0. simpl. auto. }
      rewrite Hl, CM. reflexivity.
    + specialize (CR eq_refl).
      assert (HN : forall y, In y mr -> p_next y = rest).
      { intros y Hy. apply CR in Hy. destruct Hy as [_ [i [rs [r Hy]]]]. apply Hy. }
      destruct rest as [|s1 rest].
      * assert (Hl : forall y, In y l <-> In y mr).
        { intros y. rewrite (sconcat_In _ _ _ H y). split.
          - intros [x [a [Hx [Ha Hy]]]]. rewrite (HN x Hx) in Ha. inversion Ha; subst.
            destruct Hy as [<-|[]]. exact Hx.
          - intros Hy. exists y, [y]. rewrite (HN y Hy). simpl. auto. }
        rewrite Hl, CR. split.
        -- intros [Hk [i [rs [r [H1 [H2 [H3 [H4 [H5 H6]]]]]]]]]. split; [exact H6|].
           exists 0, [r]. split; [eapply pd_rule; eauto; constructor|].
           split; [lia|]. split; [exact H5|]. rewrite rule_inputs_cons. unfold rule_inputs. simpl.
           rewrite app_nil_r. exact H4.
        -- intros [Hn [k [ds [Hd [Hk [Hr Hm]]]]]]. inversion Hd; subst; [congruence|].
           match goal with HH : pder g [] _ _ |- _ => inversion HH; subst end. split; [lia|]. exists i, rs, r. repeat split; auto.
           rewrite rule_inputs_cons in Hm. unfold rule_inputs in Hm. simpl in Hm. rewrite app_nil_r in Hm. exact Hm.
      * (* rule section followed by further sections *)
        assert (Hl : forall y, In y l <-> exists x a, In x mr /\ match_next f g lim x level = Done a /\ In y a).
        { intros y. rewrite (sconcat_In _ _ _ H y). split.
          - intros [x [a [Hx [Ha Hy]]]]. rewrite (HN x Hx) in Ha.
            apply (sconcat_In _ _ _ Ha y) in Hy. destruct Hy as [x' [a' [Hx' [Ha' Hy]]]].
            rewrite (HN x' Hx') in Ha'. exists x', a'. auto.
          - intros [x [a [Hx [Ha Hy]]]].
            destruct (sconcat_Done_each _ _ _ H x Hx) as [b Hb].
            exists x, b. split; [auto|]. split; [exact Hb|].
            rewrite (HN x Hx) in Hb. apply (sconcat_In _ _ _ Hb y).
            exists x, a. rewrite (HN x Hx). auto. }
        rewrite Hl. split.
        -- intros [x [a [Hx [Ha Hy]]]].
           assert (Hc := fun N => IHn _ _ _ _ _ NE N Ha); rewrite (HN x Hx) in Hc; specialize (Hc ltac:(discriminate)); clear Ha; rename Hc into Ha.
           apply Ha in Hy.
           apply CR in Hx. destruct Hx as [Hk [i [rs [r [H1 [H2 [H3 [H4 [H5 H6]]]]]]]]].
           destruct Hy as [Hn [k [ds [Hd [Hk' [Hr Hm]]]]]]. split; [exact Hn|].
           exists k, (r :: ds). split; [eapply pd_rule; eauto|]. split; [lia|].
           split. { rewrite Hr, H5, <- app_assoc. reflexivity. }
           rewrite rule_inputs_cons, <- app_assoc, <- Hm. exact H4.
        -- intros [Hn [k [ds [Hd [Hk [Hr Hm]]]]]]. inversion Hd; subst; [congruence|].
           rewrite rule_inputs_cons, <- app_assoc in Hm.
           set (x := mkPath (p_rules p ++ [r]) (s1 :: rest) (rule_inputs ds0 ++ p_rem q)).
           assert (Hx : In x mr).
           { apply CR. split; [lia|]. exists i, rs, r. subst x. cbn. auto 10. }
           assert (Hx2 : exists a, match_next f g lim x level = Done a).
           { destruct (sconcat_Done_each _ _ _ H x Hx) as [b Hb]. rewrite (HN x Hx) in Hb.
             destruct (sconcat_Done_each _ _ _ Hb x Hx) as [b' Hb']. rewrite (HN x Hx) in Hb'. eauto. }
           destruct Hx2 as [a Ha]. exists x, a. split; [exact Hx|]. split; [exact Ha|].
           assert (Hc := fun N => IHn _ _ _ _ _ NE N Ha); specialize (Hc ltac:(subst x; discriminate)); clear Ha; rename Hc into Ha.
           apply Ha. subst x. cbn. split; [exact Hn|]. exists k, ds0. cbn.
           split; [assumption|]. split; [lia|]. split; [|reflexivity].
           rewrite Hr, <- app_assoc. reflexivity.
Qed.

Lemma chars : forall f, match_char f /\ next_char f.
Proof.
  induction f as [|f [IHm IHn]].
  - split; intros g; intros; discriminate.
  - apply chars_step; assumption.
Qed.

(** ** Call nesting *)
Lemma match_depth_mono_q : forall w d q q', q <= q' -> match_depth w d q <= match_depth w d q'.
Proof.
  induction d as [|d IH]; intros q q' H; simpl; [lia|].
  specialize (IH (q + w) (q' + w) ltac:(lia)). lia.
Qed.
Lemma match_depth_pos : forall w d q, 1 <= match_depth w d q.
Proof. destruct d; simpl; intros; lia. Qed.

Lemma max_refs_ge : forall g i ms refs,
  nth_error (g_metas g) i = Some ms -> In refs (ms_rules ms) -> List.length refs <= max_refs g.
Proof.
  intros g i ms refs H Hr. apply nth_error_In in H. unfold max_refs.
  induction (g_metas g) as [|m l IH]; [destruct H|]. simpl.
  set (base := fold_right _ 0 l).
  assert (G : forall rs b, b <= fold_right (fun (r : metarule) b => Nat.max (List.length r) b) b rs).
  { induction rs; simpl; intros; [lia|]. specialize (IHrs b). lia. }
  assert (G2 : forall rs b, In refs rs ->
             List.length refs <= fold_right (fun (r : metarule) b => Nat.max (List.length r) b) b rs).
  { induction rs; simpl; intros b [].
    - subst. lia.
    - specialize (IHrs b H0). lia. }
  destruct H as [->|H]; [apply G2; assumption|].
  exact (Nat.le_trans _ _ _ (IH H) (G (ms_rules m) base)).
Qed.

Lemma next_results_done : forall f,
  (forall g lim sp p level l, do_match f g lim sp p level = Done l ->
     forall q, In q l -> p_next q = [] \/ p_next q = p_next p) /\
  (forall g lim p level l, match_next f g lim p level = Done l -> forall q, In q l -> p_next q = []).
Proof.
  induction f as [|f [IHm IHn]]; [split; intros; discriminate|]. split.
  - intros g lim sp p level l H q Hq. cbn [do_match] in H.
    destruct (Nat.ltb lim level); [inversion H; subst; destruct Hq|].
    destruct (f_meta sp).
    + destruct (nth_error (g_metas g) n); [|discriminate].
      apply (sconcat_In _ _ _ H q) in Hq. destruct Hq as [x [a [_ [Ha Hq]]]].
      destruct (x ++ p_next p); [inversion Ha; subst; destruct Hq|].
      left. eapply IHn; eauto.
    + destruct (f_rule sp); [|inversion H; subst; destruct Hq].
      destruct (nth_error (g_rules g) n); [|discriminate].
      inversion H; subst. apply match_rules_In in Hq. destruct Hq as [r0 Hq]. right. apply Hq.
  - intros g lim p level l H q Hq. cbn [match_next] in H.
    destruct (p_next p) as [|sp rest]; [inversion H; subst; destruct Hq|].
    destruct (do_match f g lim sp _ (S level)) as [mr| |]; cbn [sbind] in H; try discriminate.
    apply (sconcat_In _ _ _ H q) in Hq. destruct Hq as [x [a [Hx [Ha Hq]]]].
    destruct (p_next x) eqn:E.
    + inversion Ha; subst. destruct Hq as [<-|[]]. exact E.
    + apply (sconcat_In _ _ _ Ha q) in Hq. destruct Hq as [y [b [Hy [Hb Hq]]]].
      destruct (p_next y); [inversion Hb; subst; destruct Hq|]. eapply IHn; eauto.
Qed.

Lemma fuel_enough : forall f,
  (forall g lim sp p level, match_depth (max_refs g) (S lim - level) (List.length (p_next p)) <= f ->
     do_match f g lim sp p level <> NoFuel) /\
  (forall g lim p level, level <= lim ->
     List.length (p_next p) + 1 + match_depth (max_refs g) (lim - level) (List.length (p_next p)) <= f ->
     match_next f g lim p level <> NoFuel).
Proof.
  induction f as [|f [IHm IHn]].
  - split; intros.
    + pose proof (match_depth_pos (max_refs g) (S lim - level) (List.length (p_next p))). lia.
    + lia.
  - split.
    + intros g lim sp p level HF. cbn [do_match].
      destruct (Nat.ltb lim level) eqn:L; [discriminate|]. apply Nat.ltb_ge in L.
      destruct (f_meta sp) as [i|].
      * destruct (nth_error (g_metas g) i) as [ms|] eqn:EN; [|discriminate].
        apply sconcat_fuel. intros refs Hr.
        pose proof (max_refs_ge g i ms refs EN Hr) as HW.
        destruct (refs ++ p_next p) as [|s nx] eqn:EX; [discriminate|].
        apply IHn; [assumption|]. cbn [p_next]. rewrite <- EX, app_length.
        replace (S lim - level) with (S (lim - level)) in HF by lia. cbn [match_depth] in HF.
        assert (match_depth (max_refs g) (lim - level) (List.length refs + List.length (p_next p))
                <= match_depth (max_refs g) (lim - level) (List.length (p_next p) + max_refs g))
          by (apply match_depth_mono_q; lia).
        lia.
      * destruct (f_rule sp) as [i|]; [|discriminate].
        destruct (nth_error (g_rules g) i); discriminate.
    + intros g lim p level L HF. cbn [match_next].
      destruct (p_next p) as [|sp rest] eqn:EP; [discriminate|]. cbn [List.length] in HF.
      assert (M : match_depth (max_refs g) (lim - level) (List.length rest)
                  <= match_depth (max_refs g) (lim - level) (S (List.length rest)))
        by (apply match_depth_mono_q; lia).
      assert (HD : do_match f g lim sp (mkPath (p_rules p) rest (p_rem p)) (S level) <> NoFuel).
      { apply IHm. cbn [p_next]. replace (S lim - S level) with (lim - level) by lia. lia. }
      destruct (do_match f g lim sp (mkPath (p_rules p) rest (p_rem p)) (S level)) as [mr| |] eqn:EM;
        cbn [sbind]; try congruence.
      assert (HN : forall y, In y mr -> p_next y = [] \/ p_next y = rest).
      { intros y Hy. destruct (next_results_done f) as [HX _]. apply (HX _ _ _ _ _ _ EM y Hy). }
      apply sconcat_fuel. intros x Hx. destruct (p_next x); [discriminate|].
      apply sconcat_fuel. intros y Hy.
      destruct (HN y Hy) as [E|E]; rewrite E; [discriminate|].
      destruct rest as [|s1 rest]; [discriminate|].
      apply IHn; [assumption|]. rewrite E. lia.
Qed.

Lemma fuel_mono : forall f,
  (forall g lim sp p level, do_match f g lim sp p level <> NoFuel ->
     do_match (S f) g lim sp p level = do_match f g lim sp p level) /\
  (forall g lim p level, match_next f g lim p level <> NoFuel ->
     match_next (S f) g lim p level = match_next f g lim p level).
Proof.
  induction f as [|f [IHm IHn]]; [split; intros; exfalso; apply H; reflexivity|]. split.
  - intros g lim sp p level H.
    remember (S f) as f1. rewrite Heqf1 in H at 1. rewrite Heqf1 at 2.
    cbn [do_match] in *. destruct (Nat.ltb lim level); [reflexivity|].
    destruct (f_meta sp); [|reflexivity].
    destruct (nth_error (g_metas g) n); [|reflexivity].
    apply sconcat_ext_mono; [|exact H]. intros refs _ HF.
    destruct (refs ++ p_next p); [reflexivity|]. subst f1. apply IHn. exact HF.
  - intros g lim p level H.
    remember (S f) as f1. rewrite Heqf1 in H at 1. rewrite Heqf1 at 2.
    cbn [match_next] in *. destruct (p_next p) as [|sp rest]; [reflexivity|].
    destruct (do_match f g lim sp (mkPath (p_rules p) rest (p_rem p)) (S level)) as [mr| |] eqn:EM.
    + subst f1. rewrite IHm by congruence. rewrite EM. cbn [sbind] in *.
      apply sconcat_ext_mono; [|exact H]. intros x _ HF. destruct (p_next x); [reflexivity|].
      apply sconcat_ext_mono; [|exact HF]. intros y _ HF'. destruct (p_next y); [reflexivity|].
      apply IHn. exact HF'.
    + cbn [sbind] in H. congruence.
    + subst f1. rewrite IHm by congruence. rewrite EM. reflexivity.
Qed.
Lemma fuel_mono_le : forall f f' g lim sp p level, f <= f' ->
  do_match f g lim sp p level <> NoFuel ->
  do_match f' g lim sp p level = do_match f g lim sp p level.
Proof.
  intros f f' g lim sp p level H. induction H as [|f' H IH]; intros HF; [reflexivity|].
  specialize (IH HF). destruct (fuel_mono f') as [HM _].
  rewrite HM by congruence. exact IH.
Qed.

(** ** No dangling references *)
Definition ref_exists (g : grammar) (r : sref) : Prop :=
  match f_meta r with
  | Some i => nth_error (g_metas g) i <> None
  | None => match f_rule r with Some i => nth_error (g_rules g) i <> None | None => True end
  end.
Definition refs_exist (g : grammar) : Prop :=
  forall ms refs r, In ms (g_metas g) -> In refs (ms_rules ms) -> In r refs -> ref_exists g r.

Lemma sconcat_dangling : forall {A B} (f : A -> sres (list B)) l,
  (forall x, In x l -> f x <> Dangling) -> sconcat f l <> Dangling.
Proof.
  induction l as [|x l IH]; simpl; intros H; [discriminate|].
  specialize (H x (or_introl eq_refl)) as Hx.
  destruct (f x); simpl; try congruence.
  assert (sconcat f l <> Dangling) by (apply IH; auto).
  destruct (sconcat f l); simpl; congruence.
Qed.

Lemma no_dangling : forall f,
  (forall g lim sp p level, refs_exist g -> ref_exists g sp -> Forall (ref_exists g) (p_next p) ->
     do_match f g lim sp p level <> Dangling) /\
  (forall g lim p level, refs_exist g -> Forall (ref_exists g) (p_next p) ->
     match_next f g lim p level <> Dangling).
Proof.
  induction f as [|f [IHm IHn]]; [split; intros; discriminate|]. split.
  - intros g lim sp p level RE HS HP. cbn [do_match].
    destruct (Nat.ltb lim level); [discriminate|]. unfold ref_exists in HS.
    destruct (f_meta sp).
    + destruct (nth_error (g_metas g) n) as [ms|] eqn:EN; [|congruence].
      apply sconcat_dangling. intros refs Hr.
      destruct (refs ++ p_next p) eqn:EX; [discriminate|].
      apply IHn; auto. cbn [p_next]. rewrite <- EX. apply Forall_app. split; [|assumption].
      apply Forall_forall. intros r Hin. eapply RE; eauto. eapply nth_error_In; eauto.
    + destruct (f_rule sp); [|discriminate]. destruct (nth_error (g_rules g) n); congruence.
  - intros g lim p level RE HP. cbn [match_next].
    destruct (p_next p) as [|sp rest] eqn:EP; [discriminate|]. inversion HP; subst.
    assert (HD : do_match f g lim sp (mkPath (p_rules p) rest (p_rem p)) (S level) <> Dangling)
      by (apply IHm; auto).
    destruct (do_match f g lim sp (mkPath (p_rules p) rest (p_rem p)) (S level)) as [mr| |] eqn:EM;
      cbn [sbind]; try congruence.
    assert (HN : forall y, In y mr -> p_next y = [] \/ p_next y = rest).
    { intros y Hy. destruct (next_results_done f) as [HX _]. apply (HX _ _ _ _ _ _ EM y Hy). }
    apply sconcat_dangling. intros x Hx. destruct (p_next x); [discriminate|].
    apply sconcat_dangling. intros y Hy.
    destruct (HN y Hy) as [E|E]; rewrite E; [discriminate|].
    destruct rest as [|s1 rest]; [discriminate|].
    apply IHn; [assumption|]. rewrite E. assumption.
Qed.
