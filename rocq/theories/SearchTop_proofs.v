(** The search entry points on linked grammars. *)
From Coq Require Import List NArith ZArith Bool Lia Arith.
From Verif Require Import Base_model Class_model Token_model Rule_model Search_model Search_spec
  Search_proofs Enum_proofs.
Import ListNotations.

Lemma Forall2_len : forall {A B} (R : A -> B -> Prop) a b, Forall2 R a b -> List.length a = List.length b.
Proof. induction 1; cbn; auto. Qed.

(** ** Linked grammars *)
Lemma linked_nonempty : forall g, linked g -> nonempty_metas g.
Proof. intros g H ms refs. apply (lk_nonempty g H). Qed.
Lemma ref_ok_exists : forall g r, ref_ok g r -> ref_exists g r.
Proof.
  intros g r [[i [ms [H1 [H2 _]]]]|[H0 [i [rs [H1 [H2 _]]]]]]; unfold ref_exists.
  - rewrite H1. congruence.
  - rewrite H0, H1. congruence.
Qed.
Lemma linked_refs_exist : forall g, linked g -> refs_exist g.
Proof. intros g H ms refs r H1 H2 H3. apply ref_ok_exists. eapply lk_refs; eauto. Qed.

Lemma NoDup_map_inj_in : forall {A B} (f : A -> B) l x y,
  NoDup (map f l) -> In x l -> In y l -> f x = f y -> x = y.
Proof.
  induction l as [|a l IH]; intros x y ND Hx Hy E; [destruct Hx|].
  cbn in ND. inversion ND; subst. destruct Hx as [->|Hx], Hy as [->|Hy]; auto.
  - exfalso. apply H1. rewrite E. apply in_map. assumption.
  - exfalso. apply H1. rewrite <- E. apply in_map. assumption.
Qed.
Lemma NoDup_app_l : forall {A} (a b : list A), NoDup (a ++ b) -> NoDup a.
Proof. induction a; intros b H; [constructor|]. inversion H; subst. constructor; [rewrite in_app_iff in H2; tauto|eauto]. Qed.
Lemma NoDup_app_r : forall {A} (a b : list A), NoDup (a ++ b) -> NoDup b.
Proof. induction a; intros b H; [assumption|]. inversion H; subst. eauto. Qed.
Lemma NoDup_app_disj : forall {A} (a b : list A) x, NoDup (a ++ b) -> In x a -> In x b -> False.
Proof.
  induction a as [|y a IH]; intros b x H Ha Hb; [destruct Ha|]. inversion H; subst.
  destruct Ha as [->|Ha]; [apply H2, in_app_iff; auto|eauto].
Qed.

Lemma linked_meta_unique : forall g m m', linked g -> In m (g_metas g) -> In m' (g_metas g) ->
  ms_name m = ms_name m' -> m = m'.
Proof. intros g m m' L. apply NoDup_map_inj_in. eapply NoDup_app_l. apply (lk_unique g L). Qed.
Lemma linked_rule_unique : forall g m m', linked g -> In m (g_rules g) -> In m' (g_rules g) ->
  rs_name m = rs_name m' -> m = m'.
Proof. intros g m m' L. apply NoDup_map_inj_in. eapply NoDup_app_r. apply (lk_unique g L). Qed.
Lemma linked_meta_rule_disj : forall g m r, linked g -> In m (g_metas g) -> In r (g_rules g) ->
  ms_name m = rs_name r -> False.
Proof.
  intros g m r L Hm Hr E. eapply NoDup_app_disj; [apply (lk_unique g L) | apply in_map; eassumption |].
  rewrite E. apply in_map. assumption.
Qed.

Lemma pder_derives : forall g next k ds, linked g -> Forall (ref_ok g) next ->
  pder g next k ds -> derives g (map f_name next) k ds.
Proof.
  intros g next k ds L HF H. induction H.
  - constructor.
  - inversion HF as [|? ? Hsp Hrest]; subst.
    destruct Hsp as [[i' [ms' [H4 [H5 H6]]]]|[H4 _]]; [|congruence].
    replace i' with i in * by congruence. rewrite H0 in H5. inversion H5; subst ms'.
    cbn [map]. rewrite <- H6. eapply d_meta; [eapply nth_error_In; eassumption|eassumption|].
    rewrite <- map_app. apply IHpder. apply Forall_app. split; [|assumption].
    apply Forall_forall. intros r Hr. eapply lk_refs; eauto. eapply nth_error_In; eassumption.
  - inversion HF as [|? ? Hsp Hrest]; subst.
    destruct Hsp as [[i' [ms' [H5 _]]]|[_ [i' [rs' [H5 [H6 H7]]]]]]; [congruence|].
    replace i' with i in * by congruence. rewrite H1 in H6. inversion H6; subst rs'.
    cbn [map]. rewrite <- H7. eapply d_rule; [eapply nth_error_In; eassumption|eassumption|].
    apply IHpder. assumption.
Qed.
Lemma derives_pder : forall g names k ds, linked g -> derives g names k ds ->
  forall next, names = map f_name next -> Forall (ref_ok g) next -> pder g next k ds.
Proof.
  intros g names k ds L H. induction H; intros next E HF.
  - destruct next; [constructor|discriminate].
  - destruct next as [|sp next]; [discriminate|]. inversion E; subst. inversion HF as [|? ? Hsp Hrest]; subst.
    destruct Hsp as [[i [ms' [H4 [H5 H6]]]]|[_ [i [rs' [_ [H5 H6]]]]]].
    + assert (ms = ms') by (eapply linked_meta_unique; eauto; [eapply nth_error_In; eauto|congruence]). subst ms'.
      eapply pd_meta; eauto. apply IHderives.
      * rewrite map_app. reflexivity.
      * apply Forall_app. split; [|assumption]. apply Forall_forall. intros r Hr. eapply lk_refs; eauto.
    + exfalso. eapply linked_meta_rule_disj; eauto; [eapply nth_error_In; eauto|congruence].
  - destruct next as [|sp next]; [discriminate|]. inversion E; subst. inversion HF as [|? ? Hsp Hrest]; subst.
    destruct Hsp as [[i [ms' [H4 [H5 H6]]]]|[H4 [i [rs' [H5 [H6 H7]]]]]].
    + exfalso. eapply linked_meta_rule_disj; eauto; [eapply nth_error_In; eauto|congruence].
    + assert (sec = rs') by (eapply linked_rule_unique; eauto; [eapply nth_error_In; eauto|congruence]). subst rs'.
      eapply pd_rule; eauto.
Qed.

(** ** The section index *)
Lemma index_find_In : forall ix n i, index_find ix n = Some i -> In (n, i) ix.
Proof.
  induction ix as [|[m j] ix IH]; intros n i H; [discriminate|]. cbn in H.
  destruct (teqb m n) eqn:E.
  - apply teqb_eq in E. inversion H; subst. left. reflexivity.
  - right. apply IH. assumption.
Qed.
Lemma index_find_None : forall ix n, index_find ix n = None <-> ~ In n (map fst ix).
Proof.
  induction ix as [|[m j] ix IH]; intros n; cbn; [split; auto|].
  destruct (teqb m n) eqn:E.
  - apply teqb_eq in E. split; [discriminate|]. intros H. exfalso. apply H. left. assumption.
  - apply teqb_neq in E. rewrite IH. tauto.
Qed.
Lemma linked_index_names : forall g n, linked g -> (In n (map fst (g_index g)) <-> In n (section_names g)).
Proof.
  intros g n L. split.
  - intros H. apply in_map_iff in H. destruct H as [[n' i] [<- H]]. cbn.
    unfold section_names. apply in_app_iff.
    destruct (lk_index g L _ _ H) as [[ms [H1 <-]]|[rs [H1 <-]]]; [left|right]; apply in_map; eapply nth_error_In; eauto.
  - intros H. destruct (lk_indexed g L n H) as [i Hi]. apply in_map_iff. exists (n, i). auto.
Qed.

Lemma section_ptr_ok : forall g n sp, linked g -> section_ptr g n = Some sp -> ref_ok g sp /\ f_name sp = n.
Proof.
  intros g n sp L H. unfold section_ptr in H.
  destruct (index_find (g_index g) n) as [i|]; [|discriminate].
  assert (HR : match nth_error (g_rules g) i with
        | Some rs => if teqb n (rs_name rs) then Some (mkRef n None (Some i)) else None
        | None => None end = Some sp -> ref_ok g sp /\ f_name sp = n).
  { destruct (nth_error (g_rules g) i) as [rs|] eqn:E; [|discriminate].
    destruct (teqb n (rs_name rs)) eqn:T; [|discriminate]. apply teqb_eq in T.
    intros HH. inversion HH; subst. split; [|reflexivity]. right. cbn. split; [reflexivity|]. exists i, rs. auto. }
  destruct (nth_error (g_metas g) i) as [ms|] eqn:E; [|auto].
  destruct (teqb n (ms_name ms)) eqn:T; [|auto]. apply teqb_eq in T.
  inversion H; subst. split; [|reflexivity]. left. exists i, ms. auto.
Qed.
Lemma section_ptr_None : forall g n, linked g -> (section_ptr g n = None <-> ~ In n (section_names g)).
Proof.
  intros g n L. rewrite <- (linked_index_names g n L). unfold section_ptr.
  destruct (index_find (g_index g) n) as [i|] eqn:E.
  - apply index_find_In in E. split.
    + intros H. exfalso.
      destruct (lk_index g L _ _ E) as [[ms [H1 H2]]|[rs [H1 H2]]].
      * rewrite H1 in H. rewrite H2, teqb_refl in H. discriminate.
      * rewrite H1 in H. rewrite H2, teqb_refl in H.
        destruct (nth_error (g_metas g) i) as [ms|]; [destruct (teqb n (ms_name ms))|]; discriminate.
    + intros H. exfalso. apply H. apply in_map_iff. exists (n, i). auto.
  - apply index_find_None in E. tauto.
Qed.

(** ** Characterization of the search *)
Lemma start_depth : forall g n, match_depth (max_refs g) (S (n + 2) - 0) (List.length (@nil sref)) <= search_fuel g n.
Proof. intros. unfold search_fuel. replace (S (n + 2) - 0) with (n + 3) by lia. cbn [List.length]. lia. Qed.

Lemma do_match_start : forall g n sp pat, linked g -> ref_ok g sp ->
  exists l, do_match (search_fuel g n) g (n + 2) sp (mkPath [] [] pat) 0 = Done l.
Proof.
  intros g n sp pat L HS.
  destruct (fuel_enough (search_fuel g n)) as [F _]. destruct (no_dangling (search_fuel g n)) as [D _].
  specialize (F g (n + 2) sp (mkPath [] [] pat) 0 (start_depth g n)).
  specialize (D g (n + 2) sp (mkPath [] [] pat) 0 (linked_refs_exist g L) (ref_ok_exists g sp HS) (Forall_nil _)).
  destruct (do_match (search_fuel g n) g (n + 2) sp (mkPath [] [] pat) 0); try congruence. eauto.
Qed.

Lemma start_char : forall f g lim sp pat l q, linked g -> ref_ok g sp ->
  do_match f g lim sp (mkPath [] [] pat) 0 = Done l ->
  (In q l <-> p_next q = [] /\ exists k, derives g [f_name sp] k (p_rules q) /\ k <= lim /\
              pat = rule_inputs (p_rules q) ++ p_rem q).
Proof.
  intros f g lim sp pat l q L HS H.
  destruct (chars f) as [C _]. destruct (C g lim sp _ 0 l (linked_nonempty g L) H) as [CM CR].
  cbn [p_next p_rules p_rem] in CM, CR.
  assert (HF : Forall (ref_ok g) [sp]) by (constructor; auto).
  destruct (f_meta sp) as [i|] eqn:EM.
  - rewrite (CM i eq_refl q). unfold reaches. cbn [p_next p_rules p_rem app]. split.
    + intros [Hn [k [ds [Hd [Hk [Hr Hm]]]]]]. split; [assumption|]. exists k. rewrite Hr.
      split; [|split; [lia|assumption]]. apply (pder_derives g [sp] k ds L HF Hd).
    + intros [Hn [k [Hd [Hk Hm]]]]. split; [assumption|]. exists k, (p_rules q).
      split; [eapply derives_pder; eauto|]. split; [lia|]. auto.
  - rewrite (CR eq_refl q). cbn [app]. split.
    + intros [_ [i [rs [r [H1 [H2 [H3 [H4 [H5 H6]]]]]]]]]. split; [assumption|]. exists 0.
      rewrite H5. split; [|split; [lia|]].
      * apply (pder_derives g [sp] 0 [r] L HF). eapply pd_rule; eauto. constructor.
      * unfold rule_inputs. cbn. rewrite app_nil_r. assumption.
    + intros [Hn [k [Hd [Hk Hm]]]]. split; [lia|].
      apply (derives_pder g _ _ _ L Hd [sp] eq_refl) in HF.
      remember (p_rules q) as ds eqn:Eds. inversion HF; [congruence|].
      match goal with HH : pder g [] _ _ |- _ => inversion HH end.
      exists i, rs, r. repeat split; try congruence. replace ds with [r] in Hm by congruence. unfold rule_inputs in Hm. cbn in Hm.
      rewrite app_nil_r in Hm. assumption.
Qed.

Lemma search_defined : forall g node phrase, linked g -> In node (section_names g) ->
  exists ps, search_node g node phrase = Ok ps.
Proof.
  intros g node phrase L HN. unfold search_node.
  destruct (section_ptr g node) as [sp|] eqn:E.
  - destruct (section_ptr_ok g node sp L E) as [HS _].
    destruct (sconcat_Done (fun pat => do_match (search_fuel g (List.length phrase)) g (List.length phrase + 2) sp
                  (mkPath [] [] pat) 0) (enumerate phrase)) as [r Hr].
    { intros pat _. apply do_match_start; assumption. }
    rewrite Hr. eauto.
  - apply section_ptr_None in E; [contradiction|assumption].
Qed.
Lemma search_throws : forall g node phrase, linked g -> ~ In node (section_names g) ->
  exists m, search_node g node phrase = Throw m.
Proof.
  intros g node phrase L HN. unfold search_node.
  apply section_ptr_None in HN; [|assumption]. rewrite HN. eauto.
Qed.

Lemma search_char : forall g node phrase ps, linked g -> search_node g node phrase = Ok ps ->
  forall p, In p ps <->
    p_next p = [] /\ p_rem p = [] /\ In (rule_inputs (p_rules p)) (enumerate phrase) /\
    exists k, derives g [node] k (p_rules p) /\ k <= List.length phrase + 2.
Proof.
  intros g node phrase ps L H p. unfold search_node in H.
  destruct (section_ptr g node) as [sp|] eqn:E; [|discriminate].
  destruct (section_ptr_ok g node sp L E) as [HS HN].
  destruct (sconcat _ (enumerate phrase)) as [ms| |] eqn:ES; try discriminate.
  inversion H; subst ps; clear H. rewrite filter_In, (sconcat_In _ _ _ ES p). split.
  - intros [[pat [a [Hp [Ha Hin]]]] Hrem].
    assert (HR : p_rem p = []) by (destruct (p_rem p); [reflexivity|discriminate]).
    apply (start_char _ _ _ _ _ _ p L HS Ha) in Hin. destruct Hin as [Hn [k [Hd [Hk Hm]]]].
    rewrite HR, app_nil_r in Hm. subst pat. rewrite HN in Hd. eauto 10.
  - intros [Hn [HR [Hp [k [Hd Hk]]]]]. rewrite HR. split; [|reflexivity].
    destruct (sconcat_Done_each _ _ _ ES _ Hp) as [a Ha].
    exists (rule_inputs (p_rules p)), a. split; [assumption|]. split; [exact Ha|].
    apply (start_char _ _ _ _ _ _ p L HS Ha). split; [assumption|]. exists k.
    rewrite HN. rewrite HR, app_nil_r. auto.
Qed.

(** ** C01 - C04 *)
Lemma search_sound : forall g node phrase ps p, linked g ->
  search_node g node phrase = Ok ps -> In p ps ->
  exists k, matches g node phrase k (p_rules p) /\ k <= List.length phrase + 2.
Proof.
  intros g node phrase ps p L H Hp. apply (search_char g node phrase ps L H p) in Hp.
  destruct Hp as [_ [_ [Hp [k [Hd Hk]]]]]. exists k. split; [|assumption]. split; [assumption|].
  apply enumerate_sound. assumption.
Qed.
Lemma search_complete : forall g node phrase k ds, linked g -> (combinations phrase <= 2 ^ 32)%N ->
  matches g node phrase k ds -> k <= List.length phrase + 2 ->
  exists ps p, search_node g node phrase = Ok ps /\ In p ps /\ p_rules p = ds.
Proof.
  intros g node phrase k ds L HB [Hd Hc] Hk.
  assert (HN : In node (section_names g)).
  { unfold section_names. apply in_app_iff.
    inversion Hd; subst; [left|right]; apply in_map; assumption. }
  destruct (search_defined g node phrase L HN) as [ps Hps].
  exists ps, (mkPath ds [] []). split; [assumption|]. split; [|reflexivity].
  apply (search_char g node phrase ps L Hps). cbn. split; [reflexivity|]. split; [reflexivity|].
  split; [apply enumerate_complete; assumption|]. eauto.
Qed.

(** Branching grammars. *)
Definition branching (g : grammar) : Prop :=
  (forall ms refs, In ms (g_metas g) -> In refs (ms_rules ms) -> 2 <= List.length refs) /\
  (forall sec r, In sec (g_rules g) -> In r (rs_rules sec) -> r_in r <> []).
Lemma derives_length : forall g names k ds, branching g -> derives g names k ds ->
  List.length names + k <= List.length (rule_inputs ds).
Proof.
  intros g names k ds [B1 B2] H. induction H.
  - cbn. lia.
  - rewrite app_length, map_length in IHderives. specialize (B1 _ _ H H0). cbn [List.length]. lia.
  - rewrite rule_inputs_cons, app_length. specialize (B2 _ _ H H0).
    destruct (r_in r); [congruence|]. cbn [List.length] in *. lia.
Qed.
Lemma chooses_length : forall ts pat, chooses ts pat -> List.length ts = List.length pat.
Proof. intros ts pat H. unfold chooses in H. eapply Forall2_len; eauto. Qed.

Lemma search_complete_branching : forall g phrase k ds, linked g -> branching g ->
  (combinations phrase <= 2 ^ 32)%N -> matches g ADDRESS phrase k ds ->
  exists ps p, search g phrase = Ok ps /\ In p ps /\ p_rules p = ds.
Proof.
  intros g phrase k ds L B HB M. eapply search_complete; eauto.
  destruct M as [Hd Hc]. apply derives_length in Hd; [|assumption].
  apply chooses_length in Hc. cbn [List.length] in Hd. lia.
Qed.

Lemma search_node_fuel : forall g node phrase, linked g -> search_node g node phrase <> UB.
Proof.
  intros g node phrase L. destruct (in_dec (list_eq_dec N.eq_dec) node (section_names g)) as [H|H].
  - destruct (search_defined g node phrase L H) as [ps E]. congruence.
  - destruct (search_throws g node phrase L H) as [ps E]. congruence.
Qed.

(** ** Reclassification *)
Fixpoint assign (ts : list token) (ins : list intype) (outs : list outtype) : list token :=
  match ts, ins, outs with
  | k :: ts', i :: ins', o :: outs' => set_out (set_in k [i]) o :: assign ts' ins' outs'
  | _, _, _ => ts
  end.
Lemma assign_app : forall ins outs ts1 ts2 ins2 outs2,
  List.length ts1 = List.length ins -> List.length ins = List.length outs ->
  assign (ts1 ++ ts2) (ins ++ ins2) (outs ++ outs2) = assign ts1 ins outs ++ assign ts2 ins2 outs2.
Proof.
  induction ins as [|i ins IH]; intros outs ts1 ts2 ins2 outs2 H1 H2; destruct ts1, outs; try discriminate; [reflexivity|].
  cbn in *. f_equal. apply IH; lia.
Qed.
Lemma reclass_rule_ok : forall ins outs ts rest,
  List.length ins = List.length outs -> Forall2 (fun k c => In c (t_in k)) ts ins ->
  reclass_rule ins outs (ts ++ rest) = Ok (assign ts ins outs, rest, true).
Proof.
  induction ins as [|i ins IH]; intros outs ts rest HL HF; inversion HF; subst.
  - reflexivity.
  - destruct outs as [|o outs]; [discriminate|]. cbn [reclass_rule app assign].
    unfold is_in_class. replace (iset_mem i (t_in x)) with true by (symmetry; apply iset_mem_In; assumption).
    rewrite IH; auto.
Qed.
Lemma reclass_rules_ok : forall rs ts,
  Forall (fun r => List.length (r_in r) = List.length (r_out r)) rs ->
  chooses ts (rule_inputs rs) ->
  reclass_rules rs ts = Ok (assign ts (rule_inputs rs) (rule_outputs rs), true).
Proof.
  induction rs as [|r rs IH]; intros ts HB HC.
  - inversion HC; subst. reflexivity.
  - inversion HB; subst. unfold rule_inputs in HC. cbn [map concat] in HC.
    apply Forall2_app_inv_r in HC. destruct HC as [t1 [t2 [H3 [H4 ->]]]].
    cbn [reclass_rules]. rewrite (reclass_rule_ok (r_in r) (r_out r) t1 t2) by assumption.
    rewrite (IH t2) by assumption. unfold rule_inputs, rule_outputs. cbn [map concat].
    rewrite assign_app; [reflexivity| |assumption]. eapply Forall2_len; eauto.
Qed.
Lemma reclass_count : forall rs n,
  fold_left (fun c r => c + List.length (r_in r)) rs n = n + List.length (rule_inputs rs).
Proof.
  induction rs as [|r rs IH]; intros n; cbn [fold_left]; [cbn; lia|].
  rewrite IH, rule_inputs_cons, app_length. lia.
Qed.
Lemma reclass_ok : forall ts p,
  Forall (fun r => List.length (r_in r) = List.length (r_out r)) (p_rules p) ->
  chooses ts (rule_inputs (p_rules p)) ->
  reclass_tokens ts p = Ok (assign ts (rule_inputs (p_rules p)) (rule_outputs (p_rules p)), true).
Proof.
  intros ts p HB HC. unfold reclass_tokens. rewrite reclass_count. cbn [Nat.add].
  rewrite (chooses_length _ _ HC), Nat.eqb_refl. apply reclass_rules_ok; assumption.
Qed.
Lemma assign_facts : forall ts ins outs,
  List.length ts = List.length ins -> List.length ins = List.length outs ->
  map t_text (assign ts ins outs) = map t_text ts /\ map t_std (assign ts ins outs) = map t_std ts /\
  map t_att (assign ts ins outs) = map t_att ts /\ map t_inlex (assign ts ins outs) = map t_inlex ts /\
  map t_in (assign ts ins outs) = map (fun c => [c]) ins /\ map t_out (assign ts ins outs) = outs.
Proof.
  induction ts as [|k ts IH]; intros ins outs H1 H2; destruct ins as [|i ins]; destruct outs as [|o outs]; try discriminate.
  - cbn. auto 10.
  - cbn in *. destruct (IH ins outs) as (E1 & E2 & E3 & E4 & E5 & E6); try lia.
    rewrite E1, E2, E3, E4, E5, E6. auto 10.
Qed.
Lemma derives_rules : forall g names k ds (P : rule -> Prop),
  (forall sec r, In sec (g_rules g) -> In r (rs_rules sec) -> P r) -> derives g names k ds -> Forall P ds.
Proof. intros g names k ds P HP H. induction H; auto. constructor; eauto. Qed.
Lemma balanced_length : forall rs, Forall (fun r => List.length (r_in r) = List.length (r_out r)) rs ->
  List.length (rule_inputs rs) = List.length (rule_outputs rs).
Proof.
  induction 1 as [|r rs H _ IH]; [reflexivity|]. unfold rule_inputs, rule_outputs in *. cbn [map concat].
  rewrite !app_length, H, IH. reflexivity.
Qed.

Lemma search_path_facts : forall g node phrase ps p, linked g -> rules_balanced g ->
  search_node g node phrase = Ok ps -> In p ps ->
  chooses phrase (rule_inputs (p_rules p)) /\
  Forall (fun r => List.length (r_in r) = List.length (r_out r)) (p_rules p).
Proof.
  intros g node phrase ps p L B H Hp. destruct (search_sound _ _ _ _ _ L H Hp) as [k [[Hd Hc] _]].
  split; [assumption|]. eapply derives_rules; [exact B|eassumption].
Qed.

Lemma reclass_faithful : forall g node phrase ps p, linked g -> rules_balanced g ->
  search_node g node phrase = Ok ps -> In p ps ->
  exists ts, reclass_tokens phrase p = Ok (ts, true) /\
    map t_text ts = map t_text phrase /\ map t_std ts = map t_std phrase /\
    map t_att ts = map t_att phrase /\ map t_inlex ts = map t_inlex phrase /\
    map t_in ts = map (fun c => [c]) (rule_inputs (p_rules p)) /\
    chooses phrase (rule_inputs (p_rules p)) /\
    map t_out ts = rule_outputs (p_rules p).
Proof.
  intros g node phrase ps p L B H Hp.
  destruct (search_path_facts g node phrase ps p L B H Hp) as [HC HB].
  exists (assign phrase (rule_inputs (p_rules p)) (rule_outputs (p_rules p))).
  split; [apply reclass_ok; assumption|].
  destruct (assign_facts phrase (rule_inputs (p_rules p)) (rule_outputs (p_rules p))) as (E1 & E2 & E3 & E4 & E5 & E6).
  - apply chooses_length. assumption.
  - apply balanced_length. assumption.
  - auto 10.
Qed.

(** A path of a search from a section has at least one rule. *)
Lemma derives_nonempty : forall g names k ds, linked g -> derives g names k ds -> names <> [] -> ds <> [].
Proof.
  intros g names k ds L H. induction H; intros HN; [congruence| |discriminate].
  apply IHderives. intros E. apply app_eq_nil in E. destruct E as [E _].
  apply map_eq_nil in E. exact (lk_nonempty g L ms refs H H0 E).
Qed.
