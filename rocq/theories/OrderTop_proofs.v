(** The list of matches of a phrase, and the match chosen among equals. *)
From Coq Require Import List NArith ZArith Bool Lia Arith Sorting.Sorted Sorting.Permutation Floats.SpecFloat.
From Verif Require Import Base_model Class_model Token_model Float_model Rule_model Search_model Search_spec Order_spec Search_proofs SearchTop_proofs Loaded_spec Loaded_proofs SearchBest_proofs Order_proofs.
Import ListNotations.

Lemma next_of_rule : forall f g lim sp pat ms, f_meta sp = None -> 1 <= lim -> do_match f g lim sp (mkPath [] [] pat) 0 = Done ms ->
  match_next (S f) g lim (mkPath [] [sp] pat) 0 = Done ms.
Proof.
  intros f g lim sp pat ms E L H. cbn [match_next p_next p_rules p_rem].
  assert (K : do_match f g lim sp (mkPath [] [] pat) 1 = Done ms).
  { destruct f as [|f]; [discriminate|]. cbn [do_match] in *. rewrite E in *. destruct (Nat.ltb_spec lim 1); [lia|exact H]. }
  rewrite K. cbn [sbind]. assert (Q : forall q, In q ms -> p_next q = []).
  { intros q Hq. destruct (proj1 (next_results_done f) _ _ _ _ _ _ H q Hq) as [Z|Z]; exact Z. }
  clear - Q. assert (E1 : forall F l', (forall q, In q l' -> p_next q = []) -> sconcat (fun result => match p_next result with [] => Done [result] | _ :: _ => F end) l' = Done l').
  { intros F l'. induction l' as [|q l' IH]; intros HM; [reflexivity|]. cbn [sconcat]. rewrite (HM q (or_introl eq_refl)), IH by (intros z Hz; apply HM; right; exact Hz). reflexivity. }
  apply E1. exact Q.
Qed.
Lemma node_lists : forall g f lim sp pat ms, linked g -> ref_ok g sp -> 1 <= lim -> do_match f g lim sp (mkPath [] [] pat) 0 = Done ms ->
  exists hs, ms = map (hit_path []) hs /\ lists (reached g lim 0 [f_name sp] pat) hs.
Proof.
  intros g f lim sp pat ms L R Hl H. destruct (f_meta sp) as [i|] eqn:E.
  - assert (N : f_meta sp <> None) by congruence. exact (proj1 (inner_lists f) g lim sp (mkPath [] [] pat) 0 ms L R (Forall_nil _) N H).
  - apply next_of_rule in H; [|exact E|exact Hl]. apply (proj2 (inner_lists (S f))) in H; [|exact L|constructor; [exact R|constructor]|discriminate].
    destruct H as (hs & -> & G). exists hs. split; [reflexivity|]. cbn [p_next p_rem map] in G. eapply lists_ext; [|exact G]. intros h. unfold reached.
    destruct R as [(i & ms & Em & _)|(_ & i & sec & _ & Ni & En)]; [congruence|]. apply nth_error_In in Ni. rewrite <- En. split; intros (k & K1 & T); exists k; (split; [|exact T]); [lia|].
    apply traced_rule in T; [|exact L|exact Ni]. destruct T as (j & r & p' & c' & r' & n' & _ & _ & _ & _ & T & _). inversion T. subst. lia.
Qed.
Definition l_copies (ds : list listing) : list listing := flat_map (fun m => repeat m (l_times m)) ds.
Definition whole (h : hit) : bool := match h_rem h with [] => true | _ => false end.
Definition as_listing (pat : list intype) (h : hit) : listing := mkL pat (h_cs h) (h_rs h) (h_n h).
Lemma pat_listing : forall (P : hit -> Prop) pat hs, lists P hs -> exists ds ls, StronglySorted earlier ds /\
  (forall m, In m ds <-> l_classes m = pat /\ P (mkHit (l_choices m) (l_rules m) (l_times m) [])) /\
  map p_rules (filter (fun p => match p_rem p with [] => true | _ => false end) (map (hit_path []) hs)) = map l_rules ls /\ echoes [] ds ls /\ Permutation ls (l_copies ds).
Proof.
  intros P pat hs (ds & S1 & I & E & Q). exists (map (as_listing pat) (filter whole ds)), (map (as_listing pat) (filter whole hs)). split; [|split; [|split; [|split]]].
  - apply (sorted_map _ _ hit_lt); [|apply sorted_filter; exact S1]. intros x y K. right. split; [reflexivity|exact K].
  - intros m. rewrite in_map_iff. split.
    + intros (h & <- & K). apply filter_In in K. destruct K as (K & W). apply I in K. destruct h as [c r n rem]. unfold whole in W. cbn [h_rem] in W. destruct rem; [|discriminate]. split; [reflexivity|exact K].
    + intros (E1 & K). apply I in K. exists (mkHit (l_choices m) (l_rules m) (l_times m) []). split; [destruct m; cbn in *; subst; reflexivity|]. apply filter_In. split; [exact K|reflexivity].
  - clear. induction hs as [|h hs IH]; [reflexivity|]. cbn [map filter]. unfold hit_path at 1. cbn [p_rem]. unfold whole at 1. destruct (h_rem h); [|exact IH]. cbn [map]. rewrite IH. reflexivity.
  - exact (echoes_map _ _ (as_listing pat) _ _ _ (echoes_filter _ whole _ _ _ E)).
  - assert (Z : forall a b : list hit, Permutation a b -> Permutation (filter whole a) (filter whole b)).
    { clear. intros a b H. induction H as [|x a b H IH|x y a|a b c H1 IH1 H2 IH2]; cbn [filter]; [constructor| | |].
      - destruct (whole x); [constructor; exact IH|exact IH].
      - destruct (whole x), (whole y); try apply Permutation_refl. apply perm_swap.
      - eapply Permutation_trans; eassumption. }
    apply Z in Q. apply (Permutation_map (as_listing pat)) in Q. eapply Permutation_trans; [exact Q|]. clear.
    assert (E : map (as_listing pat) (filter whole (copies ds)) = l_copies (map (as_listing pat) (filter whole ds))); [|rewrite E; apply Permutation_refl].
    unfold copies, l_copies. induction ds as [|h ds IH]; [reflexivity|]. cbn [flat_map filter]. rewrite filter_app, map_app, IH.
    assert (F : filter whole (repeat h (h_n h)) = if whole h then repeat h (h_n h) else []).
    { clear. induction (h_n h) as [|n IH]; cbn [repeat filter]; [destruct (whole h); reflexivity|]. rewrite IH. destruct (whole h); reflexivity. }
    rewrite F. destruct (whole h); [|reflexivity]. cbn [map flat_map as_listing l_times]. rewrite map_repeat. reflexivity.
Qed.
Lemma all_listed : forall g f lim sp pats ms, linked g -> ref_ok g sp -> 1 <= lim -> StronglySorted lex_lt pats ->
  sconcat (fun pat => do_match f g lim sp (mkPath [] [] pat) 0) pats = Done ms ->
  exists ds ls, StronglySorted earlier ds /\
    (forall m, In m ds <-> In (l_classes m) pats /\ exists k, k <= lim /\ traced g [f_name sp] (l_classes m) k (l_choices m) (l_rules m) (l_times m) []) /\
    map p_rules (filter (fun p => match p_rem p with [] => true | _ => false end) ms) = map l_rules ls /\ echoes [] ds ls /\ Permutation ls (l_copies ds).
Proof.
  intros g f lim sp pats ms L R Hl Sp. revert ms. induction Sp as [|pat pats Sp IH F]; intros ms H; cbn [sconcat] in H.
  - injection H as <-. exists [], []. split; [constructor|]. split; [intros m; split; [intros []|intros ([] & _)]|]. split; [reflexivity|]. split; constructor.
  - destruct (do_match f g lim sp (mkPath [] [] pat) 0) as [m1| |] eqn:E; try discriminate. cbn [sbind] in H. destruct (sconcat _ pats) as [m2| |]; try discriminate. cbn [sbind] in H. injection H as <-.
    apply node_lists in E; [|exact L|exact R|exact Hl]. destruct E as (hs & -> & G). destruct (pat_listing _ pat hs G) as (d1 & l1 & A1 & A2 & A3 & A4 & A5).
    destruct (IH m2 eq_refl) as (d2 & l2 & B1 & B2 & B3 & B4 & B5). exists (d1 ++ d2), (l1 ++ l2). split; [|split; [|split; [|split]]].
    + apply sorted_app; [exact A1|exact B1|]. intros x y Kx Ky. apply A2 in Kx. apply B2 in Ky. left. destruct Kx as (-> & _). destruct Ky as (Ky & _). rewrite Forall_forall in F. exact (F _ Ky).
    + intros m. rewrite in_app_iff, A2, B2. unfold reached. cbn [h_cs h_rs h_n h_rem]. split.
      * intros [(<- & k & K & T)|(I & K)]; [split; [left; reflexivity|exists k; split; [lia|exact T]]|split; [right; exact I|exact K]].
      * intros ([<-|I] & K); [left; split; [reflexivity|]; destruct K as (k & K & T); exists k; split; [lia|exact T]|right; auto].
    + rewrite filter_app, !map_app. f_equal; assumption.
    + apply echoes_app; [exact A4|]. eapply echoes_seen; [|exact B4]. intros x [].
    + unfold l_copies in *. rewrite flat_map_app. apply Permutation_app; assumption.
Qed.
Lemma search_listed : forall g node phrase ps, linked g -> (combinations phrase <= 2 ^ 32)%N -> Forall (fun k => StronglySorted class_lt (t_in k)) phrase ->
  search_node g node phrase = Ok ps ->
  exists ds ls, StronglySorted earlier ds /\ (forall m, In m ds <-> listed_match g node phrase m) /\
    map p_rules ps = map l_rules ls /\ echoes [] ds ls /\ Permutation ls (flat_map (fun m => repeat m (l_times m)) ds).
Proof.
  intros g node phrase ps L C Sp H. unfold search_node in H. destruct (section_ptr g node) as [sp|] eqn:E; [|discriminate]. destruct (section_ptr_ok g node sp L E) as (R & En).
  destruct (sconcat _ (enumerate phrase)) as [ms| |] eqn:Es; try discriminate. injection H as <-. destruct (enumerate_exact phrase C Sp) as (I & _ & So).
  apply all_listed in Es; [|exact L|exact R|lia|exact So]. destruct Es as (ds & ls & A1 & A2 & A3). exists ds, ls. split; [exact A1|]. split; [|exact A3].
  intros m. rewrite A2, I, En. reflexivity.
Qed.
