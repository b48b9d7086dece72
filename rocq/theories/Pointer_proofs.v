(** Lemmas about pointers to sections. *)
From Coq Require Import String List NArith Bool Lia Arith.
From Verif Require Import Base_model Class_model Float_model Uni_model Token_model Rule_model Search_model Grammar_model Pointer_model Sample_model
  Grammar_spec Search_spec Pointer_spec Search_proofs SearchTop_proofs Enum_proofs GrammarTop_proofs GrammarMore_proofs Loaded_proofs.
Import ListNotations.

(** ** The objects that loading makes *)
Definition pref_of (o : nat) (r : sref) : pref := mkP (f_name r) (option_map (pair o) (f_meta r)) (option_map (pair o) (f_rule r)).
Definition pmeta_of (o : nat) (m : metasection) : pmeta := mkPM (ms_name m) (map (map (pref_of o)) (ms_rules m)).
Definition placed (o : nat) (g : grammar) : pgrammar := mkPG (map (pmeta_of o) (g_metas g)) (g_rules g) (g_index g).
Definition fresh_ref (r : sref) : Prop := f_meta r = None /\ f_rule r = None.
Definition fresh_rules : list metarule -> Prop := Forall (Forall fresh_ref).
Definition fresh_load (s : loadst) : Prop := fresh_rules (l_mrules s) /\ Forall (fun m => fresh_rules (ms_rules m)) (l_metas s).

Lemma meta_refs_fresh : forall f u t, Forall fresh_ref (meta_refs f u t).
Proof.
  induction f as [|f IH]; intros u t; cbn [meta_refs]; [constructor|]. destruct (drop_while _ t) as [|c t']; [constructor|]. destruct (span _ t') as ([|d n] & r); [apply IH|].
  constructor; [split; reflexivity|apply IH].
Qed.
Lemma flush_fresh : forall s, fresh_load s -> fresh_load (flush s).
Proof.
  intros s (A & B). unfold flush. destruct (l_type s); split; cbn [l_mrules l_metas]; try assumption; try constructor. apply Forall_app. split; [exact B|constructor; [exact A|constructor]].
Qed.
Lemma line_fresh : forall u atof s l s', fresh_load s -> load_line u atof s l = Ok s' -> fresh_load s'.
Proof.
  intros u atof s l s' F H. unfold load_line in H. destruct (is_comment u l); [injection H as <-; exact F|]. destruct (section_header u l) as [n|].
  - assert (K : (match index_find (l_index (flush s)) n with Some _ => Throw (s2t "Grammar-Duplicate-Section_Name") | None => Ok (mkLoad n (l_type (flush s)) (l_mrules (flush s)) (l_rules (flush s)) (l_metas (flush s)) (l_rsecs (flush s)) (l_index (flush s))) end) = Ok s') by (destruct (l_type s), (l_sec s); try discriminate H; exact H).
    destruct (index_find _ n); [discriminate|]. injection K as <-. exact (flush_fresh s F).
  - destruct (l_sec s) as [|c n]; [discriminate|]. destruct F as (A & B). destruct (has_char AT l).
    + destruct (l_type s); try discriminate; injection H as <-; (split; cbn [l_mrules l_metas]; [|exact B]); (destruct (is_meta u l); [|exact A]); (apply Forall_app; split; [exact A|constructor; [apply meta_refs_fresh|constructor]]).
    + destruct (l_type s); try discriminate; (destruct (rule_parse atof l); try discriminate; injection H as <-; split; assumption).
Qed.
Lemma loop_fresh : forall f u atof b is l s s', fresh_load s -> load_loop f u atof b is l s = Ok s' -> fresh_load s'.
Proof.
  induction f as [|f IH]; intros u atof b is l s s' F H; cbn [load_loop] in H; [discriminate|]. destruct (s_fail is); [injection H as <-; exact F|].
  destruct (getline LF is l) as (is' & raw). destruct (if b then strip_bom raw else Ok raw) as [l'| |]; try discriminate. cbn [obind] in H.
  destruct (load_line u atof s l') as [s1| |] eqn:E; try discriminate. cbn [obind] in H. exact (IH _ _ _ _ _ _ _ (line_fresh _ _ _ _ _ F E) H).
Qed.
Lemma sections_fresh : forall u atof src s, load_sections u atof src = Ok s -> Forall (fun m => fresh_rules (ms_rules m)) (l_metas s).
Proof.
  intros u atof src s H. unfold load_sections in H. destruct (load_loop _ u atof true _ [] load0) as [s1| |] eqn:E; try discriminate. cbn [obind] in H.
  assert (F0 : fresh_load load0) by (split; constructor). assert (F := loop_fresh _ _ _ _ _ _ _ _ F0 E).
  destruct (l_sec s1); injection H as <-; [exact (proj2 F)|exact (proj2 (flush_fresh _ F))].
Qed.

Definition oplace {A B} (f : A -> B) (x : outcome (A * text)) : outcome (B * text) := obind x (fun '(a, t) => Ok (f a, t)).
Lemma p_ref : forall this metas rules ix self name r, fresh_ref r ->
  p_link_ref this (map new_pmeta metas) rules ix self name (new_pref r) = oplace (pref_of this) (link_ref metas rules ix self name r).
Proof.
  intros this metas rules ix self name r (A & B). unfold p_link_ref, link_ref, oplace. cbn [q_name q_mptr q_rptr new_pref]. cbv zeta.
  destruct (teqb (f_name r) name); [cbn [obind]; unfold pref_of; cbn [f_name f_meta f_rule]; rewrite B; reflexivity|].
  destruct (index_find ix (f_name r)) as [i|].
  - rewrite nth_error_map. destruct (nth_error metas i) as [ms|]; cbn [option_map new_pmeta pm_name].
    + destruct (teqb (ms_name ms) (f_name r)); [cbn [obind]; unfold pref_of; cbn [f_name f_meta f_rule]; rewrite B; reflexivity|].
      destruct (match nth_error rules i with Some rs => teqb (rs_name rs) (f_name r) | None => false end); cbn [obind]; [unfold pref_of; cbn [f_name f_meta f_rule]; rewrite A; reflexivity|reflexivity].
    + destruct (match nth_error rules i with Some rs => teqb (rs_name rs) (f_name r) | None => false end); cbn [obind]; [unfold pref_of; cbn [f_name f_meta f_rule]; rewrite A; reflexivity|reflexivity].
  - cbn [obind]. unfold pref_of, new_pref. rewrite A, B. reflexivity.
Qed.
Lemma link_all_map : forall {A B C} (F : B -> outcome (B * text)) (G : A -> outcome (A * text)) (h : A -> B) (k : A -> B) (P : A -> Prop) l,
  (forall a, P a -> F (h a) = oplace k (G a)) -> Forall P l -> C = unit -> link_all F (map h l) = oplace (map k) (link_all G l).
Proof.
  intros A B C F G h k P l H FP _. induction FP as [|a l Pa FP IH]; [reflexivity|]. cbn [map link_all]. rewrite (H a Pa), IH. unfold oplace. destruct (G a) as [(y & t)| |]; cbn [obind]; try reflexivity.
  destruct (link_all G l) as [(ys & ts)| |]; reflexivity.
Qed.
Lemma p_section : forall this metas rules ix self m, fresh_rules (ms_rules m) ->
  p_link_section this (map new_pmeta metas) rules ix self (new_pmeta m) = oplace (pmeta_of this) (link_section metas rules ix self m).
Proof.
  intros this metas rules ix self m F. unfold p_link_section, link_section. cbn [new_pmeta pm_name pm_rules].
  rewrite (link_all_map (C := unit) (link_all (p_link_ref this (map new_pmeta metas) rules ix self (ms_name m))) (link_rule metas rules ix self (ms_name m)) (map new_pref) (map (pref_of this)) (Forall fresh_ref));
    [|intros r Fr; unfold link_rule; apply (link_all_map (C := unit)) with (P := fresh_ref); [intros a Fa; apply p_ref; exact Fa|exact Fr|reflexivity]|exact F|reflexivity].
  unfold oplace. destruct (link_all _ (ms_rules m)) as [(rs & t)| |]; reflexivity.
Qed.
Lemma p_metas : forall this metas rules ix l self, Forall (fun m => fresh_rules (ms_rules m)) l ->
  p_link_metas this (map new_pmeta metas) rules ix self (map new_pmeta l) = oplace (map (pmeta_of this)) (link_metas metas rules ix self l).
Proof.
  intros this metas rules ix l. induction l as [|m l IH]; intros self F; [reflexivity|]. inversion F; subst. cbn [map p_link_metas link_metas]. rewrite p_section, IH by assumption. unfold oplace.
  destruct (link_section metas rules ix self m) as [(m' & t)| |]; cbn [obind]; try reflexivity. destruct (link_metas metas rules ix (S self) l) as [(ms & ts)| |]; reflexivity.
Qed.
Lemma plain_new : forall m, fresh_rules (ms_rules m) -> plain_meta (new_pmeta m) = m.
Proof.
  intros (n & rs) F. unfold plain_meta, new_pmeta. cbn [pm_name pm_rules ms_name ms_rules] in *. f_equal. rewrite map_map. rewrite <- (map_id rs) at 2. apply map_ext_in. intros r I.
  unfold fresh_rules in F. rewrite Forall_forall in F. specialize (F r I). rewrite map_map. rewrite <- (map_id r) at 2. apply map_ext_in. intros q J. rewrite Forall_forall in F. destruct (F q J) as (A & B).
  unfold new_ref, new_pref. cbn [q_name]. destruct q as [a b c]. cbn [f_name f_meta f_rule] in *. subst. reflexivity.
Qed.
Lemma link_names : forall metas rules ix l self out t, link_metas metas rules ix self l = Ok (out, t) -> map ms_name out = map ms_name l.
Proof.
  intros metas rules ix l. induction l as [|m l IH]; intros self out t H; cbn [link_metas] in H; [injection H as <- _; reflexivity|].
  destruct (link_section metas rules ix self m) as [(m' & t1)| |] eqn:E; try discriminate. cbn [obind] in H. destruct (link_metas metas rules ix (S self) l) as [(ms & ts)| |] eqn:E2; try discriminate. cbn [obind] in H.
  injection H as <- _. cbn [map]. rewrite (IH _ _ _ E2). f_equal. unfold link_section in E. destruct (link_all _ (ms_rules m)) as [(rs & t2)| |]; try discriminate. cbn [obind] in E. injection E as <- _. reflexivity.
Qed.
Lemma p_updated : forall this g, Forall (fun m => fresh_rules (ms_rules m)) (g_metas g) ->
  p_update this (mkPG (map new_pmeta (g_metas g)) (g_rules g) (g_index g)) = obind (update_pointers g) (fun '(g', st, t) => Ok (placed this g', st, t)).
Proof.
  intros this g F. unfold p_update, update_pointers. cbn [pg_metas pg_rules pg_index]. rewrite p_metas by exact F. unfold oplace.
  assert (N : map plain_meta (map new_pmeta (g_metas g)) = g_metas g). { rewrite map_map. rewrite <- (map_id (g_metas g)) at 2. apply map_ext_in. intros m I. apply plain_new. rewrite Forall_forall in F. exact (F m I). }
  destruct (link_metas (g_metas g) (g_rules g) (g_index g) 0 (g_metas g)) as [(metas & missing)| |] eqn:E; cbn [obind]; try reflexivity. cbv zeta. rewrite N.
  assert (U : concat (map (fun e => unref_issue (all_refs (g_metas g)) (ms_name e)) metas) = concat (map (fun e => unref_issue (all_refs (g_metas g)) (ms_name e)) (g_metas g))).
  { f_equal. rewrite <- (map_map ms_name (unref_issue (all_refs (g_metas g))) metas), (link_names _ _ _ _ _ _ _ E), map_map. reflexivity. }
  rewrite U. destruct (rule_issues (all_refs (g_metas g)) [] (g_rules g)) as (a & b). reflexivity.
Qed.
Lemma new_step : forall u atof src st, perform u atof (New src) st = obind (load_grammar u atof src) (fun L => Ok (st ++ [Some (placed (List.length st) (gl_grammar L))])).
Proof.
  intros u atof src st. cbn [perform]. unfold load_grammar. destruct (load_sections u atof src) as [s| |] eqn:E; cbn [obind]; try reflexivity.
  assert (P := p_updated (List.length st) (mkGrammar (l_metas s) (l_rsecs s) (l_index s)) (sections_fresh _ _ _ _ E)). cbn [g_metas g_rules g_index] in P. rewrite P. clear P.
  destruct (update_pointers _) as [((g & status) & issues)| |]; cbn [obind]; try reflexivity. destruct status; reflexivity.
Qed.

(** ** The store *)
Lemma object_app : forall st x i, object (st ++ [x]) i = if Nat.eqb i (List.length st) then x else object st i.
Proof.
  intros st x i. unfold object. destruct (Nat.eqb_spec i (List.length st)) as [->|N].
  - rewrite nth_error_app2 by lia. rewrite Nat.sub_diag. destruct x; reflexivity.
  - destruct (Nat.lt_ge_cases i (List.length st)) as [L|L]; [rewrite nth_error_app1 by exact L; reflexivity|].
    rewrite (proj2 (nth_error_None (st ++ [x]) i)) by (rewrite app_length; cbn [List.length]; lia). rewrite (proj2 (nth_error_None st i)) by exact L. reflexivity.
Qed.
Lemma forget_length : forall st i, List.length (forget st i) = List.length st.
Proof. induction st as [|x st IH]; intros [|i]; cbn; auto. Qed.
Lemma forget_object : forall st i j, object (forget st i) j = if Nat.eqb j i then None else object st j.
Proof.
  unfold object. induction st as [|x st IH]; intros i j.
  - destruct j; cbn [forget nth_error]; destruct (Nat.eqb _ i); reflexivity.
  - destruct i as [|i], j as [|j]; cbn [forget nth_error Nat.eqb]; try reflexivity. apply IH.
Qed.
Lemma object_short : forall st i g, object st i = Some g -> (i < List.length st)%nat.
Proof. intros st i g H. unfold object in H. apply nth_error_Some. intros E. rewrite E in H. discriminate. Qed.
Lemma births_app : forall a b, births (a ++ b) = births a ++ births b.
Proof. induction a as [|[s|i|i] a IH]; intros b; cbn [app births]; rewrite ?IH; reflexivity. Qed.
Lemma run_app : forall u atof a b st, run u atof (a ++ b) st = obind (run u atof a st) (run u atof b).
Proof. induction a as [|o a IH]; intros b st; [reflexivity|]. cbn [app run]. destruct (perform u atof o st); cbn [obind]; auto. Qed.
Lemma origin_app : forall a b i o src, origin a i o src -> origin (a ++ b) i o src.
Proof.
  intros a b i o src H. induction H as [i src H|i j o src H _ IH].
  - apply origin_new. rewrite births_app, nth_error_app1; [exact H|]. apply nth_error_Some. congruence.
  - apply (origin_copy _ i j); [|exact IH]. rewrite births_app, nth_error_app1; [exact H|]. apply nth_error_Some. congruence.
Qed.
Record tracked (u : uni) (atof : text -> flt) (ops : list op) (st : store) : Prop := {
  tr_length : List.length st = List.length (births ops);
  tr_alive : forall i, (i < List.length st)%nat -> (object st i = None <-> deleted ops i);
  tr_kept : forall i, deleted ops i -> (i < List.length st)%nat;
  tr_object : forall i, (i < List.length st)%nat -> exists o src L, origin ops i o src /\ (o <= i)%nat /\ nth_error (births ops) o = Some (New src) /\ load_grammar u atof src = Ok L /\
    forall g, object st i = Some g -> g = placed o (gl_grammar L) }.
Lemma run_tracked : forall u atof ops st, run u atof ops [] = Ok st -> tracked u atof ops st.
Proof.
  intros u atof ops. induction ops as [|o ops IH] using rev_ind; intros st H.
  - cbn [run] in H. injection H as <-. split; [reflexivity| |intros i []|]; intros i L; cbn in L; lia.
  - rewrite run_app in H. destruct (run u atof ops []) as [st1| |] eqn:E; try discriminate. cbn [obind run] in H. destruct (IH st1 eq_refl) as [T1 T2 T3 T4]. clear IH.
    destruct (perform u atof o st1) as [st2| |] eqn:ES; try discriminate. cbn [obind] in H. injection H as <-.
    assert (DEL : forall i, deleted (ops ++ [o]) i <-> deleted ops i \/ o = Delete i). { intros i. unfold deleted. rewrite in_app_iff. cbn [In]. intuition. }
    assert (NEW : forall g0 oo, (exists src L, origin (ops ++ [o]) (List.length st1) oo src /\ (oo <= List.length st1)%nat /\ nth_error (births (ops ++ [o])) oo = Some (New src) /\ load_grammar u atof src = Ok L /\ g0 = placed oo (gl_grammar L)) ->
        (forall i, o <> Delete i) -> births [o] = [o] -> tracked u atof (ops ++ [o]) (st1 ++ [Some g0])).
    { intros g0 oo (src & L & O1 & O2 & O3 & O4 & O5) ND B. split.
      - rewrite births_app, !app_length, B, T1. reflexivity.
      - intros i LI. rewrite object_app, DEL. destruct (Nat.eqb_spec i (List.length st1)) as [->|N].
        + split; [discriminate|]. intros [D|D]; [|destruct (ND _ D)]. apply T3 in D. lia.
        + rewrite app_length in LI. cbn [List.length] in LI. rewrite T2 by lia. split; [auto|]. intros [D|D]; [exact D|destruct (ND _ D)].
      - intros i D. apply DEL in D. destruct D as [D|D]; [|destruct (ND _ D)]. apply T3 in D. rewrite app_length. lia.
      - intros i LI. destruct (Nat.eqb_spec i (List.length st1)) as [->|N].
        + exists oo, src, L. split; [exact O1|]. split; [exact O2|]. split; [exact O3|]. split; [exact O4|]. intros g K. rewrite object_app, Nat.eqb_refl in K. injection K as <-. exact O5.
        + rewrite app_length in LI. cbn [List.length] in LI. destruct (T4 i ltac:(lia)) as (o' & src' & L' & P1 & P2 & P3 & P4 & P5). exists o', src', L'. split; [apply origin_app; exact P1|]. split; [exact P2|].
          split; [rewrite births_app, nth_error_app1; [exact P3|]; apply nth_error_Some; congruence|]. split; [exact P4|]. intros g K. apply P5. rewrite object_app in K. destruct (Nat.eqb_spec i (List.length st1)); [contradiction|exact K]. }
    assert (AT : births [o] = [o] -> nth_error (births (ops ++ [o])) (List.length st1) = Some o) by (intros B; rewrite births_app, B, nth_error_app2, T1, Nat.sub_diag by lia; reflexivity).
    destruct o as [src|i|i].
    + rewrite new_step in ES. destruct (load_grammar u atof src) as [L| |] eqn:EL; try discriminate. cbn [obind] in ES. injection ES as <-.
      apply (NEW _ (List.length st1)); [|discriminate|reflexivity]. exists src, L. split; [apply origin_new; apply AT; reflexivity|]. split; [lia|]. split; [apply AT; reflexivity|]. auto.
    + cbn [perform] in ES. destruct (object st1 i) as [g|] eqn:EO; [|discriminate]. injection ES as <-. assert (LI := object_short _ _ _ EO). destruct (T4 i LI) as (o' & src & L & P1 & P2 & P3 & P4 & P5).
      apply (NEW _ o'); [|discriminate|reflexivity]. exists src, L. split; [apply (origin_copy _ _ i); [apply AT; reflexivity|apply origin_app; exact P1]|]. split; [lia|].
      split; [rewrite births_app, nth_error_app1; [exact P3|]; apply nth_error_Some; congruence|]. split; [exact P4|apply P5; exact EO].
    + cbn [perform] in ES. destruct (object st1 i) as [g|] eqn:EO; [|discriminate]. injection ES as <-. assert (LI := object_short _ _ _ EO). split.
      * rewrite forget_length, births_app. cbn [births]. rewrite app_nil_r. exact T1.
      * intros j LJ. rewrite forget_length in LJ. rewrite forget_object, DEL. destruct (Nat.eqb_spec j i) as [->|N]; [split; auto|]. rewrite T2 by exact LJ. split; [auto|]. intros [D|D]; [exact D|injection D as D; congruence].
      * intros j D. rewrite forget_length. apply DEL in D. destruct D as [D|D]; [exact (T3 j D)|injection D as <-; exact LI].
      * intros j LJ. rewrite forget_length in LJ. destruct (T4 j LJ) as (o' & src & L & P1 & P2 & P3 & P4 & P5). exists o', src, L. split; [apply origin_app; exact P1|]. split; [exact P2|].
        split; [rewrite births_app; cbn [births]; rewrite app_nil_r; exact P3|]. split; [exact P4|]. intros g' K. apply P5. rewrite forget_object in K. destruct (Nat.eqb j i); [discriminate|exact K].
Qed.
Lemma origin_one : forall ops i o src, origin ops i o src -> forall o' src', origin ops i o' src' -> o = o' /\ src = src'.
Proof.
  intros ops i o src H. induction H as [i src H|i j o src H _ IH]; intros o' src' K; inversion K as [? ? Q|? ? ? ? Q K']; subst; rewrite H in Q; try discriminate.
  - injection Q as ->. auto.
  - injection Q as ->. apply IH. exact K'.
Qed.

(** ** The search *)
Definition path_of (o : nat) (p : spath) : ppath := mkPP (p_rules p) (map (pref_of o) (p_next p)) (p_rem p).
Definition smap {A B} (f : A -> B) (x : sres A) : sres B := sbind x (fun a => Done (f a)).
Lemma sconcat_sim : forall {A A' B B'} (F : A' -> sres (list B')) (G : A -> sres (list B)) (h : A -> A') (k : B -> B') l,
  (forall x, In x l -> F (h x) = smap (map k) (G x)) -> sconcat F (map h l) = smap (map k) (sconcat G l).
Proof.
  intros A A' B B' F G h k l. induction l as [|x l IH]; intros H; [reflexivity|]. cbn [map sconcat]. rewrite (H x (or_introl eq_refl)), IH by (intros y I; apply H; right; exact I).
  unfold smap. destruct (G x); cbn [sbind]; try reflexivity. destruct (sconcat G l); cbn [sbind]; try reflexivity. rewrite map_app. reflexivity.
Qed.
Lemma rules_sim : forall o rs p, p_match_rules rs (path_of o p) = map (path_of o) (match_rules rs p).
Proof.
  intros o rs p. induction rs as [|r rs IH]; [reflexivity|]. cbn [p_match_rules match_rules]. unfold match_rule. cbn [path_of pp_rem pp_rules pp_next].
  destruct (Nat.ltb _ _); [exact IH|]. destruct (strip_prefix _ _); [|exact IH]. cbn [map]. rewrite IH. reflexivity.
Qed.
Lemma match_sim : forall st o g, object st o = Some (placed o g) -> forall f,
  (forall lim b r p level, object st b = Some (placed o g) -> p_match f st lim (pref_of b r) (path_of o p) level = smap (map (path_of o)) (do_match f g lim r p level)) /\
  (forall lim p level, p_next_match f st lim (path_of o p) level = smap (map (path_of o)) (match_next f g lim p level)).
Proof.
  intros st o g OG. induction f as [|f (IH1 & IH2)]; [split; reflexivity|]. split.
  - intros lim b r p level OB. cbn [p_match do_match]. destruct (Nat.ltb lim level); [reflexivity|]. unfold pref_of at 1. cbn [q_mptr].
    destruct (f_meta r) as [i|]; cbn [option_map].
    + unfold meta_at. cbn [fst snd]. rewrite OB. cbn [placed pg_metas]. rewrite nth_error_map. destruct (nth_error (g_metas g) i) as [ms|]; cbn [option_map]; [|reflexivity].
      cbn [pmeta_of pm_rules]. apply sconcat_sim. intros refs _. cbn [path_of pp_next pp_rules pp_rem]. rewrite <- map_app. destruct (refs ++ p_next p) as [|q nx] eqn:E; [reflexivity|].
      cbn [map]. rewrite <- (IH2 lim (mkPath (p_rules p) (q :: nx) (p_rem p)) level). reflexivity.
    + unfold pref_of. cbn [q_rptr]. destruct (f_rule r) as [i|]; cbn [option_map]; [|reflexivity]. unfold rule_at. cbn [fst snd]. rewrite OB. cbn [placed pg_rules].
      destruct (nth_error (g_rules g) i) as [rs|]; [|reflexivity]. rewrite rules_sim. reflexivity.
  - intros lim p level. cbn [p_next_match match_next]. cbn [path_of pp_next pp_rules pp_rem]. destruct (p_next p) as [|sp rest]; cbn [map]; [reflexivity|].
    assert (E := IH1 lim o sp (mkPath (p_rules p) rest (p_rem p)) (S level) OG). unfold path_of in E at 1. cbn [p_rules p_next p_rem] in E. rewrite E. clear E.
    destruct (do_match f g lim sp (mkPath (p_rules p) rest (p_rem p)) (S level)) as [mr| |]; cbn [smap sbind]; try reflexivity.
    apply sconcat_sim. intros result _. cbn [path_of pp_next]. destruct (p_next result) as [|q nx]; cbn [map]; [reflexivity|].
    apply sconcat_sim. intros q' _. cbn [path_of pp_next]. destruct (p_next q') as [|q2 nx2] eqn:Q; cbn [map]; [reflexivity|].
    apply IH2.
Qed.
Lemma fuel_placed : forall o g n, search_fuel (mkGrammar (map plain_meta (pg_metas (placed o g))) (pg_rules (placed o g)) (pg_index (placed o g))) n = search_fuel g n.
Proof.
  intros o g n. unfold search_fuel. f_equal. unfold max_refs. cbn [g_metas placed pg_metas]. induction (g_metas g) as [|m l IH]; [reflexivity|]. cbn [map fold_right]. rewrite IH. cbn [plain_meta pmeta_of pm_rules ms_rules].
  generalize (fold_right (fun ms a => fold_right (fun r b => Nat.max (List.length r) b) a (ms_rules ms)) 0%nat l). intros z. rewrite map_map. induction (ms_rules m) as [|r rs IH2]; [reflexivity|].
  cbn [map fold_right]. rewrite IH2, !map_length. reflexivity.
Qed.
Lemma ptr_placed : forall this o g n, p_section_ptr this (placed o g) n = option_map (pref_of this) (section_ptr g n).
Proof.
  intros this o g n. unfold p_section_ptr, section_ptr. cbn [placed pg_index pg_rules pg_metas]. destruct (index_find (g_index g) n) as [i|]; [|reflexivity]. cbv zeta.
  rewrite nth_error_map. destruct (nth_error (g_metas g) i) as [ms|]; cbn [option_map pmeta_of pm_name].
  - destruct (teqb n (ms_name ms)); [reflexivity|]. destruct (nth_error (g_rules g) i) as [rs|]; [|reflexivity]. destruct (teqb n (rs_name rs)); reflexivity.
  - destruct (nth_error (g_rules g) i) as [rs|]; [|reflexivity]. destruct (teqb n (rs_name rs)); reflexivity.
Qed.
Lemma filter_path : forall o l, filter (fun p => match pp_rem p with [] => true | _ => false end) (map (path_of o) l) = map (path_of o) (filter (fun p => match p_rem p with [] => true | _ => false end) l).
Proof. intros o l. induction l as [|p l IH]; [reflexivity|]. cbn [map filter]. rewrite IH. cbn [path_of pp_rem]. destruct (p_rem p); reflexivity. Qed.
Lemma search_sim : forall st this o g node phrase, object st this = Some (placed o g) -> object st o = Some (placed o g) -> found (p_search_node st this node phrase) = expected (search_node g node phrase).
Proof.
  intros st this o g node phrase OT OG. unfold p_search_node, search_node. rewrite OT, ptr_placed, fuel_placed. destruct (section_ptr g node) as [sp|]; cbn [option_map]; [|reflexivity].
  rewrite <- (map_id (enumerate phrase)) at 1.
  rewrite (sconcat_sim (fun pat => p_match (search_fuel g (List.length phrase)) st (List.length phrase + 2) (pref_of this sp) (mkPP [] [] pat) 0)
    (fun pat => do_match (search_fuel g (List.length phrase)) g (List.length phrase + 2) sp (mkPath [] [] pat) 0) (fun p => p) (path_of o));
    [|intros pat _; exact (proj1 (match_sim st o g OG _) _ this sp (mkPath [] [] pat) 0%nat OT)].
  destruct (sconcat _ (enumerate phrase)) as [ms| |]; cbn [smap sbind]; try reflexivity. rewrite filter_path. unfold found, expected. cbn [obind]. rewrite map_map. reflexivity.
Qed.
(** The original is gone. *)
Lemma depth_three : forall w n, (3 <= match_depth w (n + 3) 0)%nat.
Proof. intros w n. rewrite Nat.add_comm. cbn [Nat.add match_depth]. lia. Qed.
Lemma alt_dangles : forall f st o g lim refs pat, object st o = None -> (1 <= lim)%nat -> refs <> [] -> (forall r, In r refs -> ref_ok g r) ->
  p_next_match (S (S f)) st lim (mkPP [] (map (pref_of o) refs) pat) 0 = Dangling.
Proof.
  intros f st o g lim refs pat OG L N R. destruct refs as [|r refs]; [destruct (N eq_refl)|]. cbn [map p_next_match pp_next p_match]. destruct (Nat.ltb_spec lim 1); [lia|].
  unfold pref_of. cbn [q_mptr q_rptr]. destruct (R r (or_introl eq_refl)) as [(i & ms & -> & _)|(-> & i & rs & -> & _)]; cbn [option_map].
  - unfold meta_at. cbn [fst]. rewrite OG. reflexivity.
  - unfold rule_at. cbn [fst]. rewrite OG. reflexivity.
Qed.
Lemma search_gone : forall st this o g node phrase, object st this = Some (placed o g) -> object st o = None -> linked g ->
  (by_reference g node -> some_pattern phrase -> p_search_node st this node phrase = UB) /\
  (~ (by_reference g node /\ some_pattern phrase) -> found (p_search_node st this node phrase) = expected (search_node g node phrase)).
Proof.
  intros st this o g node phrase OT OG LK. unfold p_search_node, search_node. rewrite OT, ptr_placed, fuel_placed.
  assert (EN : some_pattern phrase <-> enumerate phrase <> []).
  { unfold some_pattern. rewrite <- enumerate_length. destruct (enumerate phrase); cbn [List.length]; split; intros H; try congruence; try lia; try discriminate. }
  destruct (section_ptr g node) as [sp|] eqn:ES; cbn [option_map]; [|split; [|reflexivity]; intros (m & I & Nm & _) _; exfalso; apply (section_ptr_None g node LK) in ES; apply ES; unfold section_names; apply in_or_app; left; rewrite <- Nm; apply in_map; exact I].
  destruct (section_ptr_ok g node sp LK ES) as (RO & NM). unfold search_fuel. assert (D3 := depth_three (max_refs g) (List.length phrase)).
  destruct (match_depth (max_refs g) (List.length phrase + 3) 0) as [|[|[|f]]]; try lia. clear D3. set (lim := (List.length phrase + 2)%nat). assert (LL : (1 <= lim)%nat) by (unfold lim; lia).
  destruct RO as [(i & ms & FM & EM & NE)|(FM & i & rs & FR & ER & NE)].
  - (* by reference *)
    assert (BR : by_reference g node <-> ms_rules ms <> []).
    { split; [|intros N; exists ms; split; [eapply nth_error_In; exact EM|split; [congruence|exact N]]]. intros (m & I & Nm & N). enough (m = ms) by (subst; exact N).
      assert (ND := lk_unique g LK). unfold section_names in ND. apply NoDup_app_l in ND. destruct (In_nth_error _ _ I) as (j & J). assert (j = i).
      { apply (proj1 (NoDup_nth_error (map ms_name (g_metas g))) ND); [rewrite map_length; apply nth_error_Some; congruence|]. rewrite !nth_error_map, J, EM. cbn [option_map]. congruence. }
      subst j. congruence. }
    assert (PM : forall pat, p_match (S (S (S f))) st lim (pref_of this sp) (mkPP [] [] pat) 0 = match ms_rules ms with [] => Done [] | _ => Dangling end).
    { intros pat. change (p_match (S (S (S f))) st lim (pref_of this sp) (mkPP [] [] pat) 0) with
        (match q_mptr (pref_of this sp) with Some a => match meta_at st a with None => Dangling | Some ms => sconcat (fun refs => match refs ++ [] with [] => Done [] | nx => p_next_match (S (S f)) st lim (mkPP [] nx pat) 0 end) (pm_rules ms) end
         | None => match q_rptr (pref_of this sp) with Some a => match rule_at st a with None => Dangling | Some rs => Done (p_match_rules (rs_rules rs) (mkPP [] [] pat)) end | None => Done [] end end).
      unfold pref_of at 1. cbn [q_mptr]. rewrite FM. cbn [option_map]. unfold meta_at. cbn [fst snd]. rewrite OT. cbn [placed pg_metas]. rewrite nth_error_map, EM. cbn [option_map pmeta_of pm_rules].
      assert (IM := nth_error_In _ _ EM). assert (K1 : forall r, In r (ms_rules ms) -> r <> []) by (intros r I; exact (lk_nonempty g LK ms r IM I)). assert (K2 : forall r q, In r (ms_rules ms) -> In q r -> ref_ok g q) by (intros r q I J; exact (lk_refs g LK ms r q IM I J)).
      destruct (ms_rules ms) as [|r rs']; [reflexivity|]. cbn [map sconcat]. rewrite app_nil_r. assert (Nr := K1 r (or_introl eq_refl)). destruct (map (pref_of o) r) as [|q qs] eqn:EQ; [destruct r; [destruct (Nr eq_refl)|discriminate]|].
      rewrite <- EQ. rewrite (alt_dangles f st o g lim r pat OG LL Nr (fun q' I => K2 r q' (or_introl eq_refl) I)). reflexivity. }
    split.
    + intros B SP. apply EN in SP. apply BR in B. destruct (enumerate phrase) as [|pat pats]; [destruct (SP eq_refl)|]. cbn [sconcat]. rewrite PM. destruct (ms_rules ms); [destruct (B eq_refl)|]. reflexivity.
    + intros NB. assert (C : enumerate phrase = [] \/ ms_rules ms = []).
      { destruct (enumerate phrase) as [|pat pats] eqn:EE; [left; reflexivity|right]. destruct (ms_rules ms) as [|r rs'] eqn:EMR; [reflexivity|]. exfalso. apply NB. split; [apply BR; discriminate|apply EN; discriminate]. }
      destruct C as [-> |C]; [reflexivity|]. rewrite C in PM.
      assert (S1 : forall l, sconcat (fun pat => p_match (S (S (S f))) st lim (pref_of this sp) (mkPP [] [] pat) 0) l = Done []) by (induction l as [|pat l IH]; [reflexivity|]; cbn [sconcat]; rewrite PM, IH; reflexivity).
      assert (S2 : forall l, sconcat (fun pat => do_match (S (S (S f))) g lim sp (mkPath [] [] pat) 0) l = Done []).
      { induction l as [|pat l IH]; [reflexivity|]. cbn [sconcat]. rewrite IH. change (do_match (S (S (S f))) g lim sp (mkPath [] [] pat) 0) with
          (match f_meta sp with Some i => match nth_error (g_metas g) i with None => Dangling | Some ms => sconcat (fun refs => match refs ++ [] with [] => Done [] | nx => match_next (S (S f)) g lim (mkPath [] nx pat) 0 end) (ms_rules ms) end
           | None => match f_rule sp with Some i => match nth_error (g_rules g) i with None => Dangling | Some rs => Done (match_rules (rs_rules rs) (mkPath [] [] pat)) end | None => Done [] end end).
        rewrite FM, EM, C. reflexivity. }
      rewrite S1, S2. reflexivity.
  - (* by rules *)
    assert (PM : forall pat, p_match (S (S (S f))) st lim (pref_of this sp) (mkPP [] [] pat) 0 = smap (map (path_of o)) (do_match (S (S (S f))) g lim sp (mkPath [] [] pat) 0)).
    { intros pat. change (p_match (S (S (S f))) st lim (pref_of this sp) (mkPP [] [] pat) 0) with
        (match q_mptr (pref_of this sp) with Some a => match meta_at st a with None => Dangling | Some ms => sconcat (fun refs => match refs ++ [] with [] => Done [] | nx => p_next_match (S (S f)) st lim (mkPP [] nx pat) 0 end) (pm_rules ms) end
         | None => match q_rptr (pref_of this sp) with Some a => match rule_at st a with None => Dangling | Some rs => Done (p_match_rules (rs_rules rs) (mkPP [] [] pat)) end | None => Done [] end end).
      change (do_match (S (S (S f))) g lim sp (mkPath [] [] pat) 0) with
          (match f_meta sp with Some i => match nth_error (g_metas g) i with None => Dangling | Some ms => sconcat (fun refs => match refs ++ [] with [] => Done [] | nx => match_next (S (S f)) g lim (mkPath [] nx pat) 0 end) (ms_rules ms) end
           | None => match f_rule sp with Some i => match nth_error (g_rules g) i with None => Dangling | Some rs => Done (match_rules (rs_rules rs) (mkPath [] [] pat)) end | None => Done [] end end).
      unfold pref_of. cbn [q_mptr q_rptr]. rewrite FM, FR. cbn [option_map]. unfold rule_at. cbn [fst snd]. rewrite OT. cbn [placed pg_rules]. rewrite ER. cbn [smap sbind].
      rewrite <- rules_sim. reflexivity. }
    split.
    + intros (m & I & Nm & _) _. exfalso. assert (ND := lk_unique g LK). unfold section_names in ND. apply (NoDup_app_disj _ _ node ND); [rewrite <- Nm; apply in_map; exact I|].
      rewrite <- NM, <- NE. apply in_map. eapply nth_error_In. exact ER.
    + intros _. rewrite <- (map_id (enumerate phrase)) at 1.
      rewrite (sconcat_sim (fun pat => p_match (S (S (S f))) st lim (pref_of this sp) (mkPP [] [] pat) 0) (fun pat => do_match (S (S (S f))) g lim sp (mkPath [] [] pat) 0) (fun p => p) (path_of o)); [|intros pat _; apply PM].
      destruct (sconcat _ (enumerate phrase)) as [ms| |]; cbn [smap sbind]; try reflexivity. rewrite filter_path. unfold found, expected. cbn [obind]. rewrite map_map. reflexivity.
Qed.
Lemma run_origin : forall u atof ops st i o src, run u atof ops [] = Ok st -> origin ops i o src ->
  exists L, load_grammar u atof src = Ok L /\ (~ deleted ops i -> object st i = Some (placed o (gl_grammar L))) /\ (~ deleted ops o -> object st o = Some (placed o (gl_grammar L))) /\ (deleted ops o -> object st o = None).
Proof.
  intros u atof ops st i o src R O. destruct (run_tracked u atof ops st R) as [T1 T2 T3 T4].
  assert (LI : forall j o' src', origin ops j o' src' -> (j < List.length st)%nat) by (intros j o' src' K; rewrite T1; apply nth_error_Some; inversion K; congruence).
  assert (OO : origin ops o o src) by (clear -O; induction O; [apply origin_new; assumption|assumption]).
  destruct (T4 i (LI _ _ _ O)) as (o1 & s1 & L & P1 & P2 & P3 & P4 & P5). destruct (origin_one _ _ _ _ O _ _ P1) as (<- & <-).
  destruct (T4 o (LI _ _ _ OO)) as (o2 & s2 & L2 & Q1 & Q2 & Q3 & Q4 & Q5). destruct (origin_one _ _ _ _ OO _ _ Q1) as (<- & <-). assert (L2 = L) by congruence. subst L2.
  exists L. split; [exact P4|]. split; [|split].
  - intros ND. destruct (object st i) as [g|] eqn:E; [rewrite (P5 g eq_refl); reflexivity|]. destruct (ND (proj1 (T2 i (LI _ _ _ O)) E)).
  - intros ND. destruct (object st o) as [g|] eqn:E; [rewrite (Q5 g eq_refl); reflexivity|]. destruct (ND (proj1 (T2 o (LI _ _ _ OO)) E)).
  - intros D. apply (T2 o (LI _ _ _ OO)). exact D.
Qed.
Lemma copy_searches : forall u atof ops st i o src node phrase, run u atof ops [] = Ok st -> origin ops i o src -> ~ deleted ops i -> ~ deleted ops o ->
  exists L, load_grammar u atof src = Ok L /\ found (p_search_node st i node phrase) = expected (search_node (gl_grammar L) node phrase).
Proof.
  intros u atof ops st i o src node phrase R O DI DO. destruct (run_origin _ _ _ _ _ _ _ R O) as (L & EL & A & B & _). exists L. split; [exact EL|]. apply (search_sim st i o); auto.
Qed.
Lemma copy_addresses : forall u atof ops st i o src phrase, run u atof ops [] = Ok st -> origin ops i o src -> ~ deleted ops i -> ~ deleted ops o ->
  exists L, load_grammar u atof src = Ok L /\ found (p_search st i phrase) = expected (search (gl_grammar L) phrase).
Proof. intros u atof ops st i o src phrase. exact (copy_searches u atof ops st i o src ADDRESS phrase). Qed.
Lemma copy_dangles : forall u atof ops st i o src node phrase, uni_ok u -> run u atof ops [] = Ok st -> origin ops i o src -> ~ deleted ops i -> deleted ops o ->
  exists L, load_grammar u atof src = Ok L /\
    (by_reference (gl_grammar L) node -> some_pattern phrase -> p_search_node st i node phrase = UB) /\
    (~ (by_reference (gl_grammar L) node /\ some_pattern phrase) -> found (p_search_node st i node phrase) = expected (search_node (gl_grammar L) node phrase)).
Proof.
  intros u atof ops st i o src node phrase UO R O DI DO. destruct (run_origin _ _ _ _ _ _ _ R O) as (L & EL & A & _ & B). exists L. split; [exact EL|].
  destruct (loaded_well_formed u atof src L UO EL) as (LK & _). apply (search_gone st i o (gl_grammar L) node phrase (A DI) (B DO) LK).
Qed.
Lemma well_used_app : forall P ops o, well_used P (ops ++ [o]) <-> well_used P ops /\ match o with New src => P src | CopyOf i | Delete i => (i < List.length (births ops))%nat /\ ~ deleted ops i end.
Proof.
  intros P ops o. split.
  - intros H. split; [|exact (H ops o [] eq_refl)]. intros a x b E. subst ops. apply (H a x (b ++ [o])). rewrite <- app_assoc. reflexivity.
  - intros (H & K) a x b E. destruct b as [|y b] using rev_ind.
    + apply app_inj_tail in E. destruct E as (<- & <-). exact K.
    + clear IHb. replace (a ++ x :: b ++ [y]) with ((a ++ x :: b) ++ [y]) in E by (rewrite <- app_assoc; reflexivity). apply app_inj_tail in E. destruct E as (E & _). exact (H a x b E).
Qed.
Lemma run_used : forall u atof ops, (exists st, run u atof ops [] = Ok st) <-> well_used (fun src => exists L, load_grammar u atof src = Ok L) ops.
Proof.
  intros u atof ops. induction ops as [|o ops IH] using rev_ind.
  - split; [intros _ a x b E; destruct a; discriminate|intros _; exists []; reflexivity].
  - rewrite well_used_app, <- IH, run_app. split.
    + intros (st & H). destruct (run u atof ops []) as [st1| |] eqn:E; try discriminate. split; [eexists; reflexivity|]. destruct (run_tracked _ _ _ _ E) as [T1 T2 T3 T4]. cbn [obind run] in H.
      destruct o as [src|i|i].
      * rewrite new_step in H. destruct (load_grammar u atof src) as [L| |]; try discriminate. exists L. reflexivity.
      * cbn [perform] in H. destruct (object st1 i) as [g|] eqn:EO; [|discriminate]. assert (LI := object_short _ _ _ EO). split; [lia|]. intros D. apply (T2 i LI) in D. congruence.
      * cbn [perform] in H. destruct (object st1 i) as [g|] eqn:EO; [|discriminate]. assert (LI := object_short _ _ _ EO). split; [lia|]. intros D. apply (T2 i LI) in D. congruence.
    + intros ((st1 & E) & K). rewrite E. destruct (run_tracked _ _ _ _ E) as [T1 T2 T3 T4]. cbn [obind run]. destruct o as [src|i|i].
      * destruct K as (L & EL). rewrite new_step, EL. eexists. reflexivity.
      * destruct K as (LI & ND). rewrite <- T1 in LI. cbn [perform]. destruct (object st1 i) as [g|] eqn:EO; [eexists; reflexivity|]. destruct (ND (proj1 (T2 i LI) EO)).
      * destruct K as (LI & ND). rewrite <- T1 in LI. cbn [perform]. destruct (object st1 i) as [g|] eqn:EO; [eexists; reflexivity|]. destruct (ND (proj1 (T2 i LI) EO)).
Qed.

(** ** Examples *)
(** The Grammar and the Search object of the wrappers; a copy of a copy; and the same with the Grammar deleted. *)
Definition copies : list op := [New (s2t sample_src); CopyOf 0; CopyOf 1; Delete 1].
Definition orphan : list op := [New (s2t sample_src); CopyOf 0; Delete 0].
Definition made (ops : list op) : store := match run ascii_uni sample_atof ops [] with Ok st => st | _ => [] end.
Lemma made_copies : run ascii_uni sample_atof copies [] = Ok (made copies).
Proof. unfold made. destruct (run ascii_uni sample_atof copies []) eqn:E; [reflexivity| |]; vm_compute in E; discriminate E. Qed.
Lemma made_orphan : run ascii_uni sample_atof orphan [] = Ok (made orphan).
Proof. unfold made. destruct (run ascii_uni sample_atof orphan []) eqn:E; [reflexivity| |]; vm_compute in E; discriminate E. Qed.
Lemma copies_setting : run ascii_uni sample_atof copies [] = Ok (made copies) /\ origin copies 2 0 (s2t sample_src) /\ ~ deleted copies 2 /\ ~ deleted copies 0 /\
  exists rs, found (p_search (made copies) 2 sample_phrase) = Ok rs /\ rs <> [].
Proof.
  split; [exact made_copies|]. split; [apply (origin_copy _ 2 1); [reflexivity|]; apply (origin_copy _ 1 0); [reflexivity|]; apply origin_new; reflexivity|].
  split; [intros [H|[H|[H|[H|[]]]]]; discriminate H|]. split; [intros [H|[H|[H|[H|[]]]]]; discriminate H|].
  destruct (found (p_search (made copies) 2 sample_phrase)) as [rs| |] eqn:E; [exists rs; split; [reflexivity|]|vm_compute in E; discriminate E|vm_compute in E; discriminate E].
  intros ->. vm_compute in E. discriminate E.
Qed.
Lemma orphan_setting : uni_ok ascii_uni /\ run ascii_uni sample_atof orphan [] = Ok (made orphan) /\ origin orphan 1 0 (s2t sample_src) /\ ~ deleted orphan 1 /\ deleted orphan 0 /\
  by_reference (grammar_of (load_sample sample_src)) ADDRESS /\ some_pattern sample_phrase.
Proof.
  split; [apply ascii_uni_ok|]. split; [exact made_orphan|]. split; [apply (origin_copy _ 1 0); [reflexivity|]; apply origin_new; reflexivity|].
  split; [intros [H|[H|[H|[]]]]; discriminate H|]. split; [right; right; left; reflexivity|]. split.
  - destruct (find (fun m => teqb (ms_name m) ADDRESS) (g_metas (grammar_of (load_sample sample_src)))) as [m|] eqn:E; [|vm_compute in E; discriminate E].
    exists m. apply find_some in E as F. destruct F as (I & K). split; [exact I|]. split; [apply teqb_eq; exact K|]. intros Z. vm_compute in E. injection E as <-. discriminate Z.
  - intros Z. vm_compute in Z. discriminate Z.
Qed.
Lemma orphan_undefined : exists src ops st i o, run ascii_uni sample_atof ops [] = Ok st /\ origin ops i o src /\ ~ deleted ops i /\ (exists L, load_grammar ascii_uni sample_atof src = Ok L) /\
  p_search st i sample_phrase = UB.
Proof.
  exists (s2t sample_src), orphan, (made orphan), 1%nat, 0%nat. destruct orphan_setting as (_ & A & B & C & _). split; [exact A|]. split; [exact B|]. split; [exact C|].
  split; [|vm_compute; reflexivity]. destruct (run_origin _ _ _ _ _ _ _ A B) as (L & EL & _). exists L. exact EL.
Qed.
Lemma copies_used : well_used (fun src => exists L, load_grammar ascii_uni sample_atof src = Ok L) copies /\ ~ well_used (fun src => exists L, load_grammar ascii_uni sample_atof src = Ok L) (copies ++ [CopyOf 1]).
Proof.
  split; [apply run_used; eexists; exact made_copies|]. intros H. apply well_used_app in H. destruct H as (_ & _ & H). apply H. do 3 right. left. reflexivity.
Qed.
