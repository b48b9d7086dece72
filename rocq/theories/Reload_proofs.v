(** Reading a printed grammar back, also when sections have no rules. *)
From Coq Require Import String List NArith ZArith Bool Lia.
From Verif Require Import Base_model Class_model Class_spec Float_model Uni_model Rule_model Search_model Grammar_model Sample_model
  Search_spec Grammar_spec Loaded_spec GrammarLine_proofs GrammarLoad_proofs GrammarTop_proofs GrammarPrint_proofs Loaded_proofs GrammarMore_proofs Reload_spec.
Import ListNotations.
Local Open Scope N_scope.

Lemma defines_solid : forall u atof fprint p rs, uni_ok u ->
  Forall (fun m => Forall (fun r => r <> [] /\ Forall (ident u) r) (snd m)) p -> Forall (fun s => rs_rules s <> []) rs ->
  defines u atof (map (rule_block fprint) rs) [] (reread atof fprint rs) ->
  defines u atof (map meta_block p ++ map (rule_block fprint) rs)
     (map (fun m => mkMeta (fst m) (map (map new_ref) (snd m))) (with_rules p)) (reread atof fprint rs).
Proof.
  intros u atof fprint p rs Hu Hi Hr D. induction p as [|[n q] p IH]; [exact D|]. inversion Hi as [|? ? H1 H2]; subst. specialize (IH H2).
  unfold with_rules. cbn [filter snd]. fold (with_rules p). destruct q as [|r q].
  - cbn [map app meta_block fst snd]. apply df_empty. exact IH.
  - cbn [map app meta_block fst snd] in *. apply df_meta; [discriminate| | |exact IH].
    + change (meta_text r :: map meta_text q) with (map meta_text (r :: q)). apply Forall_map. revert H1. apply Forall_impl. intros x (K & _). apply (meta_text_data u); auto.
    + change (meta_text r :: map meta_text q) with (map meta_text (r :: q)).
      change (map new_ref r :: map (map new_ref) q) with (map (map new_ref) (r :: q)). apply GrammarPrint_proofs.kept_all; auto.
Qed.
Lemma plain_meta : forall ms m, In m ms -> In (ms_name m, map (map f_name) (ms_rules m)) (plain ms).
Proof. intros ms m I. apply in_map_iff. exists m. auto. Qed.
Lemma solid_names : forall g, (forall s, In s (g_rules g) -> rs_rules s <> []) -> forall n,
  solid g n <-> In n (map fst (with_rules (plain (g_metas g))) ++ map rs_name (g_rules g)).
Proof.
  intros g Hr n. rewrite in_app_iff. unfold solid. split.
  - intros [(m & I & E & N)|(s & I & E & N)].
    + left. apply in_map_iff. exists (ms_name m, map (map f_name) (ms_rules m)). split; [exact E|]. apply filter_In. split; [apply plain_meta; exact I|].
      cbn. destruct (ms_rules m); [congruence|reflexivity].
    + right. apply in_map_iff. exists s. auto.
  - intros [K|K].
    + left. apply in_map_iff in K. destruct K as (q & E & I). apply filter_In in I. destruct I as (I & Q). apply in_map_iff in I. destruct I as (m & <- & I).
      exists m. split; [exact I|]. split; [exact E|]. cbn in Q. destruct (ms_rules m); [discriminate|discriminate].
    + right. apply in_map_iff in K. destruct K as (s & E & I). exists s. auto.
Qed.
Lemma with_rules_refers : forall p n, GrammarPrint_proofs.plain_refers (with_rules p) n <-> GrammarPrint_proofs.plain_refers p n.
Proof.
  intros p n. split; intros (m & r & I & J & K); exists m, r; (split; [|auto]).
  - apply filter_In in I. apply I.
  - apply filter_In. split; [exact I|]. destruct (snd m); [destruct J|reflexivity].
Qed.
Lemma with_rules_nodup : forall (p : list (text * list (list text))) l, NoDup (map fst p ++ l) -> NoDup (map fst (with_rules p) ++ l).
Proof.
  induction p as [|[n q] p IH]; intros l H; [exact H|]. cbn [map app fst] in H. inversion H as [|? ? H1 H2]; subst. unfold with_rules. cbn [filter snd]. fold (with_rules p).
  destruct q; [apply IH; exact H2|]. cbn [map app fst]. constructor; [|apply IH; exact H2]. intros K. apply H1. apply in_app_or in K. apply in_or_app.
  destruct K as [K|K]; [left|right; exact K]. apply in_map_iff in K. destruct K as (x & <- & K). apply in_map. apply filter_In in K. apply K.
Qed.

Lemma print_exact : forall u atof fprint src L, uni_ok u -> ascii_upper_ok u -> load_grammar u atof src = Ok L ->
  let g := gl_grammar L in
  (forall s r, In s (g_rules g) -> In r (rs_rules s) -> prints_score atof fprint (r_score r)) ->
  ((exists L', load_grammar u atof (grammar_str fprint g) = Ok L') <-> solid g ADDRESS /\ forall n, refers (g_metas g) n -> solid g n) /\
  forall L', load_grammar u atof (grammar_str fprint g) = Ok L' ->
    plain (g_metas (gl_grammar L')) = with_rules (plain (g_metas g)) /\ g_rules (gl_grammar L') = reread atof fprint (g_rules g).
Proof.
  intros u atof fprint file L Hu Ha HL g Hs. destruct (load_grammar_effective _ _ _ _ HL) as (src & Hb).
  assert (S := load_grammar_spec u atof file src Hu Hb). rewrite HL in S. cbv zeta in S. fold g in S.
  destruct S as (ms & rs & M & C & A & E1 & E2 & LK & N & RC & ST & SO & _).
  assert (M' := M). destruct M' as (bs & D & F & DF).
  set (p := plain (g_metas g)) in *.
  assert (Hpn : map fst p = map ms_name ms) by (rewrite E1; apply plain_names).
  assert (Hpi : plain_ident u p) by (rewrite E1; exact (defines_ident _ _ _ _ _ DF)).
  assert (Hnm : forall n, In n (names_of ms rs) -> ~ In 10 n /\ n <> []) by (exact (means_names _ _ _ _ _ M)).
  assert (Hp1 : Forall (fun m => fst m <> []) p).
  { apply Forall_forall. intros m Hm. apply (Hnm (fst m)). unfold names_of. apply in_or_app. left. rewrite <- Hpn. apply in_map. auto. }
  assert (Hp2 : Forall (fun m => ~ In 10 (fst m)) p).
  { apply Forall_forall. intros m Hm. apply (Hnm (fst m)). unfold names_of. apply in_or_app. left. rewrite <- Hpn. apply in_map. auto. }
  assert (Hr1 : Forall (fun s => rs_name s <> []) rs).
  { apply Forall_forall. intros s K. apply (Hnm (rs_name s)). unfold names_of. apply in_or_app. right. apply in_map. auto. }
  assert (Hr2 : Forall (fun s => ~ In 10 (rs_name s)) rs).
  { apply Forall_forall. intros s K. apply (Hnm (rs_name s)). unfold names_of. apply in_or_app. right. apply in_map. auto. }
  rewrite E2 in Hs. assert (Hrne := defines_rules_nonempty _ _ _ _ _ DF).
  set (ms2 := map (fun m => mkMeta (fst m) (map (map new_ref) (snd m))) (with_rules p)).
  set (rs2 := reread atof fprint rs).
  assert (Hpl : plain ms2 = with_rules p) by (unfold ms2; apply plain_new).
  assert (Hlf : Forall (fun l => ~ In 10 l) (gram_lines fprint p rs)) by (apply (gram_lines_no_lf u atof); auto).
  assert (Hpi' : Forall (fun m => Forall (fun r : list text => r <> []) (snd m)) p).
  { revert Hpi. apply Forall_impl. intros m. apply Forall_impl. tauto. }
  destruct (doc_grammar u atof fprint p rs Hu Ha Hp1 Hpi' Hr1) as (D2 & _).
  destruct (doc_grammar u atof fprint [] rs Hu Ha (Forall_nil _) (Forall_nil _) Hr1) as (_ & DF2).
  assert (M2 : means u atof (grammar_str fprint g) ms2 rs2).
  { rewrite grammar_str_unlines. fold p. rewrite E2. eexists. split.
    - rewrite seen_unlines by exact Hlf. exact D2.
    - split.
      + apply fresh_nodup; auto. rewrite map_app, !map_map. simpl.
        assert (U := lk_unique g LK). rewrite N in U. unfold names_of in U. rewrite <- Hpn in U. exact U.
      + apply defines_solid; auto. apply DF2; auto. intros s r K1 K2. split; [apply (RC s r); auto|apply (Hs s r); auto]. }
  assert (Hb2 : ~ has_bom (grammar_str fprint g)).
  { rewrite grammar_str_unlines. fold p. rewrite E2. unfold gram_lines. intros (t & K).
    unfold names_of in A. rewrite <- Hpn in A. destruct p as [|m0 p0].
    - destruct rs as [|s0 rs0]; [contradiction|]. discriminate K.
    - discriminate K. }
  assert (Hn2 : forall n, In n (names_of ms2 rs2) <-> solid g n).
  { intros n. rewrite solid_names by (rewrite E2; apply Forall_forall; exact Hrne). fold p. unfold names_of, ms2, rs2, reread. rewrite !map_map, E2. reflexivity. }
  assert (Href : forall n, refers ms2 n <-> refers (g_metas g) n).
  { intros n. rewrite !refers_plain, Hpl. fold p. apply with_rules_refers. }
  assert (S2 := load_grammar_spec u atof (grammar_str fprint g) _ Hu (eff_plain _ Hb2)).
  destruct (load_grammar u atof (grammar_str fprint g)) as [L'|m|]; [| |contradiction].
  - cbv zeta in S2. destruct S2 as (ms3 & rs3 & M3 & C3 & A3 & E13 & E23 & _).
    destruct (means_det _ _ _ _ _ _ _ Hu M2 M3) as (Q1 & Q2). rewrite Q1, Q2 in *. clear Q1 Q2. split.
    + split; [|intros _; exists L'; reflexivity]. intros _. split; [apply Hn2; exact A3|]. intros n K. apply Hn2, C3, Href. exact K.
    + intros L2 K. injection K as <-. rewrite E13, Hpl, E23, E2. split; reflexivity.
  - split; [|intros L2 K; discriminate K]. split; [intros (L2 & K); discriminate K|]. intros (K1 & K2). exfalso. apply S2. exists ms2, rs2.
    split; [exact M2|]. split; [|apply Hn2; exact K1]. intros n K. apply Hn2, K2, Href. exact K.
Qed.
(** Without empty sections this is C60_print_reload_partial. *)
Definition loose_src : string := "[ADDRESS]
@house
[house]
NUMBER -> HOUSE -> 0.5
[extra]
@house !
".
Lemma loose_ex : uni_ok ascii_uni /\ ascii_upper_ok ascii_uni /\ exists L, load_sample loose_src = Ok L /\ ~ no_empty_section (gl_grammar L) /\
  (forall s r, In s (g_rules (gl_grammar L)) -> In r (rs_rules s) -> prints_score sample_atof (fun _ => s2t "0.5") (r_score r)) /\
  exists L', load_grammar ascii_uni sample_atof (grammar_str (fun _ => s2t "0.5") (gl_grammar L)) = Ok L' /\
    plain (g_metas (gl_grammar L)) = [(ADDRESS, [[s2t "house"]]); (s2t "extra", [])] /\
    plain (g_metas (gl_grammar L')) = [(ADDRESS, [[s2t "house"]])].
Proof.
  split; [exact ascii_uni_ok|]. split; [exact ascii_uni_upper|]. eexists. split; [vm_compute; reflexivity|]. split.
  - intros K. apply (K (mkMeta (s2t "extra") [])); [vm_compute; right; left; reflexivity|reflexivity].
  - split; [intros; apply half_prints|]. eexists. split; [vm_compute; reflexivity|]. split; vm_compute; reflexivity.
Qed.
