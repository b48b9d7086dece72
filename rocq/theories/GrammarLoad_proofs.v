(** The reading loop of the grammar loader computes the sections the text defines. *)
From Coq Require Import String List NArith ZArith Bool Lia.
From Verif Require Import Base_model Class_model Float_model Uni_model Rule_model Search_model Grammar_model
  Search_spec Grammar_spec Search_proofs SearchTop_proofs GrammarLine_proofs.
Import ListNotations.
Local Open Scope N_scope.

Fixpoint run (u : uni) (atof : text -> flt) (ls : list text) (s : loadst) : outcome loadst :=
  match ls with
  | [] => Ok s
  | l :: ls' => obind (load_line u atof s l) (run u atof ls')
  end.

(** Lines. *)
Lemma span_to_pieces : forall t, match span_to 10 t with
  | (a, Some r) => pieces t = a :: pieces r /\ (List.length r < List.length t)%nat
  | (a, None) => a = t /\ pieces t = [t]
  end.
Proof.
  induction t as [|c t IH]; simpl; auto.
  destruct (c =? 10) eqn:E; [split; auto|].
  destruct (span_to 10 t) as [a [r|]].
  - destruct IH as (-> & H). split; auto.
  - destruct IH as (-> & ->). auto.
Qed.

Lemma pieces_nonempty : forall t, pieces t <> [].
Proof.
  induction t; simpl; try discriminate. destruct (a =? 10); try discriminate. destruct (pieces t); discriminate.
Qed.

Lemma seen_lines_cons : forall t a r, span_to 10 t = (a, Some r) -> seen_lines t = a :: seen_lines r.
Proof.
  intros t a r H. pose proof (span_to_pieces t) as K. rewrite H in K. destruct K as (K & _).
  unfold seen_lines. rewrite K.
  pose proof (pieces_nonempty r). destruct (pieces r) as [|p ps] eqn:E; [congruence|].
  replace (last (a :: p :: ps) []) with (last (p :: ps) (@nil N)) by reflexivity.
  destruct (last (p :: ps) (@nil N)); reflexivity.
Qed.

Lemma strip_nobom : forall l, match l with c :: _ => c <> BOM | [] => True end -> strip_bom l = Ok l.
Proof.
  intros [|c l] H; simpl; auto. apply N.eqb_neq in H. rewrite H. reflexivity.
Qed.

Lemma obind_Ok_r : forall {A} (x : outcome A), obind x (@Ok A) = x.
Proof. destruct x; reflexivity. Qed.

Lemma load_loop_run : forall n u atof t first f line s,
  (List.length t <= n)%nat -> (n + 3 <= f)%nat -> (first = true -> ~ has_bom t) ->
  load_loop f u atof first (mkStream t false false) line s = run u atof (seen_lines t) s.
Proof.
  induction n as [|n IH]; intros u atof t first f line s Ht Hf Hb.
  - destruct t; [|simpl in Ht; lia]. destruct f as [|[|f]]; try lia. 
    simpl. destruct first; simpl; destruct (load_line u atof s []); reflexivity.
  - destruct f as [|f]; try lia. cbn [load_loop s_fail].
    unfold getline. cbn [s_eof s_fail orb s_rest].
    pose proof (span_to_pieces t) as K. change LF with 10.
    destruct (span_to 10 t) as [a [r|]] eqn:E.
    + destruct K as (K1 & K2). rewrite (seen_lines_cons _ _ _ E).
      assert (Hs : (if first then strip_bom a else @Ok text a) = Ok a).
      { destruct first; auto. apply strip_nobom.
        destruct a as [|c a]; auto. intros ->. apply (Hb eq_refl).
        destruct t as [|c t]; simpl in E; [discriminate|]. destruct (c =? 10); [discriminate|].
        destruct (span_to 10 t). injection E; intros; subst. exists t. reflexivity. }
      cbv beta iota. rewrite Hs. cbn [obind run].
      destruct (load_line u atof s a) as [s'|m|]; cbn [obind]; auto.
      apply IH; try lia; discriminate.
    + destruct K as (-> & K). unfold seen_lines. rewrite K. simpl last.
      assert (Hs : (if first then strip_bom t else @Ok text t) = Ok t).
      { destruct first; auto. apply strip_nobom.
        destruct t as [|c t]; auto. intros ->. apply (Hb eq_refl). exists t. reflexivity. }
      cbv beta iota. rewrite Hs. cbn [obind].
      destruct t as [|c t].
      * cbn [run]. destruct (load_line u atof s []) as [s'|m|]; cbn [obind]; auto.
        destruct f as [|f]; [lia|]. reflexivity.
      * cbn [run app]. destruct (load_line u atof s (c :: t)) as [s'|m|]; cbn [obind]; auto.
        destruct f as [|[|f]]; try lia. cbn [load_loop s_fail]. unfold getline. cbn [s_eof orb s_rest s_fail].
        cbv beta iota. cbn [obind].
        destruct (load_line u atof s' (c :: t)) as [s''|m|]; cbn [obind]; auto.
Qed.

Definition final (s : loadst) : loadst := match l_sec s with [] => s | _ => flush s end.

Lemma load_sections_run : forall u atof src, ~ has_bom src ->
  load_sections u atof src = obind (run u atof (seen_lines src) load0) (fun s => Ok (final s)).
Proof.
  intros u atof src H. unfold load_sections, open_stream.
  rewrite (load_loop_run (List.length src)); auto.
  destruct (run u atof (seen_lines src) load0) as [s|m|]; simpl; auto. unfold final. destruct (l_sec s); reflexivity.
Qed.

Lemma load_line_nil : forall u atof s, load_line u atof s [] = Ok s.
Proof. reflexivity. Qed.

Lemma load_sections_bom : forall u atof d t, d < 128 -> d <> 10 ->
  load_sections u atof (0xFEFF :: d :: t) = obind (run u atof (seen_lines t) load0) (fun s => Ok (final s)).
Proof.
  intros u atof d t H1 H2. unfold load_sections, open_stream.
  assert (E : load_loop (List.length (0xFEFF :: d :: t) + 3) u atof true (mkStream (0xFEFF :: d :: t) false false) [] load0
              = run u atof (seen_lines t) load0).
  { replace (List.length (0xFEFF%N :: d :: t) + 3)%nat with (S (List.length t + 4)) by (simpl; lia).
    cbn [load_loop s_fail]. unfold getline. cbn [s_eof s_fail orb s_rest]. change LF with 10.
    cbn [span_to]. replace (0xFEFF =? 10) with false by reflexivity.
    replace (d =? 10) with false by (symmetry; apply N.eqb_neq; exact H2).
    pose proof (span_to_pieces t) as K.
    assert (Hl : Nat.eqb (utf8_len d) 1 = true).
    { unfold utf8_len. replace (d <? 0x80) with true by (symmetry; apply N.ltb_lt; exact H1). reflexivity. }
    destruct (span_to 10 t) as [a [r|]] eqn:E.
    - rewrite (seen_lines_cons _ _ _ E). cbn [strip_bom]. replace (0xFEFF =? BOM) with true by reflexivity. rewrite Hl.
      cbn [obind run]. destruct (load_line u atof load0 a) as [s'|m|]; cbn [obind]; auto.
      destruct K as (_ & K). apply (load_loop_run (List.length t)); try lia; discriminate.
    - destruct K as (-> & K). cbn [strip_bom]. replace (0xFEFF =? BOM) with true by reflexivity. rewrite Hl. cbn [obind].
      unfold seen_lines. rewrite K. simpl last.
      replace (List.length t + 4)%nat with (S (S (List.length t + 2))) by lia.
      destruct t as [|c t].
      + cbn [run]. rewrite load_line_nil. cbn [obind load_loop s_fail]. unfold getline. cbn [s_eof orb s_rest s_fail].
        cbv beta iota. cbn [obind]. rewrite load_line_nil. reflexivity.
      + cbn [run app]. destruct (load_line u atof load0 (c :: t)) as [s'|m|]; cbn [obind]; auto. }
  rewrite E. destruct (run u atof (seen_lines t) load0) as [s|m|]; simpl; auto. unfold final. destruct (l_sec s); reflexivity.
Qed.

Lemma load_sections_effective : forall u atof src t, effective src t ->
  load_sections u atof src = obind (run u atof (seen_lines t) load0) (fun s => Ok (final s)).
Proof.
  intros u atof src t H. destruct H.
  - apply load_sections_run; auto.
  - apply load_sections_bom; auto.
Qed.

Lemma load_sections_ineffective : forall u atof src, (forall t, ~ effective src t) ->
  exists m, load_sections u atof src = Throw m.
Proof.
  intros u atof src H. destruct src as [|c r].
  { exfalso. apply (H []). constructor. intros (t' & K). discriminate. }
  destruct (N.eq_dec c 0xFEFF) as [->|Hc].
  2: { exfalso. apply (H (c :: r)). constructor. intros (t' & K). injection K; intros; congruence. }
  unfold load_sections, open_stream. replace (List.length (0xFEFF%N :: r) + 3)%nat with (S (List.length r + 3)) by (simpl; lia).
  cbn [load_loop s_fail]. unfold getline. cbn [s_eof s_fail orb s_rest]. change LF with 10.
  cbn [span_to]. replace (0xFEFF =? 10) with false by reflexivity.
  destruct r as [|d t].
  { cbn. eexists. reflexivity. }
  cbn [span_to]. destruct (d =? 10) eqn:E10.
  { cbn. eexists; reflexivity. }
  destruct (Nat.eqb (utf8_len d) 1) eqn:El.
  { exfalso. apply (H t). constructor.
    - unfold utf8_len in El. destruct (d <? 0x80) eqn:E; [apply N.ltb_lt in E; exact E|].
      destruct (d <? 0x800); [discriminate|]. destruct (d <? 0x10000); discriminate.
    - apply N.eqb_neq. exact E10. }
  destruct (span_to 10 t) as [a [q|]]; cbn [strip_bom]; replace (0xFEFF =? BOM) with true by reflexivity; rewrite El;
    cbn [obind]; eexists; reflexivity.
Qed.

(** Every list of lines is a document. *)
Lemma doc_exists : forall u ls, uni_ok u -> exists o bs, doc u ls o bs.
Proof.
  intros u ls Hu. induction ls as [|l ls (o & bs & IH)].
  - exists [], []. constructor.
  - destruct (is_comment u l) eqn:Ec.
    + exists o, bs. apply doc_comment; auto. apply is_comment_spec; auto.
    + assert (Hc : ~ comment_line u l) by (intro K; apply is_comment_spec in K; auto; congruence).
      destruct (section_header u l) as [n|] eqn:Eh.
      * exists [], ((n, o) :: bs). apply doc_header; auto. apply section_header_spec; auto.
      * exists (l :: o), bs. apply doc_data; auto. split; auto. apply header_None; auto.
Qed.

Lemma header_det : forall u l n n', uni_ok u -> header_line u l n -> header_line u l n' -> n = n'.
Proof.
  intros u l n n' Hu H H'. apply section_header_spec in H; auto. apply section_header_spec in H'; auto. congruence.
Qed.

Lemma doc_det : forall u ls o bs, uni_ok u -> doc u ls o bs -> forall o' bs', doc u ls o' bs' -> o' = o /\ bs' = bs.
Proof.
  intros u ls o bs Hu H. induction H as [|l ls o bs Hc Hd IH|l n ls o bs Hnc Hh Hd IH|l ls o bs (Hnc & Hnh) Hd IH];
    intros o' bs' H'; inversion H' as [|l1 ls1 o1 bs1 Hc1 Hd1|l1 n1 ls1 o1 bs1 Hnc1 Hh1 Hd1|l1 ls1 o1 bs1 (Hnc1 & Hnh1) Hd1]; subst;
    try contradiction; try (destruct (IH _ _ Hd1); subst); auto.
  - rewrite (header_det u l n n1 Hu Hh Hh1). auto.
  - exfalso. exact (Hnh1 _ Hh).
  - exfalso. exact (Hnh _ Hh1).
Qed.

(** Current section. *)
Definition cur (u : uni) (atof : text -> flt) (s : loadst) (d : list text) : Prop :=
  match l_type s with
  | UNKNWN => d = [] /\ l_mrules s = [] /\ l_rules s = []
  | ISMETA => d <> [] /\ Forall at_line d /\ kept u d (l_mrules s) /\ l_rules s = []
  | ISRULE => d <> [] /\ Forall (fun l => ~ at_line l) d /\ Forall2 (rule_line atof) d (l_rules s) /\ l_mrules s = []
  end.

Definition keys (s : loadst) : list text := map fst (l_index s).
Definition snames (s : loadst) : list text := map ms_name (l_metas s) ++ map rs_name (l_rsecs s).
Record inv (s : loadst) : Prop := {
  iv_names : NoDup (snames s);
  iv_keys : NoDup (keys s);
  iv_index : forall n i, In (n, i) (l_index s) ->
      (exists ms, nth_error (l_metas s) i = Some ms /\ ms_name ms = n) \/
      (exists rs, nth_error (l_rsecs s) i = Some rs /\ rs_name rs = n);
  iv_indexed : forall n, In n (snames s) -> In n (keys s);
  iv_nonnil : ~ In [] (keys s) }.

Lemma inv0 : inv load0.
Proof.
  constructor; simpl; try (intros; contradiction); try constructor. intros [].
Qed.

Lemma inv_keys_names : forall s n, inv s -> In n (keys s) -> In n (snames s).
Proof.
  intros s n H K. unfold keys in K. apply in_map_iff in K. destruct K as ((m & i) & E & K). simpl in E. subst m.
  unfold snames. destruct (iv_index s H _ _ K) as [(ms & H1 & <-)|(rs & H1 & <-)]; apply in_or_app.
  - left. apply in_map. eapply nth_error_In; eauto.
  - right. apply in_map. eapply nth_error_In; eauto.
Qed.

Lemma NoDup_mid : forall {A} (a b : list A) x, NoDup (a ++ b) -> ~ In x (a ++ b) -> NoDup (a ++ x :: b).
Proof.
  intros. apply NoDup_Add with (a := x) (l := a ++ b). { apply Add_app. } auto.
Qed.

Lemma nth_error_snoc_old : forall {A} (l : list A) x i y, nth_error l i = Some y -> nth_error (l ++ [x]) i = Some y.
Proof.
  intros. rewrite nth_error_app1; auto. apply nth_error_Some. congruence.
Qed.
Lemma nth_error_snoc_new : forall {A} (l : list A) x, nth_error (l ++ [x]) (List.length l) = Some x.
Proof. intros. rewrite nth_error_app2 by lia. rewrite Nat.sub_diag. reflexivity. Qed.

Lemma flush_inv : forall s, inv s -> ~ In (l_sec s) (keys s) -> (l_type s <> UNKNWN -> l_sec s <> []) -> inv (flush s).
Proof.
  intros s H Ho Hs. unfold flush.
  assert (Hn : ~ In (l_sec s) (snames s)) by (intro K; apply Ho; apply (iv_indexed s H); exact K).
  destruct (l_type s) eqn:E; [| |exact H]; constructor; unfold snames, keys; cbn [l_metas l_rsecs l_index map fst].
  - rewrite map_app. simpl. rewrite <- app_assoc. simpl. apply NoDup_mid; [apply (iv_names s H)|exact Hn].
  - constructor; [exact Ho|apply (iv_keys s H)].
  - intros n i [K|K].
    + injection K; intros; subst. left. exists (mkMeta (l_sec s) (l_mrules s)). split; auto. apply nth_error_snoc_new.
    + destruct (iv_index s H n i K) as [(ms & K1 & K2)|(rs & K1 & K2)].
      * left. exists ms. split; auto. apply nth_error_snoc_old. auto.
      * right. exists rs. auto.
  - intros n K. rewrite map_app in K. simpl in K. rewrite <- app_assoc in K. simpl in K.
    apply in_app_or in K. simpl in K. destruct K as [K|[K|K]].
    + right. apply (iv_indexed s H). apply in_or_app. auto.
    + left. auto.
    + right. apply (iv_indexed s H). apply in_or_app. auto.
  - intros [K|K]; [|apply (iv_nonnil s H K)]. apply Hs; congruence.
  - rewrite map_app. simpl. rewrite app_assoc. apply NoDup_mid; rewrite app_nil_r; [apply (iv_names s H)|exact Hn].
  - constructor; [exact Ho|apply (iv_keys s H)].
  - intros n i [K|K].
    + injection K; intros; subst. right. exists (mkRules (l_sec s) (l_rules s)). split; auto. apply nth_error_snoc_new.
    + destruct (iv_index s H n i K) as [(ms & K1 & K2)|(rs & K1 & K2)].
      * left. exists ms. auto.
      * right. exists rs. split; auto. apply nth_error_snoc_old. auto.
  - intros n K. rewrite map_app in K. simpl in K. rewrite app_assoc in K. 
    apply in_app_or in K. simpl in K. destruct K as [K|[K|[]]].
    + right. apply (iv_indexed s H). exact K.
    + left. auto.
  - intros [K|K]; [|apply (iv_nonnil s H K)]. apply Hs; congruence.
Qed.

Lemma defines_cons : forall u atof b bs ms rs, defines u atof (b :: bs) ms rs <->
  exists m1 r1 m2 r2, defines u atof [b] m1 r1 /\ defines u atof bs m2 r2 /\ ms = m1 ++ m2 /\ rs = r1 ++ r2.
Proof.
  intros. split.
  - intros H. inversion H; subst.
    + exists [], [], ms, rs. repeat split; auto. constructor. constructor.
    + exists [mkMeta n rules], [], ms0, rs. repeat split; auto. apply df_meta; auto. constructor.
    + exists [], [mkRules n rules], ms, rs0. repeat split; auto. apply df_rule; auto. constructor.
  - intros (m1 & r1 & m2 & r2 & H1 & H2 & -> & ->).
    inversion H1; subst; match goal with K : defines _ _ [] _ _ |- _ => inversion K; subst end; simpl;
      [apply df_empty|apply df_meta|apply df_rule]; auto.
Qed.

Lemma flush_defines : forall u atof s d, cur u atof s d ->
  exists ms rs, defines u atof [(l_sec s, d)] ms rs /\
    l_metas (flush s) = l_metas s ++ ms /\ l_rsecs (flush s) = l_rsecs s ++ rs /\
    keys (flush s) = match d with [] => keys s | _ => l_sec s :: keys s end /\
    l_type (flush s) = UNKNWN /\ l_mrules (flush s) = [] /\ l_rules (flush s) = [].
Proof.
  intros u atof s d H. unfold cur in H. unfold flush.
  destruct (l_type s) eqn:E.
  - destruct H as (H1 & H2 & H3 & H4). exists [mkMeta (l_sec s) (l_mrules s)], []. simpl.
    split. { apply df_meta; auto. constructor. }
    rewrite app_nil_r. destruct d; [congruence|]. repeat split; auto.
  - destruct H as (H1 & H2 & H3 & H4). exists [], [mkRules (l_sec s) (l_rules s)]. simpl.
    split. { apply df_rule; auto. constructor. }
    rewrite app_nil_r. destruct d; [congruence|]. repeat split; auto.
  - destruct H as (-> & H2 & H3). exists [], []. rewrite !app_nil_r.
    split. { apply df_empty. constructor. }
    repeat split; auto.
Qed.

Lemma kept_snoc_ref : forall u d ms l ns, kept u d ms -> meta_line u l ns -> kept u (d ++ [l]) (ms ++ [map new_ref ns]).
Proof.
  induction 1; intros; simpl.
  - apply k_ref; auto. constructor.
  - apply k_ref; auto.
  - apply k_skip; auto.
Qed.
Lemma kept_snoc_skip : forall u d ms l, kept u d ms -> (forall ns, ~ meta_line u l ns) -> kept u (d ++ [l]) ms.
Proof.
  induction 1; intros; simpl.
  - apply k_skip; auto. constructor.
  - apply k_ref; auto.
  - apply k_skip; auto.
Qed.

Lemma fresh_inv : forall seen n ls bs, fresh seen ((n, ls) :: bs) ->
  ~ In n seen /\ fresh (match ls with [] => seen | _ => n :: seen end) bs.
Proof. intros. inversion H; subst. auto. Qed.

Lemma defines_block : forall u atof n ls bs ms rs, defines u atof ((n, ls) :: bs) ms rs ->
  ls = [] \/ Forall at_line ls \/
  (Forall (fun l => ~ at_line l) ls /\ exists rules, Forall2 (rule_line atof) ls rules).
Proof. intros. inversion H; subst; eauto. Qed.

Definition goal (u : uni) (atof : text -> flt) (s : loadst) (d o : list text) (bs : list (text * list text)) : Prop :=
  (l_sec s = [] -> o = []) /\ fresh (keys s) ((l_sec s, d ++ o) :: bs) /\
  exists ms rs, defines u atof ((l_sec s, d ++ o) :: bs) ms rs.

Lemma run_spec : forall u atof, uni_ok u -> forall ls o bs, doc u ls o bs ->
  forall s d, cur u atof s d -> inv s -> ~ In (l_sec s) (keys s) -> (l_sec s = [] -> l_type s = UNKNWN) ->
  match run u atof ls s with
  | Ok s' => (l_sec s = [] -> o = []) /\ fresh (keys s) ((l_sec s, d ++ o) :: bs) /\ inv (final s') /\
      exists ms rs, defines u atof ((l_sec s, d ++ o) :: bs) ms rs /\
        l_metas (final s') = l_metas s ++ ms /\ l_rsecs (final s') = l_rsecs s ++ rs
  | Throw _ => ~ goal u atof s d o bs
  | UB => False
  end.
Proof.
  intros u atof Hu ls o bs Hdoc. induction Hdoc as [|l ls o bs Hc Hd IH|l n ls o bs Hnc Hh Hd IH|l ls o bs Hl Hd IH];
    intros s d Hcur Hinv Hopen Hsec.
  - cbn [run].
    assert (Hf : final s = flush s).
    { unfold final. destruct (l_sec s) eqn:E; auto. unfold flush. rewrite Hsec; auto. }
    rewrite app_nil_r. split; auto. split. { constructor; auto. constructor. }
    rewrite Hf. split. { apply flush_inv; auto. }
    destruct (flush_defines u atof s d Hcur) as (ms & rs & H1 & H2 & H3 & _).
    exists ms, rs. auto.
  - cbn [run]. unfold load_line. rewrite (proj2 (is_comment_spec u l Hu) Hc). cbn [obind].
    apply IH; auto.
  - cbn [run]. unfold load_line.
    assert (Ec : is_comment u l = false).
    { destruct (is_comment u l) eqn:E; auto. apply is_comment_spec in E; auto. contradiction. }
    rewrite Ec, (proj2 (section_header_spec u l n Hu) Hh).
    assert (Hgo : forall X : outcome loadst, match l_type s, l_sec s with
               | ISMETA, [] | ISRULE, [] => Throw (s2t "Grammar-Empty-Section-Defined")
               | _, _ => X end = X).
    { intros X. destruct (l_sec s) eqn:E; [rewrite (Hsec eq_refl)|destruct (l_type s)]; reflexivity. }
    rewrite Hgo. cbv zeta.
    destruct (flush_defines u atof s d Hcur) as (m1 & r1 & F1 & F2 & F3 & F4 & F5 & F6 & F7).
    assert (Hfi : inv (flush s)). { apply flush_inv; auto. }
    destruct (index_find (l_index (flush s)) n) as [i|] eqn:Ei.
    + cbn [obind]. intros (_ & G & _). rewrite app_nil_r in G. apply fresh_inv in G. destruct G as (_ & G).
      apply fresh_inv in G. destruct G as (G & _). apply G. rewrite <- F4. unfold keys.
      apply index_find_In in Ei. apply in_map_iff. exists (n, i). auto.
    + cbn [obind].
      assert (Hn : ~ In n (keys (flush s))). { apply index_find_None in Ei. exact Ei. }
      set (s2 := mkLoad n (l_type (flush s)) (l_mrules (flush s)) (l_rules (flush s)) (l_metas (flush s))
                   (l_rsecs (flush s)) (l_index (flush s))).
      assert (Hcur2 : cur u atof s2 []). { unfold cur. simpl. rewrite F5. auto. }
      assert (Hinv2 : inv s2). { destruct Hfi. constructor; auto. }
      assert (Hsec2 : l_sec s2 = [] -> l_type s2 = UNKNWN). { intros. exact F5. }
      specialize (IH s2 [] Hcur2 Hinv2 Hn Hsec2).
      assert (Hn0 : n <> []). { destruct Hh as (a & b & _ & _ & _ & K). exact K. }
      assert (Hk2 : keys s2 = match d with [] => keys s | _ => l_sec s :: keys s end).
      { change (keys s2) with (keys (flush s)). exact F4. }
      destruct (run u atof ls s2) as [s'|m|]; auto.
      * destruct IH as (I1 & I2 & I3 & m2 & r2 & I4 & I5 & I6). rewrite app_nil_r.
        split; auto. split.
        { constructor; auto. rewrite <- Hk2. exact I2. }
        split; auto. exists (m1 ++ m2), (r1 ++ r2). split.
        { apply defines_cons. exists m1, r1, m2, r2. auto. }
        rewrite I5, I6. simpl. rewrite F2, F3, !app_assoc. auto.
      * intros (G1 & G2 & ms & rs & G3). rewrite app_nil_r in *. apply IH. split.
        { intros K. simpl in K. congruence. }
        split. { apply fresh_inv in G2. destruct G2 as (_ & G2). rewrite Hk2. exact G2. }
        apply defines_cons in G3. destruct G3 as (a & b & c & e & _ & G3 & _). exists c, e. exact G3.
  - cbn [run]. unfold load_line.
    destruct Hl as (Hnc & Hnh).
    assert (Ec : is_comment u l = false).
    { destruct (is_comment u l) eqn:E; auto. apply is_comment_spec in E; auto. contradiction. }
    rewrite Ec, (proj2 (header_None u l Hu) Hnh).
    destruct (l_sec s) as [|c0 s0] eqn:Es.
    { cbn [obind]. intros (G & _). specialize (G Es). discriminate. }
    destruct (has_char AT l) eqn:Ea.
    + apply has_at_spec in Ea.
      assert (Hstep : l_type s <> ISRULE -> match obind (Ok (mkLoad (l_sec s) ISMETA
                              (if is_meta u l then l_mrules s ++ [meta_rule_of u l] else l_mrules s)
                              (l_rules s) (l_metas s) (l_rsecs s) (l_index s))) (run u atof ls) with
             | Ok s' => (l_sec s = [] -> l :: o = []) /\ fresh (keys s) ((l_sec s, d ++ l :: o) :: bs) /\ inv (final s') /\
                  exists ms rs, defines u atof ((l_sec s, d ++ l :: o) :: bs) ms rs /\
                    l_metas (final s') = l_metas s ++ ms /\ l_rsecs (final s') = l_rsecs s ++ rs
             | Throw _ => ~ goal u atof s d (l :: o) bs
             | UB => False end).
      { intros Ht. cbn [obind]. set (s2 := mkLoad _ _ _ _ _ _ _).
        assert (Hcur2 : cur u atof s2 (d ++ [l])).
        { unfold cur in *. simpl.
          split. { destruct d; discriminate. }
          assert (Hd2 : Forall at_line d /\ kept u d (l_mrules s) /\ l_rules s = []).
          { destruct (l_type s); [tauto|congruence|]. destruct Hcur as (-> & -> & ->). repeat split; auto. constructor. }
          destruct Hd2 as (D1 & D2 & D3).
          split. { apply Forall_app. auto. }
          split; auto. destruct (is_meta u l) eqn:Em.
          - apply is_meta_spec in Em; auto. destruct Em as (ns & Em).
            rewrite (meta_rule_of_spec u l ns Hu Em). apply kept_snoc_ref; auto.
          - apply kept_snoc_skip; auto. apply is_meta_false; auto. }
        assert (Hinv2 : inv s2) by (destruct Hinv; constructor; auto).
        assert (Hsec2 : l_sec s2 = [] -> l_type s2 = UNKNWN) by (simpl; rewrite Es; discriminate).
        specialize (IH s2 (d ++ [l]) Hcur2 Hinv2).
        assert (Ho2 : ~ In (l_sec s2) (keys s2)) by (simpl; rewrite Es; exact Hopen).
        specialize (IH Ho2 Hsec2). rewrite <- app_assoc in IH. simpl app in IH.
        destruct (run u atof ls s2) as [s'|m|]; auto.
        - destruct IH as (I1 & I2 & I3 & I4). simpl in *. rewrite Es in *. split; [discriminate|]. auto.
        - intros (G1 & G2 & G3). apply IH. unfold goal. simpl. rewrite <- app_assoc. simpl. rewrite Es in *.
          split; [discriminate|]. auto. }
      rewrite Es in Hstep.
      destruct (l_type s) eqn:Et; try (apply Hstep; discriminate).
      cbn [obind]. intros (G1 & G2 & ms & rs & G3). unfold cur in Hcur. rewrite Et in Hcur.
      destruct Hcur as (C1 & C2 & C3 & C4). destruct d as [|d0 d]; [congruence|].
      apply defines_block in G3. destruct G3 as [G3|[G3|(G3 & _)]]; [discriminate| |].
      * inversion C2; subst. inversion G3; subst. contradiction.
      * apply Forall_app in G3. destruct G3 as (_ & G3). inversion G3; subst. contradiction.
    + apply has_at_false in Ea.
      assert (Hstep : l_type s <> ISMETA -> match obind (obind (rule_parse atof l) (fun r =>
                          Ok (mkLoad (l_sec s) ISRULE (l_mrules s) (l_rules s ++ [r])
                                     (l_metas s) (l_rsecs s) (l_index s)))) (run u atof ls) with
             | Ok s' => (l_sec s = [] -> l :: o = []) /\ fresh (keys s) ((l_sec s, d ++ l :: o) :: bs) /\ inv (final s') /\
                  exists ms rs, defines u atof ((l_sec s, d ++ l :: o) :: bs) ms rs /\
                    l_metas (final s') = l_metas s ++ ms /\ l_rsecs (final s') = l_rsecs s ++ rs
             | Throw _ => ~ goal u atof s d (l :: o) bs
             | UB => False end).
      { intros Ht. destruct (rule_parse atof l) as [r|m|] eqn:Er; cbn [obind].
        2: { intros (G1 & G2 & ms & rs & G3). apply defines_block in G3.
             destruct G3 as [G3|[G3|(_ & rules & G3)]].
             - destruct d; discriminate.
             - apply Forall_app in G3. destruct G3 as (_ & G3). inversion G3; subst. contradiction.
             - apply Forall2_app_inv_l in G3. destruct G3 as (x1 & x2 & _ & K & _). inversion K as [|? y ? ? K1]; subst.
               apply rule_parse_spec in K1. congruence. }
        2: { exact (rule_parse_total _ _ Er). }
        set (s2 := mkLoad _ _ _ _ _ _ _).
        assert (Hcur2 : cur u atof s2 (d ++ [l])).
        { unfold cur in *. simpl.
          split. { destruct d; discriminate. }
          assert (Hd2 : Forall (fun l => ~ at_line l) d /\ Forall2 (rule_line atof) d (l_rules s) /\ l_mrules s = []).
          { destruct (l_type s); [congruence|tauto|]. destruct Hcur as (-> & -> & ->). repeat split; auto. }
          destruct Hd2 as (D1 & D2 & D3).
          split. { apply Forall_app. auto. }
          split; auto. apply Forall2_app; auto. constructor; auto. apply rule_parse_spec. auto. }
        assert (Hinv2 : inv s2) by (destruct Hinv; constructor; auto).
        assert (Hsec2 : l_sec s2 = [] -> l_type s2 = UNKNWN) by (simpl; rewrite Es; discriminate).
        specialize (IH s2 (d ++ [l]) Hcur2 Hinv2).
        assert (Ho2 : ~ In (l_sec s2) (keys s2)) by (simpl; rewrite Es; exact Hopen).
        specialize (IH Ho2 Hsec2). rewrite <- app_assoc in IH. simpl app in IH.
        destruct (run u atof ls s2) as [s'|m|]; auto.
        - destruct IH as (I1 & I2 & I3 & I4). simpl in *. rewrite Es in *. split; [discriminate|]. auto.
        - intros (G1 & G2 & G3). apply IH. unfold goal. simpl. rewrite <- app_assoc. simpl. rewrite Es in *.
          split; [discriminate|]. auto. }
      rewrite Es in Hstep.
      destruct (l_type s) eqn:Et.
      * cbn [obind]. intros (G1 & G2 & ms & rs & G3). unfold cur in Hcur. rewrite Et in Hcur.
        destruct Hcur as (C1 & C2 & C3 & C4). destruct d as [|d0 d]; [congruence|].
        apply defines_block in G3. destruct G3 as [G3|[G3|(G3 & _)]]; [discriminate| |].
        -- apply Forall_app in G3. destruct G3 as (_ & G3). inversion G3; subst. contradiction.
        -- inversion C2; subst. inversion G3; subst. contradiction.
      * apply Hstep. discriminate.
      * apply Hstep. discriminate.
Qed.
