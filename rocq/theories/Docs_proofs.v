(** Files that follow the documented syntax load. *)
From Coq Require Import String List NArith ZArith Lia Floats.SpecFloat.
From Verif Require Import Base_model Class_model Float_model Uni_model Rule_model Search_model Grammar_model Search_spec Grammar_spec
  GrammarLine_proofs GrammarLoad_proofs GrammarTop_proofs GrammarPrint_proofs Loaded_proofs Sample_model Docs_spec.
Import ListNotations.
Local Open Scope N_scope.

Lemma gap_c : forall b, gap b -> Forall c_blank b.
Proof. intros b. apply Forall_impl. intros c [->| ->]; [left; reflexivity|right; lia]. Qed.
Lemma gap_u : forall u b, uni_ok u -> doc_tables u -> gap b -> blanks u b.
Proof. intros u b U (_ & T & _). apply Forall_impl. intros c [->| ->]; [exact (uo_blank u U)|exact T]. Qed.
Lemma spaced_words : forall ws l, spaced ws l -> Forall good_word ws -> forall a, Forall c_blank a -> words (a ++ l) ws.
Proof.
  intros ws l H. induction H as [w b G|w b ws t G N H IH]; intros F a A; inversion F as [|? ? (F1 & F2) F']; subst.
  - apply w_word; auto; [apply w_end; apply gap_c; exact G|]. destruct b as [|c b]; [left; reflexivity|right].
    exists c, b. split; [reflexivity|]. apply gap_c in G. inversion G; assumption.
  - apply w_word; auto; [apply IH; [exact F'|apply gap_c; exact G]|]. right. destruct b as [|c b]; [congruence|].
    exists c, (b ++ t). split; [reflexivity|]. apply gap_c in G. inversion G; assumption.
Qed.
Lemma spaced_refs : forall u, uni_ok u -> doc_tables u -> forall ws l, spaced ws l -> forall ns, ws = map (fun n => 64 :: n) ns -> Forall identifier ns ->
  forall a, blanks u a -> refs_line u (a ++ l) ns.
Proof.
  intros u U D. assert (I : forall n, identifier n -> n <> [] /\ Forall (ident_char u) n).
  { intros n (I1 & I2). split; [exact I1|]. revert I2. apply Forall_impl. intros c [K|K]; [left; apply D; exact K|right; exact K]. }
  intros ws l H. induction H as [w b G|w b ws t G N H IH]; intros ns E F a A; destruct ns as [|n ns]; try discriminate E.
  - destruct ns; [|discriminate E]. injection E as ->. inversion F as [|? ? F1 F2]; subst. destruct (I n F1). apply (rl_ref u a n b []); auto.
    apply rl_end. apply gap_u; auto.
  - injection E as -> E. inversion F as [|? ? F1 F2]; subst. destruct (I n F1). apply (rl_ref u a n (b ++ t) ns); auto. apply IH; auto. apply gap_u; auto.
Qed.
Lemma spaced_head : forall w ws l, spaced (w :: ws) l -> exists t, l = w ++ t.
Proof. intros w ws l H. inversion H; subst; eexists; reflexivity. Qed.
Lemma spaced_char : forall ws l c, spaced ws l -> In c l -> c = 32 \/ c = 9 \/ exists w, In w ws /\ In c w.
Proof.
  intros ws l c H. induction H as [w b G|w b ws t G N H IH]; intros K; apply in_app_or in K; destruct K as [K|K].
  - right. right. exists w. split; [left; reflexivity|exact K].
  - unfold gap in G. rewrite Forall_forall in G. destruct (G c K); auto.
  - right. right. exists w. split; [left; reflexivity|exact K].
  - apply in_app_or in K. destruct K as [K|K]; [unfold gap in G; rewrite Forall_forall in G; destruct (G c K); auto|].
    destruct (IH K) as [Q|[Q|(w' & Q1 & Q2)]]; auto. right. right. exists w'. split; [right|]; auto.
Qed.
Lemma ident_no_lf : forall n, identifier n -> ~ In 10 n.
Proof. intros n (_ & F) K. rewrite Forall_forall in F. destruct (F _ K) as [[Q|[Q|Q]]|Q]; lia. Qed.
Lemma skip_comment : forall u l, ignored_line l -> comment_line u l.
Proof. intros u l [->|(t & -> & _)]; [apply nil_comment|]. exists [], (35 :: t). repeat split; [constructor|right; exists t; reflexivity]. Qed.
Lemma skip_no_lf : forall l, ignored_line l -> ~ In 10 l.
Proof. intros l [->|(t & -> & N)] K; [contradiction|]. destruct K as [K|K]; [discriminate|contradiction]. Qed.

(** Lines of references. *)
Lemma refs_ok : forall u ns l, uni_ok u -> doc_tables u -> refs_text ns l -> data_line u l /\ at_line l /\ meta_line u l ns /\ ~ In 10 l.
Proof.
  intros u ns l U D (N & I & S0). destruct ns as [|n ns]; [congruence|]. destruct (spaced_head _ _ _ S0) as (t & E).
  split; [rewrite E; cbn [app]; apply data_head; auto; [exact (uo_at u U)|discriminate|discriminate]|].
  split; [rewrite E; left; reflexivity|]. split.
  - split; [|discriminate]. apply (spaced_refs u U D _ _ S0 (n :: ns) eq_refl I []). constructor.
  - intros K. destruct (spaced_char _ _ _ S0 K) as [Q|[Q|(w & Q1 & Q2)]]; [discriminate|discriminate|].
    apply in_map_iff in Q1. destruct Q1 as (m & <- & Q1). destruct Q2 as [Q2|Q2]; [discriminate|].
    rewrite Forall_forall in I. exact (ident_no_lf m (I m Q1) Q2).
Qed.
(** Lines of rules. *)
Definition rule_of (atof : text -> spec_float) (r : list intype * list outtype * text) : rule := mkRule (fst (fst r)) (snd (fst r)) (atof (snd r)).
Lemma float_word : forall s, float_text s -> good_word s /\ s <> ARROW /\ ~ In 64 s /\ ~ In 10 s.
Proof.
  intros s (N & F). rewrite Forall_forall in F. split; [split; [exact N|]|split; [|split]].
  - apply Forall_forall. intros c K [Q|Q]; destruct (F c K); lia.
  - intros ->. destruct (F 45 (or_introl eq_refl)); lia.
  - intros K. destruct (F _ K); lia.
  - intros K. destruct (F _ K); lia.
Qed.
Lemma rule_text_words : forall ins outs sc, float_text sc -> Forall (fun w => good_word w /\ ~ In 64 w /\ ~ In 10 w) (map in_str ins ++ ARROW :: map out_str outs ++ [ARROW; sc]).
Proof.
  intros ins outs sc F.
  assert (U : forall w, Forall (fun x => 65 <= x <= 90) w -> ~ In 10 w) by (intros w H K; rewrite Forall_forall in H; specialize (H _ K); lia).
  assert (A : forall w : text, w <> [] -> Forall (fun x => ~ c_blank x) w -> Forall (fun x => 65 <= x <= 90 \/ x = 45 \/ x = 62) w -> good_word w /\ ~ In 64 w /\ ~ In 10 w).
  { intros w H1 H2 H3. split; [split; assumption|]. rewrite Forall_forall in H3. split; intros K; specialize (H3 _ K); lia. }
  assert (AR : good_word ARROW /\ ~ In 64 ARROW /\ ~ In 10 ARROW).
  { apply A; [discriminate| |]; repeat constructor; try lia; intros [K|K]; try discriminate K; lia. }
  apply Forall_app. split; [apply Forall_map; apply Forall_forall; intros c _; destruct (in_str_word c) as (H1 & H2 & _ & H3 & _); apply A; auto; revert H3; apply Forall_impl; auto|].
  constructor; [exact AR|]. apply Forall_app. split; [apply Forall_map; apply Forall_forall; intros c _; destruct (out_str_word c) as (H1 & H2 & _ & H3 & _); apply A; auto; revert H3; apply Forall_impl; auto|].
  constructor; [exact AR|]. constructor; [|constructor]. destruct (float_word sc F) as (H1 & _ & H2 & H3). auto.
Qed.
Lemma rule_ok : forall u atof r l, uni_ok u -> doc_tables u -> rule_text r l -> not_le_zero (atof (snd r)) ->
  data_line u l /\ ~ at_line l /\ rule_line atof l (rule_of atof r) /\ ~ In 10 l.
Proof.
  intros u atof [[ins outs] sc] l U D (L & F & S0) P. cbn [snd] in P. pose proof (rule_text_words ins outs sc F) as W. split; [|split; [|split]].
  - destruct ins as [|i ins]; cbn [map app] in S0; destruct (spaced_head _ _ _ S0) as (t & E).
    + rewrite E. cbn [app]. apply data_head; auto; [|discriminate|discriminate]. apply D. right. reflexivity.
    + destruct (in_str_word i) as (N & _ & _ & C & _). destruct (in_str i) as [|c w] eqn:Q; [congruence|]. rewrite E. cbn [app].
      inversion C as [|? ? C1 C2]. apply data_head; auto; [apply D; left; exact C1|lia|lia].
  - intros K. destruct (spaced_char _ _ _ S0 K) as [Q|[Q|(w & Q1 & Q2)]]; [discriminate|discriminate|].
    rewrite Forall_forall in W. exact (proj1 (proj2 (W w Q1)) Q2).
  - exists (map in_str ins ++ ARROW :: map out_str outs ++ [ARROW; sc]), (map in_str ins), (map out_str outs), [], sc, [].
    assert (A1 : no_arrow (map in_str ins)) by (intros K; apply in_map_iff in K; destruct K as (c & K & _); destruct (in_str_word c) as (_ & _ & H & _); contradiction).
    assert (A2 : no_arrow (map out_str outs)) by (intros K; apply in_map_iff in K; destruct K as (c & K & _); destruct (out_str_word c) as (_ & _ & H & _); contradiction).
    split; [apply (spaced_words _ _ S0) with (a := []); [revert W; apply Forall_impl; tauto|constructor]|].
    split; [reflexivity|]. split; [exact A1|]. split; [exact A2|].
    split; [intros [K|[]]; destruct (float_word sc F) as (_ & H & _); congruence|]. split; [left; reflexivity|].
    split; [rewrite !map_length; exact L|]. split; [exact P|]. unfold rule_of. cbn [fst snd]. rewrite !map_map. f_equal.
    + rewrite <- (map_id ins) at 1. apply map_ext. intros c. symmetry. apply (in_str_word c).
    + rewrite <- (map_id outs) at 1. apply map_ext. intros c. symmetry. apply (out_str_word c).
  - intros K. destruct (spaced_char _ _ _ S0 K) as [Q|[Q|(w & Q1 & Q2)]]; [discriminate|discriminate|].
    rewrite Forall_forall in W. exact (proj2 (proj2 (W w Q1)) Q2).
Qed.

(** Blocks. *)
Lemma lined_doc : forall {A} (f : A -> text -> Prop) u xs ls, lined f xs ls -> (forall x l, In x xs -> f x l -> data_line u l /\ ~ In 10 l) ->
  exists ds, Forall2 f xs ds /\ Forall (fun l => ~ In 10 l) ls /\ forall rest bs, doc u rest [] bs -> doc u (ls ++ rest) ds bs.
Proof.
  intros A f u xs ls H. induction H as [|l xs ls G H IH|x l xs ls G H IH]; intros D.
  - exists []. repeat split; auto.
  - destruct (IH D) as (ds & F & N & R). exists ds. split; [exact F|]. split; [constructor; [exact (skip_no_lf l G)|exact N]|].
    intros rest bs B. cbn [app]. apply doc_comment; [apply skip_comment; exact G|apply R; exact B].
  - destruct IH as (ds & F & N & R); [intros y m I; apply D; right; exact I|]. destruct (D x l (or_introl eq_refl) G) as (D1 & D2).
    exists (l :: ds). split; [constructor; assumption|]. split; [constructor; assumption|]. intros rest bs B. cbn [app]. apply doc_data; auto.
Qed.
Lemma refs_kept : forall u l ds, uni_ok u -> doc_tables u -> Forall2 refs_text l ds -> kept u ds (map (map new_ref) l) /\ Forall at_line ds.
Proof.
  intros u l ds U D H. induction H as [|ns x l ds R H (IH1 & IH2)]; [split; constructor|].
  destruct (refs_ok u ns x U D R) as (_ & A & M & _). split; [cbn [map]; apply k_ref; assumption|constructor; assumption].
Qed.
Lemma forall2_nonempty : forall {A B} (R : A -> B -> Prop) l m, Forall2 R l m -> l <> [] -> m <> [].
Proof. intros A B R l m H N. destruct H; [congruence|discriminate]. Qed.
Definition new_metas (gs : list (text * body)) : list metasection := map (fun m => mkMeta (fst m) (map (map new_ref) (snd m))) (meta_groups gs).
Lemma grammar_doc : forall u atof gs ls, uni_ok u -> doc_tables u -> grammar_lines gs ls -> (forall s, score_of gs s -> not_le_zero (atof s)) ->
  Forall (fun l => ~ In 10 l) ls /\ exists bs, doc u (ls ++ [[]]) [] bs /\ map fst bs = map fst gs /\ defines u atof bs (new_metas gs) (rule_groups atof gs).
Proof.
  intros u atof gs ls U D H. induction H as [|l gs ls G H IH|n b bl gs ls I B H IH]; intros P.
  - split; [constructor|]. exists []. repeat split; [|constructor]. cbn [app]. apply doc_comment; [apply nil_comment|constructor].
  - destruct (IH P) as (N & bs & B & E & F). split; [constructor; [exact (skip_no_lf l G)|exact N]|]. exists bs. repeat split; auto.
    cbn [app]. apply doc_comment; [apply skip_comment; exact G|exact B].
  - destruct IH as (N & bs & DB & E & F). { intros s (m & l & i & o & I1 & I2). apply P. exists m, l, i, o. split; [right|]; assumption. }
    assert (HN : ~ In 10 (91 :: n ++ [93])).
    { intros [K|K]; [discriminate|]. apply in_app_or in K. destruct K as [K|[K|[]]]; [exact (ident_no_lf n I K)|discriminate]. }
    destruct b as [l|l]; cbn [body_lines] in B; destruct B as (NE & B).
    + destruct (lined_doc refs_text u l bl B) as (ds & F2 & NL & R).
      { intros x y _ K. destruct (refs_ok u x y U D K) as (K1 & _ & _ & K2). split; assumption. }
      split; [constructor; [exact HN|apply Forall_app; split; assumption]|].
      exists ((n, ds) :: bs). split; [|split; [cbn [map fst]; rewrite E; reflexivity|]].
      * cbn [app]. rewrite <- app_assoc. apply doc_header; [exact (hdr_not_comment u n U)|exact (hdr_line u n (proj1 I))|apply R; exact DB].
      * destruct (refs_kept u l ds U D F2) as (K1 & K2). unfold new_metas, meta_groups, rule_groups. cbn [flat_map snd fst app map]. apply df_meta; auto.
        exact (forall2_nonempty _ _ _ F2 NE).
    + assert (PP : forall x y, In x l -> rule_text x y -> data_line u y /\ ~ at_line y /\ rule_line atof y (rule_of atof x) /\ ~ In 10 y).
      { intros x y K R. apply rule_ok; auto. destruct x as [[i o] s]. apply P. exists n, l, i, o. split; [left; reflexivity|exact K]. }
      destruct (lined_doc rule_text u l bl B) as (ds & F2 & NL & R).
      { intros x y I1 K. destruct (PP x y I1 K) as (K1 & _ & _ & K2). split; assumption. }
      split; [constructor; [exact HN|apply Forall_app; split; assumption]|].
      exists ((n, ds) :: bs). split; [|split; [cbn [map fst]; rewrite E; reflexivity|]].
      * cbn [app]. rewrite <- app_assoc. apply doc_header; [exact (hdr_not_comment u n U)|exact (hdr_line u n (proj1 I))|apply R; exact DB].
      * unfold new_metas, meta_groups, rule_groups. cbn [flat_map snd fst app map]. apply df_rule; auto.
        { exact (forall2_nonempty _ _ _ F2 NE). }
        { clear - F2 PP. induction F2 as [|x y l ds R F2 IH]; constructor; [apply (PP x y); [left; reflexivity|exact R]|].
          apply IH. intros a b I. apply PP. right. exact I. }
        { clear - F2 PP. induction F2 as [|x y l ds R F2 IH]; constructor; [apply (PP x y); [left; reflexivity|exact R]|].
          apply IH. intros a b I. apply PP. right. exact I. }
Qed.
Lemma names_both : forall atof gs n, In n (names_of (new_metas gs) (rule_groups atof gs)) <-> In n (map fst gs).
Proof.
  intros atof gs n. unfold names_of, new_metas. rewrite map_map. cbn [ms_name].
  induction gs as [|[m [l|l]] gs IH]; [reflexivity| |]; unfold meta_groups, rule_groups in *; cbn [flat_map snd fst app map In].
  - rewrite <- IH. reflexivity.
  - rewrite <- IH. rewrite !in_app_iff. cbn [In rs_name]. tauto.
Qed.
Lemma refers_groups : forall gs n, refers (new_metas gs) n <-> referred gs n.
Proof.
  intros gs n. rewrite refers_plain. unfold new_metas. rewrite plain_new. unfold plain_refers, referred, meta_groups. split.
  - intros (m & r & I & J & K). apply in_flat_map in I. destruct I as ((k & [l|l]) & I & Q); cbn [snd fst] in Q; [|contradiction].
    destruct Q as [<-|[]]. cbn [snd] in J. exists k, l, r. auto.
  - intros (k & l & ns & I & J & K). exists (k, l), ns. split; [|auto]. apply in_flat_map. exists (k, Refs l). split; [exact I|left; reflexivity].
Qed.
Lemma file_unlines : forall ls, file_text ls = unlines ls.
Proof. intros ls. unfold file_text, unlines. apply flat_map_concat_map. Qed.
Lemma documented_loads : forall u atof gs ls, uni_ok u -> doc_tables u -> grammar_lines gs ls -> complete gs ->
  (forall s, score_of gs s -> not_le_zero (atof s)) ->
  exists L, load_grammar u atof (file_text ls) = Ok L /\ plain (g_metas (gl_grammar L)) = meta_groups gs /\ g_rules (gl_grammar L) = rule_groups atof gs /\
    (gl_status L = CHECK_OK <-> forall n, In n (map fst gs) -> referred gs n \/ n = ADDRESS).
Proof.
  intros u atof gs ls U D G (A & ND & RF) P. destruct (grammar_doc u atof gs ls U D G P) as (NL & bs & B & E & F).
  assert (M : means u atof (file_text ls) (new_metas gs) (rule_groups atof gs)).
  { exists bs. rewrite file_unlines, seen_unlines by exact NL. split; [exact B|]. split; [|exact F]. apply fresh_nodup; [rewrite E; exact ND|intros n []]. }
  assert (NB : ~ has_bom (file_text ls)).
  { intros (t & K). destruct G as [|l gs ls G H|n b bl gs ls I Bo H]; [discriminate K| |discriminate K].
    destruct G as [->|(t' & -> & _)]; discriminate K. }
  pose proof (load_grammar_spec u atof (file_text ls) _ U (eff_plain _ NB)) as Q.
  assert (C : closed (new_metas gs) (rule_groups atof gs)) by (intros n K; apply names_both; apply RF; apply refers_groups; exact K).
  destruct (load_grammar u atof (file_text ls)) as [L|m|]; [| |contradiction].
  2: { exfalso. apply Q. exists (new_metas gs), (rule_groups atof gs). split; [exact M|]. split; [exact C|]. apply names_both. exact A. }
  cbv zeta in Q. destruct Q as (ms & rs & M3 & _ & _ & E1 & E2 & _ & _ & _ & _ & SO & _). destruct (means_det _ _ _ _ _ _ _ U M M3) as (Q1 & Q2).
  assert (X1 : ms = new_metas gs) by congruence. assert (X2 : rs = rule_groups atof gs) by congruence. rewrite X1 in E1. rewrite X2 in E2. rewrite X1, X2 in SO.
  exists L. split; [reflexivity|]. split; [rewrite E1; unfold new_metas; apply plain_new|]. split; [exact E2|].
  rewrite SO. split; intros K n I; (destruct (K n) as [R|R]; [apply (names_both atof); exact I|left; apply refers_groups; exact R|right; exact R]).
Qed.
