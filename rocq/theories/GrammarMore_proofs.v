(** Consequences of the loader specification, and witnesses. *)
From Coq Require Import String List NArith ZArith Bool Lia Floats.SpecFloat.
From Verif Require Import Base_model Class_model Float_model Uni_model Token_model Rule_model Search_model Grammar_model
  Sample_model Search_spec Grammar_spec Loaded_spec GrammarLine_proofs GrammarLoad_proofs GrammarTop_proofs GrammarPrint_proofs
  Loaded_proofs.
Import ListNotations.
Local Open Scope N_scope.

Lemma effective_det : forall f a b, effective f a -> effective f b -> a = b.
Proof.
  intros f a b H K. destruct H as [t H|d t H1 H2]; inversion K; subst; auto.
  - exfalso. apply H. eexists. reflexivity.
  - exfalso. match goal with H : ~ has_bom _ |- _ => apply H end. eexists. reflexivity.
Qed.

Lemma load_iff : forall u atof file, uni_ok u ->
  ((exists L, load_grammar u atof file = Ok L) <->
   exists src ms rs, effective file src /\ means u atof src ms rs /\ closed ms rs /\ In ADDRESS (names_of ms rs)) /\
  load_grammar u atof file <> UB.
Proof.
  intros u atof file Hu. split; [|apply load_grammar_no_UB; auto]. split.
  - intros (L & H). destruct (load_grammar_effective u atof file L H) as (src & E).
    pose proof (load_grammar_spec u atof file src Hu E) as S. rewrite H in S. cbv zeta in S.
    destruct S as (ms & rs & M & C & A & _). exists src, ms, rs. auto.
  - intros (src & ms & rs & E & M & C & A). pose proof (load_grammar_spec u atof file src Hu E) as S.
    destruct (load_grammar u atof file) as [L|m|]; [eauto| |contradiction]. exfalso. apply S. eauto.
Qed.

Lemma plain_refers : forall ms ms', plain ms = plain ms' -> forall n, refers ms n -> refers ms' n.
Proof.
  intros ms ms' H n (m & refs & r & I1 & I2 & I3 & E).
  assert (K : In (ms_name m, map (map f_name) (ms_rules m)) (plain ms')).
  { rewrite <- H. unfold plain. apply in_map_iff. exists m. auto. }
  unfold plain in K. apply in_map_iff in K. destruct K as (m' & K1 & K2). injection K1 as K3 K4.
  assert (J : In (map f_name refs) (map (map f_name) (ms_rules m'))) by (rewrite K4; apply in_map; auto).
  apply in_map_iff in J. destruct J as (refs' & J1 & J2).
  assert (Q : In (f_name r) (map f_name refs')) by (rewrite J1; apply in_map; auto).
  apply in_map_iff in Q. destruct Q as (r' & Q1 & Q2). exists m', refs', r'. rewrite <- E. auto.
Qed.

Lemma loaded_well_formed : forall u atof file L, uni_ok u -> load_grammar u atof file = Ok L ->
  let g := gl_grammar L in
  linked g /\ In ADDRESS (section_names g) /\ rules_checked (g_rules g) /\
  (gl_status L = CHECK_OK <-> forall n, In n (section_names g) -> refers (g_metas g) n \/ n = ADDRESS) /\
  (gl_status L <> CHECK_OK -> gl_status L = CHECK_WARN) /\ (gl_status L = CHECK_OK -> gl_issues L = []).
Proof.
  intros u atof file L Hu H g. destruct (load_grammar_effective u atof file L H) as (src & E).
  pose proof (load_grammar_spec u atof file src Hu E) as S. rewrite H in S. cbv zeta in S. fold g in S.
  destruct S as (ms & rs & M & C & A & P & R & LK & SN & RC & NF & OKc & ISS).
  split; auto. split; [rewrite SN; auto|]. split; [rewrite R; auto|]. split.
  - rewrite OKc, SN. split; intros K n In0; destruct (K n In0) as [K1|K1]; auto; left;
      [eapply plain_refers; [symmetry|]; eauto|eapply plain_refers; eauto].
  - split; auto. intros K. destruct (gl_status L); congruence.
Qed.

(** Lines and rules. *)
Lemma kept_all : forall u ls rules, (forall l, In l ls -> exists ns, meta_line u l ns) -> kept u ls rules ->
  uni_ok u -> Forall2 (fun l refs => meta_line u l (map f_name refs)) ls rules.
Proof.
  intros u ls rules H K Hu. induction K as [|l ns ls ms Hl Hk IH|l ls ms Hl Hk IH].
  - constructor.
  - constructor.
    + rewrite map_map. simpl. rewrite map_id. exact Hl.
    + apply IH. intros; apply H; right; auto.
  - exfalso. destruct (H l (or_introl eq_refl)) as (ns & Hn). apply (Hl ns Hn).
Qed.
Lemma defines_lines : forall u atof bs ms rs, uni_ok u -> defines u atof bs ms rs ->
  (forall n ls l, In (n, ls) bs -> In l ls -> at_line l -> exists ns, meta_line u l ns) ->
  forall n ls, In (n, ls) bs -> ls <> [] ->
  (exists m, In m ms /\ ms_name m = n /\ Forall2 (fun l refs => meta_line u l (map f_name refs)) ls (ms_rules m)) \/
  (exists s, In s rs /\ rs_name s = n /\ Forall2 (rule_line atof) ls (rs_rules s)).
Proof.
  intros u atof bs ms rs Hu H.
  induction H as [|n bs ms rs H IH|n ls rules bs ms rs Hn Ha Hk H IH|n ls rules bs ms rs Hn Ha Hk H IH]; intros G n' ls' I NE.
  - destruct I.
  - destruct I as [I|I]; [injection I as <- <-; congruence|]. apply IH; auto. intros. eapply (G n0); eauto. right; eauto.
  - assert (G' : forall n ls l, In (n, ls) bs -> In l ls -> at_line l -> exists ns, meta_line u l ns).
    { intros a b c Q1 Q2 Q3. eapply (G a b c); eauto. right; auto. }
    destruct I as [I|I].
    + injection I as <- <-. left. exists (mkMeta n rules). split; [left; auto|]. split; auto. apply kept_all; auto.
      intros l Hl. rewrite Forall_forall in Ha. eapply (G n ls l); [left; auto|auto|auto].
    + destruct (IH G' n' ls' I NE) as [(m & Q)|(s & Q)]; [left; exists m|right; exists s]; simpl; tauto.
  - assert (G' : forall n ls l, In (n, ls) bs -> In l ls -> at_line l -> exists ns, meta_line u l ns).
    { intros a b c Q1 Q2 Q3. eapply (G a b c); eauto. right; auto. }
    destruct I as [I|I].
    + injection I as <- <-. right. exists (mkRules n rules). simpl. auto.
    + destruct (IH G' n' ls' I NE) as [(m & Q)|(s & Q)]; [left; exists m|right; exists s]; simpl; tauto.
Qed.
Lemma map_f_name_Forall2 : forall (P : text -> list text -> Prop) ls (a b : list metarule),
  map (map f_name) a = map (map f_name) b ->
  Forall2 (fun l refs => P l (map f_name refs)) ls a -> Forall2 (fun l refs => P l (map f_name refs)) ls b.
Proof.
  intros P ls. induction ls as [|l ls IH]; intros a b E H; inversion H; subst.
  - destruct b; [constructor|discriminate].
  - destruct b as [|yy b]; [discriminate|]. simpl in E. injection E as E1 E2. constructor; [congruence|]. eapply IH; eauto.
Qed.
Lemma every_line_counts : forall u atof file L, uni_ok u -> load_grammar u atof file = Ok L ->
  exists src bs, effective file src /\ doc u (seen_lines src) [] bs /\
   ((forall n ls l, In (n, ls) bs -> In l ls -> at_line l -> exists ns, meta_line u l ns) ->
    forall n ls, In (n, ls) bs -> ls <> [] ->
    (exists m, In m (g_metas (gl_grammar L)) /\ ms_name m = n /\
       Forall2 (fun l refs => meta_line u l (map f_name refs)) ls (ms_rules m)) \/
    (exists s, In s (g_rules (gl_grammar L)) /\ rs_name s = n /\ Forall2 (rule_line atof) ls (rs_rules s))).
Proof.
  intros u atof file L Hu H. destruct (load_grammar_effective u atof file L H) as (src & E).
  pose proof (load_grammar_spec u atof file src Hu E) as S. rewrite H in S. cbv zeta in S.
  destruct S as (ms & rs & (bs & D & F & DF) & C & A & P & R & _). exists src, bs. split; auto. split; auto.
  intros G n ls I NE. destruct (defines_lines u atof bs ms rs Hu DF G n ls I NE) as [(m & I1 & E1 & F1)|(s & I1 & E1 & F1)].
  - left. assert (K : In (ms_name m, map (map f_name) (ms_rules m)) (plain (g_metas (gl_grammar L)))).
    { rewrite P. unfold plain. apply in_map_iff. exists m. auto. }
    unfold plain in K. apply in_map_iff in K. destruct K as (m' & K1 & K2). injection K1 as K3 K4.
    exists m'. split; auto. split; [congruence|]. eapply (map_f_name_Forall2 (meta_line u)); [symmetry; exact K4|auto].
  - right. exists s. rewrite R. auto.
Qed.

(** Final newline. *)
Lemma pieces_snoc : forall t, pieces (t ++ [10]) = pieces t ++ [[]].
Proof.
  induction t as [|c t IH]; [reflexivity|]. simpl. destruct (c =? 10); rewrite IH; [reflexivity|].
  pose proof (pieces_nonempty t). destruct (pieces t) as [|p ps]; [congruence|reflexivity].
Qed.
Lemma last_snoc : forall {A} (l : list A) x d, last (l ++ [x]) d = x.
Proof. intros. apply last_last. Qed.
Lemma seen_lines_snoc : forall t, seen_lines (t ++ [10]) = pieces t ++ [[]].
Proof. intros t. unfold seen_lines. rewrite pieces_snoc, last_snoc. reflexivity. Qed.
Lemma run_app : forall u atof a b s, run u atof (a ++ b) s = obind (run u atof a s) (run u atof b).
Proof.
  intros u atof a. induction a as [|l a IH]; intros b s; [reflexivity|]. simpl. destruct (load_line u atof s l); simpl; auto.
Qed.
Lemma header_twice : forall u atof s l n s', is_comment u l = false -> section_header u l = Some n ->
  load_line u atof s l = Ok s' -> load_line u atof s' l = Ok s'.
Proof.
  intros u atof s l n s' C H K. unfold load_line in *. rewrite C, H in *.
  assert (T : l_type (flush s) = UNKNWN) by (unfold flush; destruct (l_type s) eqn:E; auto).
  assert (G : match index_find (l_index (flush s)) n with
       | Some _ => Throw (s2t "Grammar-Duplicate-Section_Name")
       | None => Ok (mkLoad n (l_type (flush s)) (l_mrules (flush s)) (l_rules (flush s)) (l_metas (flush s)) (l_rsecs (flush s)) (l_index (flush s)))
       end = Ok s').
  { destruct (l_type s); destruct (l_sec s); try discriminate; exact K. }
  clear K. destruct (index_find (l_index (flush s)) n) eqn:I; [discriminate|]. injection G as <-.
  remember (flush s) as fs eqn:Efs. clear Efs. rewrite T. cbn [l_type l_sec].
  unfold flush. cbn [l_type l_index l_mrules l_rules l_metas l_rsecs]. rewrite I. reflexivity.
Qed.
Lemma final_newline : forall u atof file src, uni_ok u -> effective file src ->
  (comment_line u (last (pieces src) []) \/ exists n, header_line u (last (pieces src) []) n) ->
  load_grammar u atof (file ++ [10]) = load_grammar u atof file.
Proof.
  intros u atof file src Hu E H.
  assert (E' : effective (file ++ [10]) (src ++ [10])).
  { destruct E as [t E|d t E1 E2]; [|apply eff_bom; auto]. apply eff_plain. intros (t' & K). apply E.
    destruct t as [|c t]; [discriminate|]. simpl in K. injection K as K1 K2. subst. eexists. reflexivity. }
  unfold load_grammar. f_equal. rewrite (load_sections_effective u atof _ _ E), (load_sections_effective u atof _ _ E'). f_equal.
  rewrite seen_lines_snoc, run_app.
  assert (EQ : obind (run u atof (pieces src) load0) (run u atof [[]]) = run u atof (pieces src) load0).
  { destruct (run u atof (pieces src) load0); reflexivity. }
  rewrite EQ. clear EQ. unfold seen_lines. pose proof (pieces_nonempty src) as NE.
  destruct (last (pieces src) []) as [|c0 l0] eqn:EL; [reflexivity|]. rewrite <- EL in *. rewrite run_app.
  set (l := last (pieces src) []) in *.
  assert (SP : exists pre : list text, pieces src = pre ++ [l]).
  { exists (removelast (pieces src)). apply (app_removelast_last (@nil N) NE). }
  clearbody l. destruct SP as (pre & SP). rewrite SP, run_app.
  destruct (run u atof pre load0) as [s|m|]; simpl; auto.
  destruct (load_line u atof s l) as [s'|m|] eqn:EE; simpl; auto.
  assert (L2 : load_line u atof s' l = Ok s').
  { destruct (is_comment u l) eqn:C; [unfold load_line; rewrite C; reflexivity|].
    destruct H as [H|(n & H)]; [apply is_comment_spec in H; auto; congruence|].
    apply (header_twice u atof s l n s' C); auto. apply section_header_spec; auto. }
  rewrite L2. reflexivity.
Qed.

(** Byte order mark. *)
Lemma load_bom : forall u atof d t, d < 128 -> d <> 10 -> ~ has_bom t ->
  load_grammar u atof (0xFEFF :: d :: t) = load_grammar u atof t.
Proof.
  intros u atof d t H1 H2 H3. unfold load_grammar. f_equal.
  rewrite (load_sections_effective u atof _ t (eff_bom d t H1 H2)), (load_sections_effective u atof _ t (eff_plain t H3)). reflexivity.
Qed.

(** Rules. *)
Lemma parsed_rule : forall atof l r, rule_parse atof l = Ok r ->
  List.length (r_in r) = List.length (r_out r) /\ (r_score r <> S754_nan -> positive_score (r_score r)).
Proof.
  intros atof l r H. apply rule_parse_spec in H.
  destruct H as (ws & ins & outs & scs & sc & more & _ & _ & _ & _ & _ & _ & L & N & ->). simpl. rewrite !map_length.
  split; auto. intros K. apply checked_positive; auto.
Qed.
Lemma made_balanced : forall r, made r -> List.length (r_in r) = List.length (r_out r).
Proof.
  induction 1; simpl; auto.
  - destruct (parsed_rule _ _ _ H); auto.
  - rewrite !app_length. lia.
  - rewrite !app_length. simpl. lia.
Qed.
Definition nan_atof (t : text) : flt := if teqb t (s2t "nan") then S754_nan else sample_atof t.

(** Witnesses. *)
Lemma ascii_uni_upper : ascii_upper_ok ascii_uni.
Proof.
  intros c H. simpl. unfold a_space, c_isspace. destruct (N.eqb_spec c 32); [lia|]. simpl.
  destruct (N.leb_spec 9 c); simpl; auto. destruct (N.leb_spec c 13); auto. lia.
Qed.
Lemma half_prints : forall f, prints_score sample_atof (fun _ => s2t "0.5") f.
Proof.
  intros f. split; [discriminate|]. split; [|split; [discriminate|vm_compute; reflexivity]].
  apply Forall_forall. intros c H. vm_compute in H. unfold c_blank.
  destruct H as [<-|[<-|[<-|[]]]]; (split; [lia|discriminate]).
Qed.
Lemma junk_ignored : exists u atof file L bs, uni_ok u /\ load_grammar u atof file = Ok L /\
  effective file file /\ doc u (seen_lines file) [] bs /\
  exists n ls m, In (n, ls) bs /\ In m (g_metas (gl_grammar L)) /\ ms_name m = n /\ List.length (ms_rules m) <> List.length ls.
Proof.
  set (file := s2t junk_src). exists ascii_uni, sample_atof, file.
  destruct (load_grammar ascii_uni sample_atof file) as [L|e|] eqn:E; try (vm_compute in E; discriminate).
  destruct (doc_exists ascii_uni (seen_lines file) ascii_uni_ok) as (o & bs & D).
  assert (X : doc ascii_uni (seen_lines file) []
     [(s2t "ADDRESS", [s2t "@a"; s2t "@a, @a"]); (s2t "a", [s2t "WORD -> STREET -> 0.5"])]).
  { let v := eval vm_compute in (seen_lines file) in change (seen_lines file) with v.
    pose proof ascii_uni_ok as Hu.
    apply doc_header; [rewrite <- is_comment_spec by auto; vm_compute; discriminate|apply section_header_spec; auto; vm_compute; reflexivity|].
    apply (doc_data _ (s2t "@a")); [split; [rewrite <- is_comment_spec by auto; vm_compute; discriminate|intros n; apply header_None; auto; vm_compute; reflexivity]|].
    apply (doc_data _ (s2t "@a, @a")); [split; [rewrite <- is_comment_spec by auto; vm_compute; discriminate|intros n; apply header_None; auto; vm_compute; reflexivity]|].
    apply doc_header; [rewrite <- is_comment_spec by auto; vm_compute; discriminate|apply section_header_spec; auto; vm_compute; reflexivity|].
    apply (doc_data _ (s2t "WORD -> STREET -> 0.5")); [split; [rewrite <- is_comment_spec by auto; vm_compute; discriminate|intros n; apply header_None; auto; vm_compute; reflexivity]|].
    apply doc_comment; [apply is_comment_spec; auto; vm_compute; reflexivity|]. apply doc_nil. }
  exists L. eexists. split; [apply ascii_uni_ok|]. split; [reflexivity|]. split; [apply eff_plain; intros (t & K); vm_compute in K; discriminate|].
  split; [exact X|]. exists (s2t "ADDRESS"), [s2t "@a"; s2t "@a, @a"].
  vm_compute in E. injection E as <-. eexists. split; [left; reflexivity|]. split; [left; reflexivity|]. split; [reflexivity|].
  simpl. discriminate.
Qed.
Lemma last_line_twice : exists u atof file L L', uni_ok u /\ load_grammar u atof file = Ok L /\
  load_grammar u atof (file ++ [10]) = Ok L' /\ g_rules (gl_grammar L) <> g_rules (gl_grammar L').
Proof.
  exists ascii_uni, sample_atof, (s2t nofinal_src). do 2 eexists. split; [apply ascii_uni_ok|].
  split; [vm_compute; reflexivity|]. split; [vm_compute; reflexivity|]. vm_compute. discriminate.
Qed.
Lemma misspelled_accepted : exists u atof file L sec r, uni_ok u /\ load_grammar u atof file = Ok L /\
  In sec (g_rules (gl_grammar L)) /\ In r (rs_rules sec) /\
  rule_line atof (s2t "WROD -> STREET -> 0.5") r /\ In (s2t "WROD -> STREET -> 0.5") (pieces file) /\
  forall c, in_str c <> s2t "WROD".
Proof.
  exists ascii_uni, sample_atof, (s2t misspelled_src). do 3 eexists. split; [apply ascii_uni_ok|].
  split; [vm_compute; reflexivity|]. split; [left; reflexivity|]. split; [left; reflexivity|].
  split; [apply rule_parse_spec; vm_compute; reflexivity|]. split; [vm_compute; tauto|].
  intros []; vm_compute; discriminate.
Qed.
Lemma bom_rejected : exists u atof file L m, uni_ok u /\ load_grammar u atof file = Ok L /\
  load_grammar u atof (0xFEFF :: file) = Throw m.
Proof.
  exists ascii_uni, sample_atof, (s2t nofinal_src). do 2 eexists. split; [apply ascii_uni_ok|]. split; vm_compute; reflexivity.
Qed.
Lemma nan_rule : exists atof l r, rule_parse atof l = Ok r /\ ~ positive_score (r_score r).
Proof.
  exists nan_atof, (s2t "WORD -> STREET -> nan"). eexists. split; [vm_compute; reflexivity|]. simpl. auto.
Qed.
Lemma empty_section_lost : exists u atof fprint file L m, uni_ok u /\ ascii_upper_ok u /\ load_grammar u atof file = Ok L /\
  (forall s r, In s (g_rules (gl_grammar L)) -> In r (rs_rules s) -> prints_score atof fprint (r_score r)) /\
  load_grammar u atof (grammar_str fprint (gl_grammar L)) = Throw m.
Proof.
  exists ascii_uni, sample_atof, (fun _ => s2t "0.5"), (s2t hollow_src). do 2 eexists. split; [apply ascii_uni_ok|].
  split; [apply ascii_uni_upper|]. split; [vm_compute; reflexivity|]. split; [|vm_compute; reflexivity].
  intros s r _ _. apply half_prints.
Qed.
