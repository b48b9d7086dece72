(** Lemmas about lines inserted into the text of a grammar. *)
From Coq Require Import String List NArith ZArith Bool Lia.
From Verif Require Import Base_model Class_model Float_model Uni_model Token_model Rule_model Search_model Grammar_model Lexicon_model Tokenizer_model Archive_model Wrapper_model
  Search_spec Grammar_spec Loaded_spec Growth_spec Order_spec End_spec Alike_spec Wrapper_spec Insert_spec SearchTop_proofs GrammarLine_proofs GrammarLoad_proofs GrammarTop_proofs GrammarMore_proofs GrammarPrint_proofs End_proofs Growth_proofs Alike_proofs.
Import ListNotations.
Local Open Scope N_scope.

(** ** Lines *)
Lemma seen_line : forall (l : text) t, ~ In 10 l -> seen_lines (l ++ 10 :: t) = l :: seen_lines t.
Proof.
  intros l t H. apply seen_lines_cons. induction l as [|c l IH]; cbn [app span_to]; [reflexivity|].
  destruct (N.eqb_spec c 10) as [->|NE]; [exfalso; apply H; left; reflexivity|]. rewrite IH; [reflexivity|]. intros I. apply H. right. exact I.
Qed.
Lemma seen_app : forall n (a0 : text), (List.length a0 <= n)%nat -> exists L, forall t, seen_lines (a0 ++ 10 :: t) = L ++ seen_lines t.
Proof.
  induction n as [|n IH]; intros a0 H.
  - destruct a0; [|cbn in H; lia]. exists [[]]. intros t. apply (seen_line [] t). intros [].
  - pose proof (span_to_pieces a0) as P. destruct (span_to 10 a0) as [p [r|]] eqn:E.
    + assert (EA : a0 = p ++ 10 :: r /\ ~ In 10 p).
      { clear -E. revert p r E. induction a0 as [|c a IH]; intros p r E; cbn [span_to] in E; [discriminate|]. destruct (N.eqb_spec c 10) as [->|NE]; [injection E as <- <-; split; [reflexivity|intros []]|].
        destruct (span_to 10 a) as [p' [r'|]]; [|discriminate]. injection E as <- <-. destruct (IH p' r' eq_refl) as (-> & N'). split; [reflexivity|]. intros [->|I]; [apply NE; reflexivity|exact (N' I)]. }
      destruct EA as (-> & NP). destruct (IH r) as (L & HL); [destruct P as (_ & P); lia|]. exists (p :: L). intros t.
      rewrite <- app_assoc. cbn [app]. rewrite seen_line by exact NP. rewrite HL. reflexivity.
    + assert (NI : ~ In 10 a0).
      { clear -E. revert p E. induction a0 as [|c a IH]; intros p E; [intros []|]. cbn [span_to] in E. destruct (N.eqb_spec c 10) as [->|NE]; [discriminate|].
        destruct (span_to 10 a) as [p' [r'|]]; [discriminate|]. intros [->|I]; [apply NE; reflexivity|exact (IH p' eq_refl I)]. }
      exists [a0]. intros t. apply seen_line. exact NI.
Qed.
Lemma seen_front : forall a, (a = [] \/ exists a0, a = a0 ++ [10]) -> exists L, forall t, seen_lines (a ++ t) = L ++ seen_lines t.
Proof.
  intros a [->|(a0 & ->)]; [exists []; reflexivity|]. destruct (seen_app (List.length a0) a0 (le_n _)) as (L & H). exists L. intros t. rewrite <- app_assoc. apply H.
Qed.
(** ** Blocks *)
Definition spot (X Y : list text) (o : list text) (bs : list (text * list text)) (o' : list text) (bs' : list (text * list text)) : Prop :=
  (exists o1 o2, o = o1 ++ X ++ o2 /\ o' = o1 ++ Y ++ o2 /\ bs' = bs) \/
  (o' = o /\ exists B1 n o1 o2 B2, bs = B1 ++ (n, o1 ++ X ++ o2) :: B2 /\ bs' = B1 ++ (n, o1 ++ Y ++ o2) :: B2).
Lemma doc_at : forall u M M' X Y, (forall o bs, doc u M o bs -> exists o2, o = X ++ o2 /\ doc u M' (Y ++ o2) bs) ->
  forall L1 o bs, doc u (L1 ++ M) o bs -> exists o' bs', doc u (L1 ++ M') o' bs' /\ spot X Y o bs o' bs'.
Proof.
  intros u M M' X Y H. induction L1 as [|k L1 IH]; cbn [app]; intros o bs D.
  - destruct (H o bs D) as (o2 & -> & D'). exists (Y ++ o2), bs. split; [exact D'|]. left. exists [], o2. auto.
  - inversion D as [|l ls o1 bs1 C D1|l n ls o1 bs1 C Hd D1|l ls o1 bs1 Dt D1]; subst.
    + destruct (IH _ _ D1) as (o' & bs' & D' & S0). exists o', bs'. split; [constructor; assumption|exact S0].
    + destruct (IH _ _ D1) as (o' & bs' & D' & S0). exists [], ((n, o') :: bs'). split; [constructor; assumption|]. right. split; [reflexivity|].
      destruct S0 as [(p1 & p2 & -> & -> & ->)|(-> & B1 & m & p1 & p2 & B2 & -> & ->)].
      * exists [], n, p1, p2, bs1. auto.
      * exists ((n, o1) :: B1), m, p1, p2, B2. auto.
    + destruct (IH _ _ D1) as (o' & bs' & D' & S0). exists (k :: o'), bs'. split; [apply doc_data; assumption|].
      destruct S0 as [(p1 & p2 & -> & -> & ->)|(-> & B1 & m & p1 & p2 & B2 & -> & ->)].
      * left. exists (k :: p1), p2. auto.
      * right. split; [reflexivity|]. exists B1, m, p1, p2, B2. auto.
Qed.
Lemma fresh_spot : forall X Y n o1 o2 B2, (X = [] <-> Y = []) -> forall B1 seen, fresh seen (B1 ++ (n, o1 ++ X ++ o2) :: B2) -> fresh seen (B1 ++ (n, o1 ++ Y ++ o2) :: B2).
Proof.
  intros X Y n o1 o2 B2 E. induction B1 as [|(m, ls) B1 IH]; cbn [app]; intros seen F; inversion F as [|? ? ? ? NI F1]; subst.
  - constructor; [exact NI|]. destruct o1 as [|k o1]; [|exact F1]. cbn [app] in *. destruct X as [|x X].
    + rewrite (proj1 E eq_refl). exact F1.
    + destruct Y as [|y Y]; [discriminate (proj2 E eq_refl)|]. exact F1.
  - constructor; [exact NI|]. apply IH. exact F1.
Qed.
(** ** A larger grammar *)
Definition inc (ms : list metasection) (rs : list rulesection) (ms' : list metasection) (rs' : list rulesection) : Prop :=
  (forall m refs, In m ms -> In refs (ms_rules m) -> exists m', In m' ms' /\ ms_name m' = ms_name m /\ In refs (ms_rules m')) /\
  (forall s r, In s rs -> In r (rs_rules s) -> exists s', In s' rs' /\ rs_name s' = rs_name s /\ In r (rs_rules s')).
Lemma inc_refl : forall ms rs, inc ms rs ms rs.
Proof. intros ms rs. split; intros m refs I J; exists m; auto. Qed.
Lemma kept_more : forall u l o2 o1 r r', uni_ok u -> kept u (o1 ++ o2) r -> kept u (o1 ++ l :: o2) r' -> forall x, In x r -> In x r'.
Proof.
  intros u l o2. induction o1 as [|k o1 IH]; cbn [app]; intros r r' U K K' x I.
  - inversion K' as [|? ns ? ms M K1|? ? ms M K1]; subst; rewrite (kept_det _ _ _ U K _ K1) in I; [right|]; exact I.
  - inversion K as [|? ns ? ms M K1|? ? ms M K1]; subst; inversion K' as [|? ns' ? ms' M' K1'|? ? ms' M' K1']; subst.
    + destruct I as [<-|I]; [left|right; exact (IH _ _ U K1 K1' x I)]. rewrite <- (meta_rule_of_spec u k ns U M). symmetry. rewrite <- (meta_rule_of_spec u k ns' U M'). reflexivity.
    + exfalso. exact (M' _ M).
    + exfalso. exact (M _ M').
    + exact (IH _ _ U K1 K1' x I).
Qed.
Lemma rules_more : forall atof l o2 o1 r r', Forall2 (rule_line atof) (o1 ++ o2) r -> Forall2 (rule_line atof) (o1 ++ l :: o2) r' -> forall x, In x r -> In x r'.
Proof.
  intros atof l o2. induction o1 as [|k o1 IH]; cbn [app]; intros r r' K K' x I.
  - inversion K' as [|? y ? ys H1 H2]; subst. rewrite (rule_lines_det _ _ _ K _ H2) in I. right. exact I.
  - inversion K as [|? y ? ys H1 H2]; subst. inversion K' as [|? y' ? ys' H1' H2']; subst. destruct I as [<-|I]; [left|right; exact (IH _ _ H2 H2' x I)].
    apply rule_parse_spec in H1. apply rule_parse_spec in H1'. congruence.
Qed.
Lemma defines_more : forall u atof l n o1 o2 B2, uni_ok u -> forall B1 ms rs ms' rs', defines u atof (B1 ++ (n, o1 ++ o2) :: B2) ms rs -> defines u atof (B1 ++ (n, o1 ++ l :: o2) :: B2) ms' rs' -> inc ms rs ms' rs'.
Proof.
  intros u atof l n o1 o2 B2 U. induction B1 as [|(k, ls) B1 IH]; cbn [app]; intros ms rs ms' rs' D D'.
  - inversion D' as [|n1 bs1 ms1 rs1 H1|n1 ls1 rules1 bs1 ms1 rs1 Hn1 Ha1 Hk1 H1|n1 ls1 rules1 bs1 ms1 rs1 Hn1 Ha1 Hk1 H1]; subst.
    + exfalso. destruct o1; discriminate.
    + inversion D as [|n0 bs0 ms0 rs0 H0|n0 ls0 rules0 bs0 ms0 rs0 Hn0 Ha0 Hk0 H0|n0 ls0 rules0 bs0 ms0 rs0 Hn0 Ha0 Hk0 H0]; subst.
      * match goal with E : _ = o1 ++ o2 |- _ => idtac | E : o1 ++ o2 = _ |- _ => idtac | _ => idtac end.
        destruct (defines_det _ _ _ _ _ U H0 _ _ H1) as (-> & ->). split; intros m refs I J; exists m; cbn; auto.
      * destruct (defines_det _ _ _ _ _ U H0 _ _ H1) as (-> & ->). split.
        -- intros m refs [<-|I] J; [|exists m; cbn; auto]. exists (mkMeta n rules1). split; [left; reflexivity|]. split; [reflexivity|]. exact (kept_more u l o2 o1 _ _ U Hk0 Hk1 refs J).
        -- intros s r I J. exists s. auto.
      * exfalso. destruct (o1 ++ o2) as [|k w] eqn:E; [congruence|]. assert (I : In k (o1 ++ l :: o2)) by (assert (I : In k (o1 ++ o2)) by (rewrite E; left; reflexivity); apply in_app_iff in I; apply in_app_iff; cbn; tauto).
        rewrite Forall_forall in Ha1. inversion Ha0 as [|? ? N0 _]; subst. exact (N0 (Ha1 k I)).
    + inversion D as [|n0 bs0 ms0 rs0 H0|n0 ls0 rules0 bs0 ms0 rs0 Hn0 Ha0 Hk0 H0|n0 ls0 rules0 bs0 ms0 rs0 Hn0 Ha0 Hk0 H0]; subst.
      * destruct (defines_det _ _ _ _ _ U H0 _ _ H1) as (-> & ->). split; intros m refs I J; exists m; cbn; auto.
      * exfalso. destruct (o1 ++ o2) as [|k w] eqn:E; [congruence|]. assert (I : In k (o1 ++ l :: o2)) by (assert (I : In k (o1 ++ o2)) by (rewrite E; left; reflexivity); apply in_app_iff in I; apply in_app_iff; cbn; tauto).
        rewrite Forall_forall in Ha1. inversion Ha0 as [|? ? N0 _]; subst. exact (Ha1 k I N0).
      * destruct (defines_det _ _ _ _ _ U H0 _ _ H1) as (-> & ->). split.
        -- intros s r I J. exists s. auto.
        -- intros m refs [<-|I] J; [|exists m; cbn; auto]. exists (mkRules n rules1). split; [left; reflexivity|]. split; [reflexivity|]. exact (rules_more atof l o2 o1 _ _ Hk0 Hk1 refs J).
  - inversion D' as [|n1 bs1 ms1 rs1 H1|n1 ls1 rules1 bs1 ms1 rs1 Hn1 Ha1 Hk1 H1|n1 ls1 rules1 bs1 ms1 rs1 Hn1 Ha1 Hk1 H1]; subst;
    inversion D as [|n0 bs0 ms0 rs0 H0|n0 ls0 rules0 bs0 ms0 rs0 Hn0 Ha0 Hk0 H0|n0 ls0 rules0 bs0 ms0 rs0 Hn0 Ha0 Hk0 H0]; subst; try congruence; destruct (IH _ _ _ _ H0 H1) as (I1 & I2).
    + split; assumption.
    + rewrite (kept_det _ _ _ U Hk0 _ Hk1). split; [|exact I2]. intros m refs [<-|I] J; [eexists; split; [left; reflexivity|auto]|]. destruct (I1 m refs I J) as (m' & I' & Q). exists m'. split; [right; exact I'|exact Q].
    + exfalso. destruct ls; [congruence|]. inversion Ha0; inversion Ha1; contradiction.
    + exfalso. destruct ls; [congruence|]. inversion Ha0; inversion Ha1; contradiction.
    + rewrite (rule_lines_det _ _ _ Hk0 _ Hk1). split; [exact I1|]. intros m refs [<-|I] J; [eexists; split; [left; reflexivity|auto]|]. destruct (I2 m refs I J) as (m' & I' & Q). exists m'. split; [right; exact I'|exact Q].
Qed.
Lemma plain_in : forall G ms m refs, plain G = plain ms -> In m G -> In refs (ms_rules m) -> exists m0 refs0, In m0 ms /\ ms_name m0 = ms_name m /\ In refs0 (ms_rules m0) /\ map f_name refs0 = map f_name refs.
Proof.
  intros G ms m refs E I J. assert (K : In (ms_name m, map (map f_name) (ms_rules m)) (plain ms)) by (rewrite <- E; unfold plain; apply (in_map (fun m => (ms_name m, map (map f_name) (ms_rules m)))); exact I).
  unfold plain in K. apply in_map_iff in K. destruct K as (m0 & E0 & I0). injection E0 as E1 E2. assert (Q : In (map f_name refs) (map (map f_name) (ms_rules m0))) by (rewrite E2; apply in_map; exact J).
  apply in_map_iff in Q. destruct Q as (r0 & E3 & J0). exists m0, r0. auto.
Qed.
Lemma inc_contains : forall g g' ms ms', plain (g_metas g) = plain ms -> plain (g_metas g') = plain ms' -> inc ms (g_rules g) ms' (g_rules g') -> contains g' g.
Proof.
  intros g g' ms ms' E E' (I1 & I2). split; [|exact I2]. intros m refs I J. destruct (plain_in _ _ _ _ E I J) as (m0 & r0 & A & B & C & D).
  destruct (I1 m0 r0 A C) as (m1 & A1 & B1 & C1). destruct (plain_in _ _ _ _ (eq_sym E') A1 C1) as (m2 & r2 & A2 & B2 & C2 & D2). exists m2, r2. split; [exact A2|]. split; [congruence|]. split; [exact C2|congruence].
Qed.
Lemma comment_or_not : forall u l, uni_ok u -> comment_line u l \/ ~ comment_line u l.
Proof.
  intros u l U. destruct (is_comment u l) eqn:E; [left; apply is_comment_spec; assumption|right]. intros C. apply is_comment_spec in C; [congruence|exact U].
Qed.
Lemma no_mark : forall t s, ~ has_bom t -> effective t s -> s = t.
Proof. intros t s N E. destruct E as [t N'|d t]; [reflexivity|]. exfalso. apply N. eexists. reflexivity. Qed.
Lemma line_grows : forall u atof l gr gr' g g', uni_ok u -> with_line l gr gr' -> ~ has_bom gr -> ~ has_bom gr' -> (forall n, ~ header_line u l n) ->
  grammar_of u atof gr g -> grammar_of u atof gr' g' -> contains g' g.
Proof.
  intros u atof l gr gr' g g' U (NL & a & b & -> & -> & HA) NB NB' NH (src & ms & rs & E & (bs & D & F & DF) & _ & _ & P & R) (src' & ms' & rs' & E' & (bs' & D' & F' & DF') & _ & _ & P' & R').
  apply no_mark in E; [|exact NB]. apply no_mark in E'; [|exact NB']. subst src src' rs rs'. destruct (seen_front a HA) as (L & HL). rewrite HL in D, D'. rewrite seen_line in D' by exact NL.
  apply (inc_contains g g' ms ms' P P').
  destruct (comment_or_not u l U) as [C|NC].
  - destruct (doc_at u (seen_lines b) (l :: seen_lines b) [] []) with (L1 := L) (o := @nil text) (bs := bs) as (o2 & bs2 & D2 & S2); [|exact D|].
    { intros o0 bs0 D0. exists o0. split; [reflexivity|]. constructor; assumption. }
    destruct (doc_det u _ _ _ U D2 _ _ D') as (<- & ->). assert (bs2 = bs) as -> by (destruct S2 as [(p1 & p2 & _ & _ & ->)|(_ & B1 & m & p1 & p2 & B2 & -> & ->)]; reflexivity).
    destruct (defines_det _ _ _ _ _ U DF _ _ DF') as (-> & ->). apply inc_refl.
  - destruct (doc_at u (seen_lines b) (l :: seen_lines b) [] [l]) with (L1 := L) (o := @nil text) (bs := bs) as (o2 & bs2 & D2 & S2); [|exact D|].
    { intros o0 bs0 D0. exists o0. split; [reflexivity|]. apply doc_data; [split; assumption|assumption]. }
    destruct (doc_det u _ _ _ U D2 _ _ D') as (<- & ->). destruct S2 as [(p1 & p2 & _ & Q & _)|(_ & B1 & m & p1 & p2 & B2 & -> & ->)]; [destruct p1; discriminate|].
    exact (defines_more u atof l m p1 p2 B2 U B1 _ _ _ _ DF DF').
Qed.
(** ** A comment *)
Lemma comment_means : forall u atof l gr gr' ms rs, uni_ok u -> with_line l gr gr' -> comment_line u l -> means u atof gr ms rs -> means u atof gr' ms rs.
Proof.
  intros u atof l gr gr' ms rs U (NL & a & b & -> & -> & HA) C (bs & D & F & DF). destruct (seen_front a HA) as (L & HL). rewrite HL in D.
  destruct (doc_at u (seen_lines b) (l :: seen_lines b) [] []) with (L1 := L) (o := @nil text) (bs := bs) as (o2 & bs2 & D2 & S2); [|exact D|].
  { intros o0 bs0 D0. exists o0. split; [reflexivity|]. constructor; assumption. }
  assert (o2 = [] /\ bs2 = bs) as (-> & ->).
  { destruct S2 as [(p1 & p2 & Q & -> & ->)|(-> & B1 & m & p1 & p2 & B2 & -> & ->)]; [cbn [app] in *; auto|auto]. }
  exists bs. rewrite HL, seen_line by exact NL. auto.
Qed.
Lemma comment_same : forall u atof l gr gr' g, uni_ok u -> with_line l gr gr' -> ~ has_bom gr -> ~ has_bom gr' -> comment_line u l -> grammar_of u atof gr g -> grammar_of u atof gr' g.
Proof.
  intros u atof l gr gr' g U W NB NB' C (src & ms & rs & E & M & R). apply no_mark in E; [|exact NB]. subst src. exists gr', ms, rs. split; [constructor; exact NB'|]. split; [exact (comment_means u atof l gr gr' ms rs U W C M)|exact R].
Qed.
(** ** A line behind another *)
Lemma at_behind : forall u l0 l b, data_line u l0 -> data_line u l -> uni_ok u ->
  forall o bs, doc u (l0 :: seen_lines b) o bs -> exists o2, o = [l0] ++ o2 /\ doc u (l0 :: l :: seen_lines b) ([l0; l] ++ o2) bs.
Proof.
  intros u l0 l b D0 D1 U o bs D. inversion D as [|k ls o1 bs1 C D2|k n ls o1 bs1 C Hd D2|k ls o1 bs1 Dt D2]; subst.
  - exfalso. exact (proj1 D0 C).
  - exfalso. exact (proj2 D0 n Hd).
  - exists o1. split; [reflexivity|]. apply doc_data; [exact D0|]. apply doc_data; assumption.
Qed.
Lemma behind_mark : forall l0 l gr gr', with_line_behind l0 l gr gr' -> l0 <> [] -> ~ has_bom gr -> ~ has_bom gr'.
Proof.
  intros l0 l gr gr' (_ & _ & a & b & -> & -> & _) NE NB (t & E). apply NB. destruct a as [|c a]; cbn [app] in *.
  - destruct l0 as [|c l0]; [congruence|]. cbn [app] in *. injection E as -> E. eexists. reflexivity.
  - injection E as -> E. eexists. reflexivity.
Qed.
Lemma data_nonempty : forall u l, data_line u l -> l <> [].
Proof. intros u l (N & _) ->. apply N. exists [], []. split; [reflexivity|]. split; [constructor|left; reflexivity]. Qed.
Lemma behind_blocks : forall u l0 l gr gr', uni_ok u -> with_line_behind l0 l gr gr' -> data_line u l0 -> data_line u l ->
  forall bs, doc u (seen_lines gr) [] bs -> exists B1 n o1 o2 B2, bs = B1 ++ (n, o1 ++ [l0] ++ o2) :: B2 /\ doc u (seen_lines gr') [] (B1 ++ (n, o1 ++ [l0; l] ++ o2) :: B2).
Proof.
  intros u l0 l gr gr' U (N0 & N1 & a & b & -> & -> & HA) D0 D1 bs D. destruct (seen_front a HA) as (L & HL). rewrite HL, seen_line in D by exact N0.
  destruct (doc_at u _ _ [l0] [l0; l] (at_behind u l0 l b D0 D1 U) L [] bs D) as (o' & bs' & D' & [(p1 & p2 & Q & _)|(-> & B1 & n & o1 & o2 & B2 & -> & ->)]); [destruct p1; discriminate|].
  exists B1, n, o1, o2, B2. split; [reflexivity|]. rewrite HL, seen_line, seen_line by assumption. exact D'.
Qed.
Lemma at_meta : forall u l ns, meta_line u l ns -> at_line l.
Proof.
  intros u l ns (R & NE). destruct R as [t B|a n t ns B NN F R]; [congruence|]. unfold at_line. apply in_app_iff. right. left. reflexivity.
Qed.
Lemma behind_rule : forall u atof l0 l r0 r n o1 o2 B2, uni_ok u -> rule_line atof l0 r0 -> rule_line atof l r -> ~ at_line l0 -> ~ at_line l ->
  forall B1 ms rs, defines u atof (B1 ++ (n, o1 ++ [l0] ++ o2) :: B2) ms rs -> exists rs', defines u atof (B1 ++ (n, o1 ++ [l0; l] ++ o2) :: B2) ms rs' /\
    one_changed (fun s s' => rs_name s' = rs_name s /\ behind r0 r (rs_rules s) (rs_rules s')) rs rs'.
Proof.
  intros u atof l0 l r0 r n o1 o2 B2 U R0 R A0 A1. induction B1 as [|(k, ls) B1 IH]; cbn [app]; intros ms rs D;
    inversion D as [|n0 bs0 ms0 rs0 H0|n0 ls0 rules0 bs0 ms0 rs0 Hn0 Ha0 Hk0 H0|n0 ls0 rules0 bs0 ms0 rs0 Hn0 Ha0 Hk0 H0]; subst.
  - exfalso. destruct o1; discriminate.
  - exfalso. rewrite Forall_forall in Ha0. apply A0. apply Ha0. apply in_app_iff. right. left. reflexivity.
  - apply Forall2_app_inv_l in Hk0. destruct Hk0 as (q1 & q2 & K1 & K2 & ->). cbn [app] in K2. inversion K2 as [|? y ? ys K3 K4]; subst.
    assert (y = r0) by (apply rule_parse_spec in K3; apply rule_parse_spec in R0; congruence). subst y.
    exists (mkRules n (q1 ++ r0 :: r :: ys) :: rs0). split.
    + constructor; [destruct o1; discriminate| |apply Forall2_app; [exact K1|]; cbn [app]; constructor; [exact R0|]; constructor; assumption|exact H0].
      apply Forall_app in Ha0. destruct Ha0 as (F1 & F2). apply Forall_app. split; [exact F1|]. cbn [app] in *. inversion F2; subst. repeat constructor; assumption.
    + exists [], (mkRules n (q1 ++ r0 :: ys)), (mkRules n (q1 ++ r0 :: r :: ys)), rs0. split; [reflexivity|]. split; [reflexivity|]. split; [reflexivity|]. exists q1, ys. auto.
  - destruct (IH _ _ H0) as (rs' & D' & C). exists rs'. split; [constructor; exact D'|exact C].
  - destruct (IH _ _ H0) as (rs' & D' & C). exists rs'. split; [constructor; assumption|exact C].
  - destruct (IH _ _ H0) as (rs' & D' & (L1 & s & s' & L2 & -> & -> & C)). exists (mkRules k rules0 :: L1 ++ s' :: L2). split; [constructor; assumption|]. exists (mkRules k rules0 :: L1), s, s', L2. auto.
Qed.
Lemma changed_names : forall (Q : rulesection -> rulesection -> Prop) rs rs', one_changed (fun s s' => rs_name s' = rs_name s /\ Q s s') rs rs' -> map rs_name rs' = map rs_name rs.
Proof. intros Q rs rs' (L1 & s & s' & L2 & -> & -> & E & _). rewrite !map_app. cbn [map]. rewrite E. reflexivity. Qed.
Lemma rule_accepted : forall u atof l0 l r0 r gr gr' g, uni_ok u -> with_line_behind l0 l gr gr' -> ~ has_bom gr -> data_line u l0 -> data_line u l -> ~ at_line l0 -> ~ at_line l ->
  rule_line atof l0 r0 -> rule_line atof l r -> grammar_of u atof gr g ->
  exists g', grammar_of u atof gr' g' /\ plain (g_metas g') = plain (g_metas g) /\
    one_changed (fun s s' => rs_name s' = rs_name s /\ behind r0 r (rs_rules s) (rs_rules s')) (g_rules g) (g_rules g').
Proof.
  intros u atof l0 l r0 r gr gr' g U W NB D0 D1 A0 A1 R0 R1 (src & ms & rs & E & (bs & D & F & DF) & CL & AD & P & R). apply no_mark in E; [|exact NB]. subst src rs.
  destruct (behind_blocks u l0 l gr gr' U W D0 D1 bs D) as (B1 & n & o1 & o2 & B2 & -> & D').
  destruct (behind_rule u atof l0 l r0 r n o1 o2 B2 U R0 R1 A0 A1 B1 ms _ DF) as (rs' & DF' & C).
  assert (NM : names_of ms rs' = names_of ms (g_rules g)) by (unfold names_of; rewrite (changed_names _ _ _ C); reflexivity).
  exists (mkGrammar (g_metas g) rs' []). split; [|split; [reflexivity|exact C]].
  exists gr', ms, rs'. split; [constructor; exact (behind_mark l0 l gr gr' W (data_nonempty u l0 D0) NB)|]. split.
  - exists (B1 ++ (n, o1 ++ [l0; l] ++ o2) :: B2). split; [exact D'|]. split; [|exact DF']. apply (fresh_spot [l0] [l0; l]); [split; discriminate|exact F].
  - split; [intros x X; rewrite NM; exact (CL x X)|]. split; [rewrite NM; exact AD|]. auto.
Qed.
Lemma kept_split : forall u l0 ns0 l ns o2, uni_ok u -> meta_line u l0 ns0 -> meta_line u l ns -> forall o1 rules, kept u (o1 ++ l0 :: o2) rules ->
  exists q1 q2, rules = q1 ++ map new_ref ns0 :: q2 /\ kept u (o1 ++ l0 :: l :: o2) (q1 ++ map new_ref ns0 :: map new_ref ns :: q2).
Proof.
  intros u l0 ns0 l ns o2 U M0 M1. induction o1 as [|k o1 IH]; cbn [app]; intros rules K; inversion K as [|? ns' ? ms' M K1|? ? ms' M K1]; subst.
  - exists [], ms'. cbn [app]. assert (EN : map new_ref ns' = map new_ref ns0) by (rewrite <- (meta_rule_of_spec u l0 ns' U M); symmetry; rewrite <- (meta_rule_of_spec u l0 ns0 U M0); reflexivity).
    rewrite EN. split; [reflexivity|]. constructor; [exact M0|]. constructor; assumption.
  - exfalso. exact (M _ M0).
  - destruct (IH _ K1) as (q1 & q2 & -> & K'). exists (map new_ref ns' :: q1), q2. split; [reflexivity|]. cbn [app]. constructor; assumption.
  - destruct (IH _ K1) as (q1 & q2 & -> & K'). exists q1, q2. split; [reflexivity|]. apply k_skip; assumption.
Qed.
Lemma names_new : forall ns, map f_name (map new_ref ns) = ns.
Proof. induction ns as [|n ns IH]; cbn; [reflexivity|]. rewrite IH. reflexivity. Qed.
Lemma behind_meta : forall u atof l0 l ns0 ns n o1 o2 B2, uni_ok u -> meta_line u l0 ns0 -> meta_line u l ns ->
  forall B1 ms rs, defines u atof (B1 ++ (n, o1 ++ [l0] ++ o2) :: B2) ms rs -> exists ms', defines u atof (B1 ++ (n, o1 ++ [l0; l] ++ o2) :: B2) ms' rs /\
    one_changed (fun s s' => ms_name s' = ms_name s /\ behind (map new_ref ns0) (map new_ref ns) (ms_rules s) (ms_rules s')) ms ms'.
Proof.
  intros u atof l0 l ns0 ns n o1 o2 B2 U R0 R. assert (A0 := at_meta _ _ _ R0). assert (A1 := at_meta _ _ _ R). induction B1 as [|(k, ls) B1 IH]; cbn [app]; intros ms rs D;
    inversion D as [|n0 bs0 ms0 rs0 H0|n0 ls0 rules0 bs0 ms0 rs0 Hn0 Ha0 Hk0 H0|n0 ls0 rules0 bs0 ms0 rs0 Hn0 Ha0 Hk0 H0]; subst.
  - exfalso. destruct o1; discriminate.
  - destruct (kept_split u l0 ns0 l ns o2 U R0 R o1 rules0 Hk0) as (q1 & q2 & -> & K').
    exists (mkMeta n (q1 ++ map new_ref ns0 :: map new_ref ns :: q2) :: ms0). split.
    + constructor; [destruct o1; discriminate| |exact K'|exact H0].
      apply Forall_app in Ha0. destruct Ha0 as (F1 & F2). apply Forall_app. split; [exact F1|]. cbn [app] in *. inversion F2; subst. repeat constructor; assumption.
    + eexists [], _, _, ms0. split; [reflexivity|]. split; [reflexivity|]. split; [reflexivity|]. exists q1, q2. auto.
  - exfalso. rewrite Forall_forall in Ha0. apply (Ha0 l0); [|exact A0]. apply in_app_iff. right. left. reflexivity.
  - destruct (IH _ _ H0) as (rs' & D' & C). exists rs'. split; [constructor; exact D'|exact C].
  - destruct (IH _ _ H0) as (ms' & D' & (L1 & s & s' & L2 & -> & -> & C)). exists (mkMeta k rules0 :: L1 ++ s' :: L2). split; [constructor; assumption|]. exists (mkMeta k rules0 :: L1), s, s', L2. auto.
  - destruct (IH _ _ H0) as (rs' & D' & C). exists rs'. split; [apply df_rule; assumption|exact C].
Qed.
Lemma meta_data : forall u l ns, uni_ok u -> meta_line u l ns -> data_line u l.
Proof.
  intros u l ns U (R & NE). destruct R as [t B|a n t ns B NN F R]; [congruence|]. clear NE R NN.
  assert (G : forall x p q (y : N), a ++ 64 :: n ++ t = p ++ q -> blanks u p -> q = y :: x -> u_space u y = false -> y = 64).
  { intros x p q y E P -> SY. clear -E P B SY U. revert p E P. induction a as [|c a IH]; intros p E P; cbn [app] in E.
    - destruct p as [|d p]; cbn [app] in E; [congruence|]. injection E as <- E. inversion P as [|? ? P1 P2]; subst. rewrite (uo_at u U) in P1. discriminate.
    - inversion B as [|? ? B1 B2]; subst. destruct p as [|d p]; cbn [app] in E; [injection E as <- E; congruence|]. injection E as <- E. inversion P; subst. apply (IH B2 p E); assumption. }
  split.
  - intros (p & q & E & P & [->|(q' & ->)]).
    + rewrite app_nil_r in E. rewrite <- E in P. unfold blanks in P. apply Forall_app in P. destruct P as (_ & P). inversion P as [|? ? P1 P2]; subst. rewrite (uo_at u U) in P1. discriminate.
    + assert (H := G q' p (35 :: q') 35 E P eq_refl (uo_hash u U)). discriminate H.
  - intros m (p & q & E & P & Q & _). assert (H := G _ p (91 :: m ++ 93 :: q) 91 E P eq_refl (uo_lbrack u U)). discriminate H.
Qed.
Lemma plain_names : forall ms ms', plain ms = plain ms' -> map ms_name ms = map ms_name ms'.
Proof. intros ms ms' E. assert (H := f_equal (map fst) E). unfold plain in H. rewrite !map_map in H. exact H. Qed.
Lemma meta_accepted : forall u atof l0 l ns0 ns gr gr' g, uni_ok u -> with_line_behind l0 l gr gr' -> ~ has_bom gr ->
  meta_line u l0 ns0 -> meta_line u l ns -> Forall (fun n => In n (section_names g)) ns -> grammar_of u atof gr g ->
  exists g', grammar_of u atof gr' g' /\ g_rules g' = g_rules g /\
    one_changed (fun s s' => fst s' = fst s /\ behind ns0 ns (snd s) (snd s')) (plain (g_metas g)) (plain (g_metas g')).
Proof.
  intros u atof l0 l ns0 ns gr gr' g U W NB M0 M1 IN (src & ms & rs & E & (bs & D & F & DF) & CL & AD & P & R). apply no_mark in E; [|exact NB]. subst src rs.
  destruct (behind_blocks u l0 l gr gr' U W (meta_data u l0 ns0 U M0) (meta_data u l ns U M1) bs D) as (B1 & n & o1 & o2 & B2 & -> & D').
  destruct (behind_meta u atof l0 l ns0 ns n o1 o2 B2 U M0 M1 B1 ms _ DF) as (ms' & DF' & C).
  assert (NM : map ms_name ms' = map ms_name ms).
  { destruct C as (L1 & s & s' & L2 & -> & -> & EQ & _). rewrite !map_app. cbn [map]. rewrite EQ. reflexivity. }
  assert (NO : names_of ms' (g_rules g) = names_of ms (g_rules g)) by (unfold names_of; rewrite NM; reflexivity).
  exists (mkGrammar ms' (g_rules g) []). split.
  - exists gr', ms', (g_rules g). split; [constructor; exact (behind_mark l0 l gr gr' W (data_nonempty u l0 (meta_data u l0 ns0 U M0)) NB)|]. split.
    { exists (B1 ++ (n, o1 ++ [l0; l] ++ o2) :: B2). split; [exact D'|]. split; [|exact DF']. apply (fresh_spot [l0] [l0; l]); [split; discriminate|exact F]. }
    split; [|split; [rewrite NO; exact AD|auto]].
    intros x (m & refs & f & I1 & I2 & I3 & I4). rewrite NO. destruct C as (L1 & s & s' & L2 & -> & -> & EQ & (q1 & q2 & Q1 & Q2)).
    apply in_app_iff in I1. destruct I1 as [I1|[<-|I1]].
    + apply CL. exists m, refs, f. split; [apply in_app_iff; left; exact I1|auto].
    + rewrite Q2 in I2. apply in_app_iff in I2. cbn [In] in I2.
      assert (K : In refs (ms_rules s) \/ refs = map new_ref ns) by (rewrite Q1, in_app_iff; cbn [In]; intuition congruence).
      destruct K as [K| ->]; [apply CL; exists s, refs, f; split; [apply in_app_iff; right; left; reflexivity|auto]|].
      apply in_map_iff in I3. destruct I3 as (y & <- & I3). cbn [new_ref f_name] in I4. subst y. rewrite Forall_forall in IN. specialize (IN x I3). unfold section_names in IN. unfold names_of.
      rewrite (plain_names _ _ P) in IN. exact IN.
    + apply CL. exists m, refs, f. split; [apply in_app_iff; right; right; exact I1|auto].
  - split; [reflexivity|]. cbn [g_metas]. rewrite P. destruct C as (L1 & s & s' & L2 & -> & -> & EQ & (q1 & q2 & Q1 & Q2)).
    exists (plain L1), (ms_name s, map (map f_name) (ms_rules s)), (ms_name s', map (map f_name) (ms_rules s')), (plain L2). split; [unfold plain; rewrite map_app; reflexivity|]. split; [unfold plain; rewrite map_app; reflexivity|].
    cbn [fst snd]. split; [exact EQ|]. exists (map (map f_name) q1), (map (map f_name) q2). rewrite Q1, Q2, !map_app. cbn [map]. rewrite !names_new. auto.
Qed.
Lemma reached_self : forall u atof gr g n, grammar_of u atof gr g -> reached g ADDRESS n -> same_lines (fun x => x) g g n.
Proof.
  intros u atof gr g n (src & ms & rs & _ & _ & CL & AD & P & R) H. subst rs. assert (K : In n (names_of (g_metas g) (g_rules g))).
  { unfold names_of. rewrite (plain_names _ _ P). destruct H as [|m refs x _ I J X]; [exact AD|]. apply CL. destruct (plain_in _ _ _ _ P I J) as (m0 & r0 & I0 & _ & J0 & E0).
    unfold ref_names in X. rewrite <- E0 in X. apply in_map_iff in X. destruct X as (f & EF & IF). exists m0, r0, f. auto. }
  unfold names_of in K. apply in_app_iff in K. destruct K as [K|K]; apply in_map_iff in K; destruct K as (m & E & I).
  - left. exists m, m. rewrite (map_ext (map (fun x : text => x)) (fun x => x)) by apply map_id. rewrite map_id. auto 10.
  - right. exists m, m. auto 10.
Qed.
(** ** From the arguments *)
Section Calls.
Variable e : env.
Variable atof : text -> flt.
Hypothesis U : uni_ok (e_uni e).
Lemma call_grows : forall l gr gr' g g', with_line l gr gr' -> ~ has_bom gr -> ~ has_bom gr' -> (forall n, ~ header_line (e_uni e) l n) ->
  get_grammar e atof gr = Ok g -> get_grammar e atof gr' = Ok g' -> contains g' g.
Proof.
  intros l gr gr' g g' W NB NB' NH G G'. apply (line_grows (e_uni e) atof l gr gr'); try assumption; apply grammar_loads; assumption.
Qed.
Lemma call_standardized : forall l gr gr' g' address lx locale filt r, with_line l gr gr' -> ~ has_bom gr -> ~ has_bom gr' -> (forall n, ~ header_line (e_uni e) l n) ->
  get_grammar e atof gr' = Ok g' -> no_nan_scores g' ->
  (forall x phs, get_lexicon e lx = Ok x -> make_phrases e x locale filt address = Ok phs -> Forall (sizes_ok g') phs /\ Forall (fun ph => (combinations ph <= 2 ^ 32)%N) phs) ->
  std_standardize e atof address gr lx locale filt = Ok (Some r) -> exists r', std_standardize e atof address gr' lx locale filt = Ok (Some r').
Proof.
  intros l gr gr' g' address lx locale filt r W NB NB' NH G' NN H S0. unfold std_standardize in *. rewrite G'. destruct (get_grammar e atof gr) as [g| |] eqn:G; try discriminate S0. cbn [obind] in *.
  destruct (get_lexicon e lx) as [x| |] eqn:X; try discriminate S0. cbn [obind] in *. destruct (make_phrases e x locale filt address) as [phs| |] eqn:P.
  - destruct (H x phs eq_refl P) as (H1 & H2). apply (contained_standardized e g g' x locale filt address phs r); try assumption; [exact (proj2 (grammar_loads e atof gr g U G))|exact (proj2 (grammar_loads e atof gr' g' U G'))|].
    exact (call_grows l gr gr' g g' W NB NB' NH G G').
  - unfold standardize_addr in S0. rewrite P in S0. discriminate S0.
  - unfold standardize_addr in S0. rewrite P in S0. discriminate S0.
Qed.
Lemma call_rows : forall sort l gr gr' g' address lx locale filt out row, with_line l gr gr' -> ~ has_bom gr -> ~ has_bom gr' -> (forall n, ~ header_line (e_uni e) l n) ->
  get_grammar e atof gr' = Ok g' -> (forall x phs, get_lexicon e lx = Ok x -> make_phrases e x locale filt address = Ok phs -> Forall (fun ph => (combinations ph <= 2 ^ 32)%N) phs /\
     forall g rows, get_grammar e atof gr = Ok g -> search_all g phs = Ok rows \/ search_all g' phs = Ok rows -> sorted_rows rows (sort rows)) ->
  std_match_address e atof sort address gr lx locale filt = Ok out -> In row out ->
  out = [mkMR (s2t "Failed to match to grammar!"%string) f64_m1 f64_m1] \/ exists out', std_match_address e atof sort address gr' lx locale filt = Ok out' /\ In row out'.
Proof.
  intros sort l gr gr' g' address lx locale filt out row W NB NB' NH G' H S0 I. unfold std_match_address in *. rewrite G'. destruct (get_grammar e atof gr) as [g| |] eqn:G; try discriminate S0. cbn [obind] in *.
  destruct (get_lexicon e lx) as [x| |] eqn:X; try discriminate S0. cbn [obind] in *. destruct (make_phrases e x locale filt address) as [phs| |] eqn:P.
  - apply (contained_rows e sort g g' x locale filt address phs out row); try assumption; [exact (proj2 (grammar_loads e atof gr g U G))|exact (proj2 (grammar_loads e atof gr' g' U G'))| |exact (proj1 (H x phs eq_refl P))|intros rows Q; exact (proj2 (H x phs eq_refl P) g rows eq_refl Q)].
    exact (call_grows l gr gr' g g' W NB NB' NH G G').
  - unfold match_addr in S0. rewrite P in S0. discriminate S0.
  - unfold match_addr in S0. rewrite P in S0. discriminate S0.
Qed.
Lemma call_comment : forall sort l gr gr' g address lx locale filt, with_line l gr gr' -> ~ has_bom gr -> ~ has_bom gr' -> comment_line (e_uni e) l ->
  get_grammar e atof gr = Ok g ->
  std_standardize e atof address gr' lx locale filt = std_standardize e atof address gr lx locale filt /\
  std_match_address e atof sort address gr' lx locale filt = std_match_address e atof sort address gr lx locale filt.
Proof.
  intros sort l gr gr' g address lx locale filt W NB NB' C G. destruct (grammar_loads e atof gr g U G) as (GO & _). assert (GO' := comment_same (e_uni e) atof l gr gr' g U W NB NB' C GO).
  apply (calls_reached e atof sort (fun n => n) address gr' gr g g lx locale filt U GO' GO eq_refl). intros n R. exact (reached_self _ _ _ _ _ GO R).
Qed.
Lemma call_rule : forall l0 l r0 r gr gr' g, with_line_behind l0 l gr gr' -> ~ has_bom gr -> data_line (e_uni e) l0 -> data_line (e_uni e) l -> ~ at_line l0 -> ~ at_line l ->
  rule_line atof l0 r0 -> rule_line atof l r -> get_grammar e atof gr = Ok g ->
  exists g', get_grammar e atof gr' = Ok g' /\ plain (g_metas g') = plain (g_metas g) /\
    one_changed (fun s s' => rs_name s' = rs_name s /\ behind r0 r (rs_rules s) (rs_rules s')) (g_rules g) (g_rules g').
Proof.
  intros l0 l r0 r gr gr' g W NB D0 D1 A0 A1 R0 R1 G. destruct (rule_accepted (e_uni e) atof l0 l r0 r gr gr' g U W NB D0 D1 A0 A1 R0 R1 (proj1 (grammar_loads e atof gr g U G))) as (g' & GO & P & C).
  destruct (grammar_exists e atof gr' g' U GO) as (h & E & (H1 & H2)). exists h. split; [exact E|]. split; [congruence|]. rewrite <- H2. exact C.
Qed.
Lemma call_meta : forall l0 l ns0 ns gr gr' g, with_line_behind l0 l gr gr' -> ~ has_bom gr ->
  meta_line (e_uni e) l0 ns0 -> meta_line (e_uni e) l ns -> Forall (fun n => In n (section_names g)) ns -> get_grammar e atof gr = Ok g ->
  exists g', get_grammar e atof gr' = Ok g' /\ g_rules g' = g_rules g /\
    one_changed (fun s s' => fst s' = fst s /\ behind ns0 ns (snd s) (snd s')) (plain (g_metas g)) (plain (g_metas g')).
Proof.
  intros l0 l ns0 ns gr gr' g W NB M0 M1 IN G. destruct (meta_accepted (e_uni e) atof l0 l ns0 ns gr gr' g U W NB M0 M1 IN (proj1 (grammar_loads e atof gr g U G))) as (g' & GO & P & C).
  destruct (grammar_exists e atof gr' g' U GO) as (h & E & (H1 & H2)). exists h. split; [exact E|]. split; [congruence|]. rewrite <- H1. exact C.
Qed.
End Calls.
