(** Printing a grammar and loading the text again. *)
From Coq Require Import String List NArith ZArith Bool Lia.
From Verif Require Import Base_model Class_model Float_model Uni_model Token_model Rule_model Search_model Grammar_model
  Search_spec Grammar_spec Search_proofs SearchTop_proofs Pattern_proofs
  GrammarLine_proofs GrammarLoad_proofs GrammarLink_proofs GrammarTop_proofs.
Import ListNotations.
Local Open Scope N_scope.

Definition unlines (ls : list text) : text := List.concat (map (fun l => l ++ [10]) ls).

Lemma pieces_line : forall (l : text) t, ~ In 10 l -> pieces (l ++ 10 :: t) = l :: pieces t.
Proof.
  induction l as [|c l IH]; intros t H.
  - reflexivity.
  - simpl. destruct (c =? 10) eqn:E. { apply N.eqb_eq in E. exfalso. apply H. left. auto. }
    rewrite IH by (intro; apply H; right; auto). reflexivity.
Qed.

Lemma pieces_unlines : forall ls, Forall (fun l => ~ In 10 l) ls -> pieces (unlines ls) = ls ++ [[]].
Proof.
  induction 1; [reflexivity|]. unfold unlines in *. simpl. rewrite <- app_assoc. simpl.
  rewrite pieces_line by auto. rewrite IHForall. reflexivity.
Qed.

Lemma seen_unlines : forall ls, Forall (fun l => ~ In 10 l) ls -> seen_lines (unlines ls) = ls ++ [[]].
Proof.
  intros ls H. unfold seen_lines. rewrite pieces_unlines by exact H. rewrite last_last. reflexivity.
Qed.

Lemma unlines_app : forall a b, unlines (a ++ b) = unlines a ++ unlines b.
Proof. intros. unfold unlines. rewrite map_app, concat_app. reflexivity. Qed.

Lemma pieces_no_lf : forall t, Forall (fun l => ~ In 10 l) (pieces t).
Proof.
  induction t as [|c t IH]; simpl.
  - constructor; auto.
  - destruct (c =? 10) eqn:E.
    + constructor; auto.
    + apply N.eqb_neq in E. destruct (pieces t) as [|p ps].
      * constructor; auto. simpl. intros [K|[]]; auto.
      * inversion IH; subst. constructor; auto. intros [K|K]; auto.
Qed.

Lemma seen_no_lf : forall t, Forall (fun l => ~ In 10 l) (seen_lines t).
Proof.
  intros t. unfold seen_lines. pose proof (pieces_no_lf t) as H.
  destruct (last (pieces t) []) as [|c l] eqn:E; auto.
  apply Forall_app. split; auto. constructor; auto. rewrite <- E.
  rewrite Forall_forall in H. apply H.
  destruct (@exists_last _ (pieces t) (pieces_nonempty t)) as (a & x & Ex). rewrite Ex, last_last.
  apply in_or_app. right. left. reflexivity.
Qed.

(** Names of a loaded grammar contain no line feed. *)
Lemma doc_names_no_lf : forall u ls o bs, doc u ls o bs -> Forall (fun l => ~ In 10 l) ls ->
  Forall (fun b => ~ In 10 (fst b)) bs.
Proof.
  induction 1 as [|l ls o bs Hc Hd IH|l n ls o bs Hnc Hh Hd IH|l ls o bs Hl Hd IH]; intros F; auto;
    inversion F as [|x y Hx Hy]; subst; auto.
  constructor; auto. simpl. intro K. apply Hx. destruct Hh as (a & b & -> & _).
  apply in_or_app. right. right. apply in_or_app. left. exact K.
Qed.
Lemma doc_names_nonnil : forall u ls o bs, doc u ls o bs -> Forall (fun b => fst b <> []) bs.
Proof.
  induction 1 as [|l ls o bs Hc Hd IH|l n ls o bs Hnc Hh Hd IH|l ls o bs Hl Hd IH]; auto.
  constructor; auto. simpl. destruct Hh as (a & b & _ & _ & _ & K). exact K.
Qed.
Lemma defines_names : forall u atof bs ms rs, defines u atof bs ms rs -> forall n,
  In n (names_of ms rs) -> exists d, In (n, d) bs.
Proof.
  induction 1 as [|n bs ms rs H IH|n ls rules bs ms rs Hn Ha Hk H IH|n ls rules bs ms rs Hn Ha H1 H IH];
    intros m K; unfold names_of in *; simpl in *.
  - contradiction.
  - destruct (IH m K) as (d & D). eauto.
  - destruct K as [<-|K]; eauto. destruct (IH m K) as (d & D). eauto.
  - rewrite in_app_iff in K. simpl in K.
    assert (K' : m = n \/ In m (map ms_name ms ++ map rs_name rs)).
    { destruct K as [K|[K|K]]; auto; right; apply in_or_app; auto. }
    destruct K' as [->|K']; eauto. destruct (IH m K') as (d & D). eauto.
Qed.

Lemma means_names : forall u atof src ms rs, means u atof src ms rs -> forall n,
  In n (names_of ms rs) -> ~ In 10 n /\ n <> [].
Proof.
  intros u atof src ms rs (bs & D & _ & H) n K. destruct (defines_names _ _ _ _ _ H n K) as (d & Kd).
  pose proof (doc_names_no_lf _ _ _ _ D (seen_no_lf src)) as F1. pose proof (doc_names_nonnil _ _ _ _ D) as F2.
  rewrite Forall_forall in F1, F2. split; [apply (F1 _ Kd)|apply (F2 _ Kd)].
Qed.

(** References of a loaded grammar are identifiers. *)
Definition ident (u : uni) (n : text) : Prop := n <> [] /\ Forall (ident_char u) n.
Lemma refs_line_ident : forall u t ns, refs_line u t ns -> Forall (ident u) ns.
Proof. induction 1; auto. constructor; auto. split; auto. Qed.
Lemma kept_ident : forall u d rules, kept u d rules -> Forall (fun r => r <> [] /\ Forall (fun x => ident u (f_name x)) r) rules.
Proof.
  induction 1 as [|l ns ls ms (H1 & H2) Hk IH|]; auto. constructor; auto. split.
  - destruct ns; [congruence|discriminate].
  - apply Forall_map. exact (refs_line_ident _ _ _ H1).
Qed.
Definition plain_ident (u : uni) (p : list (text * list (list text))) : Prop :=
  Forall (fun m => Forall (fun r => r <> [] /\ Forall (ident u) r) (snd m)) p.
Lemma defines_ident : forall u atof bs ms rs, defines u atof bs ms rs -> plain_ident u (plain ms).
Proof.
  unfold plain_ident.
  induction 1 as [|n bs ms rs H IH|n ls rules bs ms rs Hn Ha Hk H IH|n ls rules bs ms rs Hn Ha H1 H IH]; simpl; auto.
  constructor; auto. simpl. apply Forall_map. pose proof (kept_ident _ _ _ Hk) as K.
  revert K. apply Forall_impl. intros r (K1 & K2). split.
  - destruct r; [congruence|discriminate].
  - apply Forall_map. exact K2.
Qed.

(** Lines of the printed form. *)
Definition hdr (n : text) : text := [91] ++ n ++ [93].
Definition meta_text (ns : list text) : text := join [32] (map (fun n => 64 :: n) ns).
Definition meta_lines (p : text * list (list text)) : list text := hdr (fst p) :: map meta_text (snd p) ++ [[]].
Definition rule_lines (fprint : flt -> text) (s : rulesection) : list text :=
  hdr (rs_name s) :: map (rule_str fprint) (rs_rules s) ++ [[]].

Lemma metarule_str_plain : forall r, metarule_str r = meta_text (map f_name r).
Proof. intros. unfold metarule_str, meta_text. rewrite map_map. reflexivity. Qed.

Lemma metasection_unlines : forall m,
  metasection_str m ++ [LF] = unlines (meta_lines (ms_name m, map (map f_name) (ms_rules m))).
Proof.
  intros m. unfold metasection_str, meta_lines, unlines, hdr. simpl.
  rewrite map_app, concat_app. simpl. rewrite <- !app_assoc. simpl. rewrite !map_map. do 2 f_equal. simpl. do 2 f_equal. f_equal.
  f_equal. apply map_ext. intros r. rewrite metarule_str_plain. reflexivity.
Qed.
Lemma rulesection_unlines : forall fprint m, rulesection_str fprint m ++ [LF] = unlines (rule_lines fprint m).
Proof.
  intros fprint m. unfold rulesection_str, rule_lines, unlines, hdr. simpl.
  rewrite map_app, concat_app. simpl. rewrite <- !app_assoc. simpl. rewrite !map_map. reflexivity.
Qed.
Lemma unlines_concat : forall {A} (f : A -> list text) l, List.concat (map (fun x => unlines (f x)) l) = unlines (List.concat (map f l)).
Proof. intros. induction l; simpl; auto. rewrite IHl, unlines_app. reflexivity. Qed.

Definition gram_lines (fprint : flt -> text) (p : list (text * list (list text))) (rs : list rulesection) : list text :=
  List.concat (map meta_lines p) ++ List.concat (map (rule_lines fprint) rs).
Lemma grammar_str_unlines : forall fprint g,
  grammar_str fprint g = unlines (gram_lines fprint (plain (g_metas g)) (g_rules g)).
Proof.
  intros. unfold grammar_str, gram_lines. rewrite unlines_app. f_equal.
  - rewrite <- unlines_concat. unfold plain. rewrite map_map. f_equal. apply map_ext. intros m. apply metasection_unlines.
  - rewrite <- unlines_concat. f_equal. apply map_ext. intros m. apply rulesection_unlines.
Qed.

(** Kinds of the printed lines. *)
Lemma hdr_line : forall u n, n <> [] -> header_line u (hdr n) n.
Proof.
  intros. exists [], []. repeat split; auto; constructor.
Qed.
Lemma hdr_not_comment : forall u n, uni_ok u -> ~ comment_line u (hdr n).
Proof.
  intros u n Hu K. apply is_comment_spec in K; auto. unfold is_comment, hdr in K. simpl in K.
  rewrite (uo_lbrack u Hu) in K. discriminate.
Qed.
Lemma nil_comment : forall u, comment_line u [].
Proof. intros. exists [], []. repeat split; auto. constructor. Qed.

Lemma data_head : forall u c l, uni_ok u -> u_space u c = false -> c <> 35 -> c <> 91 -> data_line u (c :: l).
Proof.
  intros u c l Hu H1 H2 H3. split.
  - intros K. apply is_comment_spec in K; auto. unfold is_comment in K. simpl in K. rewrite H1 in K.
    apply N.eqb_eq in K. contradiction.
  - apply header_None; auto. unfold section_header. simpl. rewrite H1.
    apply N.eqb_neq in H3. unfold LBRACK. rewrite H3. reflexivity.
Qed.

Lemma meta_text_refs : forall u ns, uni_ok u -> ns <> [] -> Forall (ident u) ns -> meta_line u (meta_text ns) ns.
Proof.
  intros u ns Hu Hn Hi. split; auto.
  assert (G : forall ns, Forall (ident u) ns -> forall n, ident u n ->
             refs_line u (64 :: n ++ match ns with [] => [] | _ => 32 :: meta_text ns end) (n :: ns)
             /\ refs_line u (32 :: 64 :: n ++ match ns with [] => [] | _ => 32 :: meta_text ns end) (n :: ns)).
  { clear ns Hn Hi. induction ns as [|n' ns IH]; intros Hi n (Hn & Hn').
    - assert (B : refs_line u [] []) by (constructor; constructor).
      split; [apply (rl_ref u [])|apply (rl_ref u [32])]; auto.
      + constructor.
      + constructor; auto. apply (uo_blank u Hu).
    - inversion Hi; subst. destruct (IH H2 n' H1) as (I1 & I2).
      assert (E : 32 :: meta_text (n' :: ns) = 32 :: 64 :: n' ++ match ns with [] => [] | _ => 32 :: meta_text ns end).
      { unfold meta_text. simpl. destruct ns; simpl; rewrite ?app_nil_r; reflexivity. }
      rewrite E.
      split; [apply (rl_ref u [])|apply (rl_ref u [32])]; auto.
      + constructor.
      + constructor; auto. apply (uo_blank u Hu). }
  destruct ns as [|n ns]; [congruence|]. inversion Hi; subst.
  destruct (G ns H2 n H1) as (G1 & _).
  assert (E : meta_text (n :: ns) = 64 :: n ++ match ns with [] => [] | _ => 32 :: meta_text ns end).
  { unfold meta_text. simpl. destruct ns; simpl; rewrite ?app_nil_r; reflexivity. }
  rewrite E. exact G1.
Qed.

Lemma meta_text_data : forall u ns, uni_ok u -> ns <> [] -> data_line u (meta_text ns) /\ at_line (meta_text ns).
Proof.
  intros u ns Hu Hn. destruct ns as [|n ns]; [congruence|].
  assert (E : exists t, meta_text (n :: ns) = 64 :: t).
  { unfold meta_text. simpl. destruct ns; simpl; eexists; reflexivity. }
  destruct E as (t & ->). split.
  - apply data_head; auto; try discriminate. apply (uo_at u Hu).
  - left. reflexivity.
Qed.

Lemma in_str_word : forall c, in_str c <> [] /\ Forall (fun x => ~ c_blank x) (in_str c) /\ in_str c <> ARROW /\
  Forall (fun x => 65 <= x <= 90) (in_str c) /\ as_one_type (in_str c) = c.
Proof.
  assert (H : forall c, forallb (fun x => (65 <=? x) && (x <=? 90)) (in_str c) = true /\ in_str c <> [] /\ as_one_type (in_str c) = c).
  { intros c. destruct c; (split; [vm_compute; reflexivity|split; [discriminate|vm_compute; reflexivity]]). }
  intros c. destruct (H c) as (H1 & H2 & H3). rewrite forallb_forall in H1.
  assert (F : Forall (fun x => 65 <= x <= 90) (in_str c)).
  { apply Forall_forall. intros x Hx. apply H1 in Hx. apply andb_true_iff in Hx. rewrite !N.leb_le in Hx. exact Hx. }
  split; auto. split. { revert F. apply Forall_impl. intros x Hx [K|K]; lia. }
  split. { intros K. rewrite K in F. inversion F; subst. lia. }
  auto.
Qed.
Lemma out_str_word : forall c, out_str c <> [] /\ Forall (fun x => ~ c_blank x) (out_str c) /\ out_str c <> ARROW /\
  Forall (fun x => 65 <= x <= 90) (out_str c) /\ out_as_type (out_str c) = c.
Proof.
  assert (H : forall c, forallb (fun x => (65 <=? x) && (x <=? 90)) (out_str c) = true /\ out_str c <> [] /\ out_as_type (out_str c) = c).
  { intros c. destruct c; (split; [vm_compute; reflexivity|split; [discriminate|vm_compute; reflexivity]]). }
  intros c. destruct (H c) as (H1 & H2 & H3). rewrite forallb_forall in H1.
  assert (F : Forall (fun x => 65 <= x <= 90) (out_str c)).
  { apply Forall_forall. intros x Hx. apply H1 in Hx. apply andb_true_iff in Hx. rewrite !N.leb_le in Hx. exact Hx. }
  split; auto. split. { revert F. apply Forall_impl. intros x Hx [K|K]; lia. }
  split. { intros K. rewrite K in F. inversion F; subst. lia. }
  auto.
Qed.

Definition rule_words (fprint : flt -> text) (r : rule) : list text :=
  map in_str (r_in r) ++ ARROW :: map out_str (r_out r) ++ ARROW :: [fprint (r_score r)].

Lemma rule_str_join : forall fprint r, rule_str fprint r = join [SP] (rule_words fprint r).
Proof.
  intros fprint r. unfold rule_str, rule_words.
  assert (G : forall (ws : list text) w, List.concat (map (fun x => x ++ [SP]) ws) ++ w = join [SP] (ws ++ [w])).
  { induction ws as [|x ws IH]; intros w; [reflexivity|]. simpl. rewrite <- app_assoc. rewrite IH.
    destruct ws; simpl; rewrite <- app_assoc; reflexivity. }
  replace (map in_str (r_in r) ++ ARROW :: map out_str (r_out r) ++ [ARROW; fprint (r_score r)])
    with ((map in_str (r_in r) ++ ARROW :: map out_str (r_out r) ++ [ARROW]) ++ [fprint (r_score r)])
    by (repeat (rewrite <- app_assoc; simpl); reflexivity).
  rewrite <- G. rewrite map_app, concat_app. simpl. rewrite map_app, concat_app. simpl.
  rewrite !map_map. unfold ARROW. repeat (rewrite <- app_assoc; simpl). reflexivity.
Qed.

Definition good_word (w : text) : Prop := w <> [] /\ Forall (fun c => ~ c_blank c) w.
Lemma words_join : forall ws, Forall good_word ws -> words (join [SP] ws) ws /\ words (SP :: join [SP] ws) ws.
Proof.
  induction 1 as [|w ws (H1 & H2) Hws (I1 & I2)].
  - split; apply w_end; [constructor|]. constructor; [left; reflexivity|constructor].
  - assert (E : exists t, join [SP] (w :: ws) = w ++ t /\ words t ws /\ (t = [] \/ exists c t', t = c :: t' /\ c_blank c)).
    { destruct ws as [|w' ws].
      - exists []. simpl. rewrite app_nil_r. repeat split; auto.
      - exists (SP :: join [SP] (w' :: ws)). repeat split; auto. right. exists SP, (join [SP] (w' :: ws)). split; auto. left. reflexivity. }
    destruct E as (t & -> & E1 & E2). split.
    + apply (w_word [] w t ws); auto.
    + apply (w_word [SP] w t ws); auto. constructor; auto. left. reflexivity.
Qed.

Lemma rule_str_line : forall atof fprint r, List.length (r_in r) = List.length (r_out r) ->
  prints_score atof fprint (r_score r) ->
  rule_line atof (rule_str fprint r) (mkRule (r_in r) (r_out r) (atof (fprint (r_score r)))).
Proof.
  intros atof fprint r Hl (P1 & P2 & P3 & P4). rewrite rule_str_join.
  assert (Ni : no_arrow (map in_str (r_in r))).
  { intros K. apply in_map_iff in K. destruct K as (c & K & _). destruct (in_str_word c) as (_ & _ & A & _). contradiction. }
  assert (No : no_arrow (map out_str (r_out r))).
  { intros K. apply in_map_iff in K. destruct K as (c & K & _). destruct (out_str_word c) as (_ & _ & A & _). contradiction. }
  exists (rule_words fprint r), (map in_str (r_in r)), (map out_str (r_out r)), [], (fprint (r_score r)), [].
  split.
  { apply words_join. unfold rule_words. apply Forall_app. split.
    - apply Forall_map. apply Forall_forall. intros c _. destruct (in_str_word c) as (A & B & _). split; auto.
    - assert (A : good_word ARROW).
      { split; [discriminate|]. repeat constructor; intros [K|K]; lia. }
      constructor; auto. apply Forall_app. split.
      + apply Forall_map. apply Forall_forall. intros c _. destruct (out_str_word c) as (A' & B & _). split; auto.
      + constructor; auto. constructor; auto. split; auto. revert P2. apply Forall_impl. tauto. }
  split. { rewrite app_nil_r. reflexivity. }
  split; auto. split; auto. split. { intros [K|[]]. auto. }
  split; auto. split. { rewrite !map_length. exact Hl. }
  split; auto. rewrite !map_map. f_equal.
  - rewrite <- (map_id (r_in r)) at 1. apply map_ext. intros c. destruct (in_str_word c) as (_ & _ & _ & _ & A). auto.
  - rewrite <- (map_id (r_out r)) at 1. apply map_ext. intros c. destruct (out_str_word c) as (_ & _ & _ & _ & A). auto.
Qed.


Lemma join_head : forall sep (w : text) ws, w <> [] -> exists c t w', join sep (w :: ws) = c :: t /\ w = c :: w'.
Proof.
  intros sep [|c w'] ws H; [congruence|]. destruct ws; simpl; eexists _, _, _; split; reflexivity.
Qed.

Lemma rule_str_head : forall fprint r, exists c t, rule_str fprint r = c :: t /\ (65 <= c <= 90 \/ c = 45).
Proof.
  intros fprint r. rewrite rule_str_join. unfold rule_words. destruct (r_in r) as [|i ins]; simpl map; simpl app.
  - destruct (join_head [SP] ARROW (map out_str (r_out r) ++ [ARROW; fprint (r_score r)])) as (c & t & w' & -> & E); [discriminate|].
    exists c, t. split; auto. injection E; intros. right. auto.
  - destruct (in_str_word i) as (A & B & _ & C & _).
    destruct (join_head [SP] (in_str i) (map in_str ins ++ ARROW :: map out_str (r_out r) ++ [ARROW; fprint (r_score r)]) A)
      as (c & t & w' & -> & E).
    exists c, t. split; auto. rewrite E in C. inversion C; subst. left. auto.
Qed.

Lemma In_join : forall c sep ws, In c (join sep ws) -> In c sep \/ exists w, In w ws /\ In c w.
Proof.
  induction ws as [|w ws IH]; intros H; [contradiction|].
  destruct ws as [|w' ws].
  - simpl in H. right. exists w. split; [left|]; auto.
  - rewrite join_cons2 in H. apply in_app_or in H. destruct H as [H|H].
    + right. exists w. split; [left|]; auto.
    + apply in_app_or in H. destruct H as [H|H]; auto. destruct (IH H) as [K|(x & K1 & K2)]; auto.
      right. exists x. split; [right|]; auto.
Qed.

Lemma rule_str_chars : forall fprint r c, In c (rule_str fprint r) ->
  c = 32 \/ 65 <= c <= 90 \/ c = 45 \/ c = 62 \/ In c (fprint (r_score r)).
Proof.
  intros fprint r c H. rewrite rule_str_join in H. apply In_join in H. destruct H as [[H|[]]|(w & H1 & H2)]; auto.
  unfold rule_words in H1. apply in_app_or in H1. destruct H1 as [H1|[<-|H1]].
  - apply in_map_iff in H1. destruct H1 as (i & <- & _). destruct (in_str_word i) as (_ & _ & _ & F & _).
    rewrite Forall_forall in F. right. left. apply F. exact H2.
  - simpl in H2. destruct H2 as [H2|[H2|[]]]; auto.
  - apply in_app_or in H1. destruct H1 as [H1|[<-|[<-|[]]]]; auto.
    + apply in_map_iff in H1. destruct H1 as (i & <- & _). destruct (out_str_word i) as (_ & _ & _ & F & _).
      rewrite Forall_forall in F. right. left. apply F. exact H2.
    + simpl in H2. destruct H2 as [H2|[H2|[]]]; auto.
Qed.

Lemma kept_all : forall u rs, uni_ok u -> Forall (fun r => r <> [] /\ Forall (ident u) r) rs ->
  kept u (map meta_text rs) (map (map new_ref) rs).
Proof.
  intros u rs Hu H. induction H as [|r rs (H1 & H2) H IH]; simpl; [constructor|].
  apply k_ref; auto. apply meta_text_refs; auto.
Qed.

(** Blocks of the printed form. *)
Definition meta_block (p : text * list (list text)) : text * list text := (fst p, map meta_text (snd p)).
Definition rule_block (fprint : flt -> text) (s : rulesection) : text * list text :=
  (rs_name s, map (rule_str fprint) (rs_rules s)).

Lemma doc_block : forall u n data ls o bs, uni_ok u -> n <> [] -> Forall (data_line u) data -> doc u ls o bs -> o = [] ->
  doc u (hdr n :: data ++ [] :: ls) [] ((n, data) :: bs).
Proof.
  intros u n data ls o bs Hu Hn Hd H ->. apply doc_header; auto using hdr_line, hdr_not_comment.
  induction Hd; simpl.
  - apply doc_comment; auto using nil_comment.
  - apply doc_data; auto.
Qed.

Lemma doc_grammar : forall u atof fprint p rs, uni_ok u -> ascii_upper_ok u ->
  Forall (fun m => fst m <> []) p -> Forall (fun m => Forall (fun r => r <> []) (snd m)) p ->
  Forall (fun s => rs_name s <> []) rs ->
  doc u (gram_lines fprint p rs ++ [[]]) [] (map meta_block p ++ map (rule_block fprint) rs) /\
  (Forall (fun m => Forall (fun r => r <> [] /\ Forall (ident u) r) (snd m)) p ->
   Forall (fun m => snd m <> []) p -> Forall (fun s => rs_rules s <> []) rs ->
   (forall s r, In s rs -> In r (rs_rules s) ->
      List.length (r_in r) = List.length (r_out r) /\ prints_score atof fprint (r_score r)) ->
   defines u atof (map meta_block p ++ map (rule_block fprint) rs)
     (map (fun m => mkMeta (fst m) (map (map new_ref) (snd m))) p) (reread atof fprint rs)).
Proof.
  intros u atof fprint p rs Hu Ha Hp Hpr Hrs. split.
  - unfold gram_lines. rewrite <- app_assoc. induction Hp as [|m p Hm Hp IH]; simpl.
    + clear Hpr. induction Hrs as [|s rs Hs Hrs IH]; simpl.
      * apply doc_comment; [apply nil_comment|constructor].
      * unfold rule_lines. simpl. rewrite <- !app_assoc. simpl.
        eapply doc_block; eauto. apply Forall_map. apply Forall_forall. intros r _.
        destruct (rule_str_head fprint r) as (c & t & -> & Hc). apply data_head; auto; lia.
    + inversion Hpr; subst. unfold meta_lines. simpl. rewrite <- !app_assoc. simpl.
      eapply doc_block; eauto. apply Forall_map. revert H1. apply Forall_impl. intros r Hr. apply meta_text_data; auto.
  - intros Hi Hne Hrne Hr. clear Hp Hpr Hrs. induction p as [|m p IH]; simpl.
    + induction rs as [|s rs IH]; simpl; [constructor|].
      inversion Hrne; subst. apply df_rule.
      * destruct (rs_rules s); [congruence|simpl; discriminate].
      * apply Forall_map. apply Forall_forall. intros r Hin K. destruct (Hr s r (or_introl eq_refl) Hin) as (_ & (_ & P & _)).
        apply rule_str_chars in K. destruct K as [K|[K|[K|[K|K]]]]; try lia.
        rewrite Forall_forall in P. destruct (P _ K). congruence.
      * assert (F : forall r, In r (rs_rules s) -> List.length (r_in r) = List.length (r_out r) /\ prints_score atof fprint (r_score r)).
        { intros r Hin. apply (Hr s r); auto. left; auto. }
        clear - F. induction (rs_rules s) as [|r l IH]; simpl; constructor.
        { destruct (F r (or_introl eq_refl)). apply rule_str_line; auto. }
        { apply IH. intros; apply F; right; auto. }
      * apply IH; auto. intros; apply (Hr s0 r); auto. right; auto.
    + inversion Hi as [|? ? Hi1 Hi2]; subst. inversion Hne as [|? ? Hn1 Hn2]; subst. apply df_meta; auto.
      * intros K. apply map_eq_nil in K. exact (Hn1 K).
      * apply Forall_map. revert Hi1. apply Forall_impl. intros r (K & _). apply (meta_text_data u); auto.
      * apply kept_all; auto.
Qed.

Lemma fresh_nodup : forall bs seen, NoDup (map fst bs) -> (forall n, In n seen -> ~ In n (map fst bs)) -> fresh seen bs.
Proof.
  induction bs as [|[n d] bs IH]; intros seen H1 H2; [constructor|].
  simpl in H1. inversion H1; subst. constructor.
  - intros K. apply (H2 n K). left. reflexivity.
  - apply IH; auto. intros m K L. destruct d.
    + apply (H2 m K). right. exact L.
    + destruct K as [->|K]; [contradiction|]. apply (H2 m K). right. exact L.
Qed.

Lemma gram_lines_no_lf : forall u atof fprint p rs, uni_ok u ->
  Forall (fun m => ~ In 10 (fst m)) p -> Forall (fun s => ~ In 10 (rs_name s)) rs ->
  Forall (fun m => Forall (fun r => r <> [] /\ Forall (ident u) r) (snd m)) p ->
  (forall s r, In s rs -> In r (rs_rules s) -> prints_score atof fprint (r_score r)) ->
  Forall (fun l => ~ In 10 l) (gram_lines fprint p rs).
Proof.
  intros u atof fprint p rs Hu Hp Hr Hi Hs.
  assert (Hh : forall n, ~ In 10 n -> ~ In 10 (hdr n)).
  { intros n Hn K. unfold hdr in K. simpl in K. destruct K as [K|K]; [discriminate|]. apply in_app_or in K.
    destruct K as [K|[K|[]]]; [auto|discriminate]. }
  unfold gram_lines. apply Forall_app. split.
  - induction p as [|m p IH]; simpl; auto. inversion Hp; subst. inversion Hi; subst.
    unfold meta_lines. constructor; auto. apply Forall_app. split; auto. apply Forall_app. split.
    + apply Forall_map. revert H3. apply Forall_impl. intros r (_ & F) K. unfold meta_text in K. apply In_join in K.
      destruct K as [[K|[]]|(w & K1 & K2)]; [discriminate|]. apply in_map_iff in K1. destruct K1 as (n & <- & K1).
      destruct K2 as [K2|K2]; [discriminate|]. rewrite Forall_forall in F. destruct (F n K1) as (_ & Fn).
      rewrite Forall_forall in Fn. exact (uo_disj u Hu 10 (uo_lf u Hu) (Fn _ K2)).
    + constructor; auto.
  - induction rs as [|s rs IH]; simpl; auto. inversion Hr; subst. unfold rule_lines.
    constructor; auto. apply Forall_app. split.
    + apply Forall_app. split; [|constructor; auto].
      apply Forall_map. apply Forall_forall. intros r Hin K. apply rule_str_chars in K.
      destruct (Hs s r (or_introl eq_refl) Hin) as (_ & P & _).
      destruct K as [K|[K|[K|[K|K]]]]; try lia. rewrite Forall_forall in P. destruct (P _ K) as (P1 & _). apply P1. right. lia.
    + apply IH; auto. intros; apply (Hs s0 r); auto. right; auto.
Qed.

Lemma defines_rules_nonempty : forall u atof bs ms rs, defines u atof bs ms rs -> Forall (fun s => rs_rules s <> []) rs.
Proof.
  induction 1 as [|n bs ms rs H IH|n ls rules bs ms rs Hn Ha Hk H IH|n ls rules bs ms rs Hn Ha H1 H IH]; auto.
  constructor; auto. simpl. inversion H1; subst; [congruence|discriminate].
Qed.

Lemma plain_new : forall p, plain (map (fun m => mkMeta (fst m) (map (map new_ref) (snd m))) p) = p.
Proof.
  induction p as [|[n r] p IH]; simpl; auto. unfold plain in *. simpl. rewrite IH. do 2 f_equal.
  rewrite map_map. rewrite <- (map_id r) at 2. apply map_ext. intros l. rewrite map_map. simpl. apply map_id.
Qed.

Lemma plain_names : forall ms, map fst (plain ms) = map ms_name ms.
Proof. intros. unfold plain. rewrite map_map. reflexivity. Qed.

Definition plain_refers (p : list (text * list (list text))) (n : text) : Prop :=
  exists m r, In m p /\ In r (snd m) /\ In n r.
Lemma refers_plain : forall ms n, refers ms n <-> plain_refers (plain ms) n.
Proof.
  intros. unfold refers, plain_refers, plain. split.
  - intros (m & refs & r & H1 & H2 & H3 & <-). exists (ms_name m, map (map f_name) (ms_rules m)), (map f_name refs).
    repeat split.
    + apply in_map_iff. exists m. auto.
    + simpl. apply in_map. exact H2.
    + apply in_map. exact H3.
  - intros (m & r & H1 & H2 & H3). apply in_map_iff in H1. destruct H1 as (m0 & <- & H1). simpl in H2.
    apply in_map_iff in H2. destruct H2 as (refs & <- & H2). apply in_map_iff in H3. destruct H3 as (x & <- & H3).
    exists m0, refs, x. auto.
Qed.

Theorem print_load : forall u atof fprint src L, uni_ok u -> ascii_upper_ok u ->
  load_grammar u atof src = Ok L -> no_empty_section (gl_grammar L) ->
  (forall s r, In s (g_rules (gl_grammar L)) -> In r (rs_rules s) -> prints_score atof fprint (r_score r)) ->
  exists L', load_grammar u atof (grammar_str fprint (gl_grammar L)) = Ok L' /\
    plain (g_metas (gl_grammar L')) = plain (g_metas (gl_grammar L)) /\
    g_rules (gl_grammar L') = reread atof fprint (g_rules (gl_grammar L)) /\
    gl_status L' = gl_status L.
Proof.
  intros u atof fprint file L Hu Ha HL Hne Hs. destruct (load_grammar_effective _ _ _ _ HL) as (src & Hb).
  assert (S := load_grammar_spec u atof file src Hu Hb). rewrite HL in S. cbv zeta in S.
  set (g := gl_grammar L) in *.
  destruct S as (ms & rs & M & C & A & E1 & E2 & LK & N & RC & ST & SO & _).
  assert (M' := M). destruct M' as (bs & D & F & DF).
  set (p := plain (g_metas g)) in *.
  assert (Hpn : map fst p = map ms_name ms) by (rewrite E1; apply plain_names).
  assert (Hpi : plain_ident u p) by (rewrite E1; exact (defines_ident _ _ _ _ _ DF)).
  assert (Hnm : forall n, In n (names_of ms rs) -> ~ In 10 n /\ n <> []) by (exact (means_names _ _ _ _ _ M)).
  assert (Hp1 : Forall (fun m => fst m <> []) p).
  { apply Forall_forall. intros m Hm. apply (Hnm (fst m)). unfold names_of. apply in_or_app. left. rewrite <- Hpn. apply in_map. auto. }
  assert (Hp2 : Forall (fun m => ~ In 10 (fst m)) p).
  { apply Forall_forall. intros m Hm. apply (Hnm (fst m)). unfold names_of. apply in_or_app. left. rewrite <- Hpn. apply in_map. auto. }
  assert (Hr1 : Forall (fun s => rs_name s <> []) rs).
  { apply Forall_forall. intros s K. apply (Hnm (rs_name s)). unfold names_of. apply in_or_app. right. apply in_map. auto. }
  assert (Hr2 : Forall (fun s => ~ In 10 (rs_name s)) rs).
  { apply Forall_forall. intros s K. apply (Hnm (rs_name s)). unfold names_of. apply in_or_app. right. apply in_map. auto. }
  assert (Hpe : Forall (fun m => snd m <> []) p).
  { unfold p, plain. apply Forall_map. apply Forall_forall. intros m K. simpl. specialize (Hne m K).
    destruct (ms_rules m); [congruence|discriminate]. }
  rewrite E2 in Hs.
  set (ms2 := map (fun m => mkMeta (fst m) (map (map new_ref) (snd m))) p).
  set (rs2 := reread atof fprint rs).
  assert (Hrn : map rs_name rs2 = map rs_name rs).
  { unfold rs2, reread. rewrite map_map. reflexivity. }
  assert (Hmn : map ms_name ms2 = map ms_name ms).
  { unfold ms2. rewrite map_map. simpl. exact Hpn. }
  assert (Hn2 : names_of ms2 rs2 = names_of ms rs) by (unfold names_of; rewrite Hmn, Hrn; reflexivity).
  assert (Hpl : plain ms2 = plain ms) by (unfold ms2; rewrite plain_new; exact E1).
  assert (Href : forall n, refers ms2 n <-> refers ms n) by (intros; rewrite !refers_plain, Hpl; reflexivity).
  assert (Hlf : Forall (fun l => ~ In 10 l) (gram_lines fprint p rs)).
  { apply (gram_lines_no_lf u atof); auto. }
  destruct (doc_grammar u atof fprint p rs Hu Ha Hp1) as (D2 & DF2); auto.
  { revert Hpi. apply Forall_impl. intros m. apply Forall_impl. tauto. }
  assert (M2 : means u atof (grammar_str fprint g) ms2 rs2).
  { rewrite grammar_str_unlines. fold p. rewrite E2. eexists. split.
    - rewrite seen_unlines by exact Hlf. exact D2.
    - split.
      + apply fresh_nodup; auto. rewrite map_app, !map_map. simpl.
        assert (U := lk_unique g LK). rewrite N in U. unfold names_of in U. rewrite <- Hpn in U. exact U.
      + apply DF2; auto.
        * exact (defines_rules_nonempty _ _ _ _ _ DF).
        * intros s r K1 K2. split; [apply (RC s r); auto|apply (Hs s r); auto]. }
  assert (Hb2 : ~ has_bom (grammar_str fprint g)).
  { rewrite grammar_str_unlines. fold p. rewrite E2. unfold gram_lines. intros (t & K).
    unfold names_of in A. rewrite <- Hpn in A. destruct p as [|m0 p0].
    - destruct rs as [|s0 rs0]; [contradiction|]. discriminate K.
    - discriminate K. }
  assert (S2 := load_grammar_spec u atof (grammar_str fprint g) _ Hu (eff_plain _ Hb2)).
  destruct (load_grammar u atof (grammar_str fprint g)) as [L'|m|]; [| |contradiction].
  2: { exfalso. apply S2. exists ms2, rs2. split; auto. split.
       - intros n K. rewrite Hn2. apply C. apply Href. exact K.
       - rewrite Hn2. exact A. }
  cbv zeta in S2. destruct S2 as (ms3 & rs3 & M3 & C3 & A3 & E13 & E23 & LK3 & N3 & RC3 & ST3 & SO3 & _).
  destruct (means_det _ _ _ _ _ _ _ Hu M2 M3) as (Q1 & Q2). rewrite Q1, Q2 in *. clear Q1 Q2.
  exists L'. split; auto. split. { rewrite E13, Hpl. auto. }
  split. { rewrite E23, E2. reflexivity. }
  assert (X : gl_status L' = CHECK_OK <-> gl_status L = CHECK_OK).
  { rewrite SO3, SO, Hn2. split; intros K n Kn; destruct (K n Kn) as [Q|Q]; auto; left; apply Href; exact Q. }
  destruct (gl_status L'), (gl_status L); auto; try congruence; exfalso;
    destruct X as (X1 & X2); try (specialize (X1 eq_refl)); try (specialize (X2 eq_refl)); congruence.
Qed.
