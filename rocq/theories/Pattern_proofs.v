(** Pattern strings and the rows of as_match. *)
From Coq Require Import String List NArith ZArith Bool Lia Arith Floats.SpecFloat.
From Verif Require Import Base_model Class_model Float_model Token_model Rule_model Search_model Search_spec
  Search_proofs Enum_proofs SearchTop_proofs Float_proofs SearchBest_proofs.
Import ListNotations.

(** ** Words joined by blanks *)
Lemma join_cons2 : forall sep a b l, join sep (a :: b :: l) = a ++ sep ++ join sep (b :: l).
Proof. reflexivity. Qed.
Lemma removelast_join : forall (ws : list text), ws <> [] ->
  removelast (List.concat (map (fun w => w ++ [SP]) ws)) = join [SP] ws.
Proof.
  induction ws as [|w ws IH]; intros H; [congruence|]. destruct ws as [|w' ws].
  - cbn [map List.concat join]. rewrite app_nil_r. rewrite removelast_last. reflexivity.
  - rewrite join_cons2. rewrite <- IH by discriminate.
    change (List.concat (map (fun w => w ++ [SP]) (w :: w' :: ws)))
      with ((w ++ [SP]) ++ List.concat (map (fun w => w ++ [SP]) (w' :: ws))).
    rewrite removelast_app.
    + rewrite <- app_assoc. reflexivity.
    + cbn [map List.concat]. intro E. apply app_eq_nil in E. destruct E as [E _].
      apply app_eq_nil in E. destruct E. discriminate.
Qed.

Lemma app_sep_inj : forall (d : N) a b x y, ~ In d a -> ~ In d b -> a ++ d :: x = b ++ d :: y -> a = b /\ x = y.
Proof.
  induction a as [|c a IH]; intros [|e b] x y Ha Hb E; cbn in *.
  - inversion E. auto.
  - inversion E; subst. exfalso. apply Hb. left. reflexivity.
  - inversion E; subst. exfalso. apply Ha. left. reflexivity.
  - inversion E; subst. destruct (IH b x y) as [-> ->]; auto.
Qed.
Lemma join_inj : forall d (ws ws' : list text), ws <> [] -> ws' <> [] ->
  Forall (fun w => ~ In d w) ws -> Forall (fun w => ~ In d w) ws' ->
  join [d] ws = join [d] ws' -> ws = ws'.
Proof.
  intros d. induction ws as [|w ws IH]; intros ws' H H' F F' E; [congruence|].
  destruct ws' as [|w' ws']; [congruence|]. inversion F; subst. inversion F'; subst.
  destruct ws as [|v ws]; destruct ws' as [|v' ws'].
  - cbn in E. congruence.
  - rewrite join_cons2 in E. cbn [join] in E. exfalso. apply H2. rewrite E, !in_app_iff. right. left. left. reflexivity.
  - rewrite join_cons2 in E. cbn [join] in E. exfalso. apply H4. rewrite <- E, !in_app_iff. right. left. left. reflexivity.
  - rewrite !join_cons2 in E. cbn [app] in E. apply app_sep_inj in E; auto. destruct E as [-> E].
    f_equal. apply IH; auto; discriminate.
Qed.

(** ** Class names *)
Lemma in_str_noblank : forall c, ~ In SP (in_str c).
Proof. intros c H. destruct c; cbv in H; repeat (destruct H as [H|H]; [discriminate H|]); exact H. Qed.
Lemma out_str_noblank : forall c, ~ In SP (out_str c).
Proof. intros c H. destruct c; cbv in H; repeat (destruct H as [H|H]; [discriminate H|]); exact H. Qed.
Lemma in_str_inj : forall a b, in_str a = in_str b -> a = b.
Proof. intros a b H. destruct a; destruct b; try reflexivity; discriminate H. Qed.
Lemma out_str_inj : forall a b, out_str a = out_str b -> a = b.
Proof. intros a b H. destruct a; destruct b; try reflexivity; discriminate H. Qed.
Lemma in_str_arrow : forall c, in_str c <> ARROW.
Proof. intros c H. destruct c; discriminate H. Qed.
Lemma map_inj : forall {A B} (f : A -> B) (Hf : forall x y, f x = f y -> x = y) l l', map f l = map f l' -> l = l'.
Proof.
  induction l as [|x l IH]; intros [|y l'] E; cbn in E; try discriminate; [reflexivity|].
  inversion E. f_equal; auto.
Qed.
Lemma pattern_words_inj : forall i o i' o', pattern_words i o = pattern_words i' o' -> i = i' /\ o = o'.
Proof.
  induction i as [|c i IH]; intros o [|c' i'] o' E; unfold pattern_words in E; cbn in E.
  - inversion E. split; [reflexivity|]. eapply map_inj; [apply out_str_inj|assumption].
  - inversion E. exfalso. eapply in_str_arrow. symmetry. eassumption.
  - inversion E. exfalso. eapply in_str_arrow. eassumption.
  - inversion E. destruct (IH o i' o') as [-> ->]; [assumption|]. split; [|reflexivity]. f_equal. apply in_str_inj. assumption.
Qed.
Lemma pattern_words_noblank : forall i o, Forall (fun w => ~ In SP w) (pattern_words i o).
Proof.
  intros i o. unfold pattern_words. apply Forall_app. split.
  - apply Forall_map. apply Forall_forall. intros c _. apply in_str_noblank.
  - constructor.
    + intros H. cbv in H. repeat (destruct H as [H|H]; [discriminate H|]). exact H.
    + apply Forall_map. apply Forall_forall. intros c _. apply out_str_noblank.
Qed.
Lemma pattern_words_nonempty : forall i o, pattern_words i o <> [].
Proof. intros i o E. unfold pattern_words in E. apply app_eq_nil in E. destruct E. discriminate. Qed.
Lemma pattern_join_inj : forall i o i' o',
  join [SP] (pattern_words i o) = join [SP] (pattern_words i' o') -> i = i' /\ o = o'.
Proof.
  intros. apply pattern_words_inj. eapply join_inj; [| | | |eassumption];
    try apply pattern_words_nonempty; apply pattern_words_noblank.
Qed.

Lemma pattern_str_spec : forall ts ins, map t_in ts = map (fun c => [c]) ins ->
  pattern_str ts = join [SP] (pattern_words ins (map t_out ts)).
Proof.
  intros ts ins H. rewrite <- removelast_join by apply pattern_words_nonempty.
  unfold pattern_str. f_equal. unfold pattern_words. rewrite map_app, concat_app. f_equal.
  - revert ins H. induction ts as [|k ts IH]; intros [|c ins] H; cbn in H; try discriminate; [reflexivity|].
    inversion H. cbn [map List.concat]. rewrite (IH ins) by assumption. rewrite H1. reflexivity.
  - cbn [map List.concat app]. change (s2t "-> ") with (ARROW ++ [SP]). unfold ARROW. cbn [app]. do 3 f_equal.
    rewrite !map_map. reflexivity.
Qed.

(** ** searchAndReclassAll *)
Lemma all_one_spec : forall g phrase ps p, linked g -> rules_balanced g -> search g phrase = Ok ps -> In p ps ->
  exists row, all_one phrase p = Ok row /\ reports (p_rules p) (m_matched row) (m_score row) (m_nrules row).
Proof.
  intros g phrase ps p L B H Hp.
  destruct (reclass_faithful g ADDRESS phrase ps p L B H Hp) as (ts & E & _ & _ & _ & _ & EI & _ & EO).
  unfold all_one. rewrite E. cbn [obind]. eexists. split; [reflexivity|]. cbn [m_matched m_score m_nrules].
  split; [|split; reflexivity].
  rewrite (pattern_str_spec ts _ EI), EO. reflexivity.
Qed.
Lemma omap_Forall2 : forall {A B} (f : A -> outcome B) (R : A -> B -> Prop) l,
  (forall x, In x l -> exists y, f x = Ok y /\ R x y) -> exists ys, omap f l = Ok ys /\ Forall2 R l ys.
Proof.
  induction l as [|x l IH]; intros H.
  - exists []. split; [reflexivity|constructor].
  - destruct (H x (or_introl eq_refl)) as (y & E & HR). destruct IH as (ys & E' & HF).
    { intros; apply H; right; assumption. }
    exists (y :: ys). split; [|constructor; assumption]. cbn. rewrite E. cbn. rewrite E'. reflexivity.
Qed.
Definition row_of (p : spath) (row : mresult) : Prop :=
  reports (p_rules p) (m_matched row) (m_score row) (m_nrules row).
Lemma search_all_spec : forall g phrases, linked g -> rules_balanced g -> In ADDRESS (section_names g) ->
  exists found rows, Forall2 (fun ph ps => search g ph = Ok ps) phrases found /\
    search_all g phrases = Ok rows /\
    (List.concat found = [] -> rows = [fail_row]) /\
    (List.concat found <> [] -> Forall2 row_of (List.concat found) rows).
Proof.
  intros g phrases L B HA.
  assert (HX : exists found ls, Forall2 (fun ph ps => search g ph = Ok ps) phrases found /\
      omap (all_phrase g) phrases = Ok ls /\ Forall2 (Forall2 row_of) found ls).
  { induction phrases as [|ph phrases (found & ls & H1 & H2 & H3)].
    - exists [], []. repeat split; constructor.
    - destruct (search_defined g ADDRESS ph L HA) as [ps E]. fold (search g ph) in E.
      destruct (omap_Forall2 (all_one ph) row_of ps) as (rows & ER & HF).
      { intros p Hp. apply (all_one_spec g ph ps p L B E Hp). }
      exists (ps :: found), (rows :: ls). split; [constructor; assumption|]. split; [|constructor; assumption].
      cbn. unfold all_phrase at 1. rewrite E. cbn. rewrite ER. cbn. rewrite H2. reflexivity. }
  destruct HX as (found & ls & H1 & H2 & H3).
  assert (H4 : Forall2 row_of (List.concat found) (List.concat ls)).
  { clear - H3. induction H3; [constructor|]. cbn. apply Forall2_app; assumption. }
  exists found. unfold search_all. rewrite H2. cbn [obind].
  destruct (List.concat ls) as [|r rows] eqn:E.
  - exists [fail_row]. split; [exact H1|]. split; [reflexivity|]. inversion H4. split; [reflexivity|congruence].
  - exists (r :: rows). split; [exact H1|]. split; [reflexivity|]. split; [|intros _; exact H4].
    intros E'. rewrite E' in H4. inversion H4.
Qed.
