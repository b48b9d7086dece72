(** The line scanners of the grammar loader recognize the line kinds of the specification. *)
From Coq Require Import String List NArith ZArith Bool Lia.
From Verif Require Import Base_model Class_model Float_model Uni_model Rule_model Search_model Grammar_model
  Search_spec Grammar_spec Search_proofs.
Import ListNotations.
Local Open Scope N_scope.

Lemma drop_while_spec : forall p t, exists a, t = a ++ drop_while p t /\ Forall (fun c => p c = true) a /\
  match drop_while p t with [] => True | c :: _ => p c = false end.
Proof.
  induction t as [|c t IH]; simpl.
  - exists []; auto.
  - destruct (p c) eqn:E.
    + destruct IH as (a & H1 & H2 & H3). exists (c :: a). simpl. rewrite <- H1. auto.
    + exists []. simpl. auto.
Qed.

Lemma drop_while_app : forall p a t, Forall (fun c => p c = true) a -> drop_while p (a ++ t) = drop_while p t.
Proof. induction 1; simpl; auto. rewrite H. auto. Qed.

Lemma span_spec : forall p t a r, span p t = (a, r) -> t = a ++ r /\ Forall (fun c => p c = true) a /\
  match r with [] => True | c :: _ => p c = false end.
Proof.
  induction t as [|c t IH]; simpl; intros a r H.
  - inversion H; subst; auto.
  - destruct (p c) eqn:E.
    + destruct (span p t) as [a' r'] eqn:Es. inversion H; subst.
      destruct (IH _ _ eq_refl) as (H1 & H2 & H3). simpl. rewrite <- H1. auto.
    + inversion H; subst. simpl. auto.
Qed.

Lemma span_app : forall p a r, Forall (fun c => p c = true) a ->
  match r with [] => True | c :: _ => p c = false end -> span p (a ++ r) = (a, r).
Proof.
  induction 1; simpl; intros.
  - destruct r as [|c r]; simpl; auto. rewrite H. auto.
  - rewrite H, IHForall; auto.
Qed.

Lemma is_comment_spec : forall u l, uni_ok u -> (is_comment u l = true <-> comment_line u l).
Proof.
  intros u l Hu. unfold is_comment, comment_line. split.
  - destruct (drop_while_spec (u_space u) l) as (a & H1 & H2 & H3).
    destruct (drop_while (u_space u) l) as [|c t] eqn:E; intros H.
    + exists a, []. auto.
    + apply N.eqb_eq in H. subst c. exists a, (HASH :: t). repeat split; auto. right. eexists; reflexivity.
  - intros (a & t & -> & Ha & Ht). rewrite drop_while_app by exact Ha.
    destruct Ht as [-> | (t' & ->)]; simpl; auto.
    rewrite (uo_hash u Hu). reflexivity.
Qed.

Lemma blanks_rev : forall u t, blanks u t -> blanks u (rev t).
Proof. intros. unfold blanks. apply Forall_rev. exact H. Qed.

Lemma section_header_spec : forall u l n, uni_ok u -> (section_header u l = Some n <-> header_line u l n).
Proof.
  intros u l n Hu. unfold section_header, header_line. split.
  - destruct (drop_while_spec (u_space u) l) as (a & H1 & H2 & H3).
    destruct (drop_while (u_space u) l) as [|c t] eqn:E; [discriminate|].
    destruct (c =? LBRACK) eqn:Ec; [|discriminate]. apply N.eqb_eq in Ec. subst c.
    destruct (drop_while_spec (u_space u) (rev t)) as (b & G1 & G2 & G3).
    destruct (drop_while (u_space u) (rev t)) as [|d r] eqn:Er; [discriminate|].
    destruct (d =? RBRACK) eqn:Ed; [|discriminate]. apply N.eqb_eq in Ed. subst d.
    destruct r as [|x r]; [discriminate|]. intros H. injection H; intros <-.
    exists a, (rev b). repeat split; auto.
    + rewrite H1. f_equal. unfold LBRACK. f_equal.
      rewrite <- (rev_involutive t), G1, rev_app_distr. simpl. rewrite <- !app_assoc. reflexivity.
    + apply blanks_rev. exact G2.
    + simpl. intro K. apply app_eq_nil in K. destruct K; discriminate.
  - intros (a & b & -> & Ha & Hb & Hn). rewrite drop_while_app by exact Ha. simpl.
    rewrite (uo_lbrack u Hu). rewrite N.eqb_refl.
    replace (rev (n ++ 93 :: b)) with (rev b ++ 93 :: rev n)
      by (rewrite rev_app_distr; simpl; rewrite <- app_assoc; reflexivity).
    rewrite drop_while_app by (apply blanks_rev; exact Hb). simpl.
    rewrite (uo_rbrack u Hu). rewrite N.eqb_refl.
    destruct (rev n) as [|x r] eqn:E.
    + exfalso. apply Hn. rewrite <- (rev_involutive n), E. reflexivity.
    + simpl. rewrite <- (rev_involutive n), E. reflexivity.
Qed.

Lemma header_None : forall u l, uni_ok u -> (section_header u l = None <-> forall n, ~ header_line u l n).
Proof.
  intros u l Hu. split.
  - intros H n Hn. apply section_header_spec in Hn; auto. congruence.
  - intros H. destruct (section_header u l) as [n|] eqn:E; auto.
    apply section_header_spec in E; auto. exfalso. exact (H n E).
Qed.

Lemma has_char_In : forall c t, has_char c t = true <-> In c t.
Proof.
  intros. unfold has_char. rewrite existsb_exists. split.
  - intros (x & H1 & H2). apply N.eqb_eq in H2. subst. auto.
  - intros H. exists c. split; auto. apply N.eqb_refl.
Qed.

Lemma has_at_spec : forall t, has_char AT t = true <-> at_line t.
Proof. intros. apply has_char_In. Qed.
Lemma has_at_false : forall t, has_char AT t = false <-> ~ at_line t.
Proof.
  intros. rewrite <- has_at_spec. destruct (has_char AT t); split; intros; congruence.
Qed.

Lemma name_char_spec : forall u c, name_char u c = true <-> ident_char u c.
Proof.
  intros. unfold name_char, ident_char. rewrite orb_true_iff, N.eqb_eq. unfold UNDERSCORE. tauto.
Qed.

Lemma refs_line_head : forall u t ns, uni_ok u -> refs_line u t ns ->
  match t with [] => True | c :: _ => name_char u c = false end.
Proof.
  intros u t ns Hu H. inversion H; subst.
  - destruct t as [|c t]; auto. inversion H0; subst.
    destruct (name_char u c) eqn:E; auto. apply name_char_spec in E.
    exfalso. exact (uo_disj u Hu c H3 E).
  - destruct a as [|c a]; simpl.
    + destruct (name_char u 64) eqn:E; auto. unfold name_char in E.
      rewrite (uo_at_word u Hu) in E. discriminate.
    + inversion H0; subst. destruct (name_char u c) eqn:E; auto. apply name_char_spec in E.
      exfalso. exact (uo_disj u Hu c H6 E).
Qed.

Lemma Forall_ident : forall u n, Forall (ident_char u) n <-> Forall (fun c => name_char u c = true) n.
Proof.
  intros. split; apply Forall_impl; intros; apply name_char_spec; auto.
Qed.

(** Reading references. *)
Lemma meta_rest_sound : forall f u t, meta_rest f u t = true -> exists ns, refs_line u t ns.
Proof.
  induction f as [|f IH]; simpl; intros u t H; [discriminate|].
  destruct (drop_while_spec (u_space u) t) as (a & H1 & H2 & H3).
  destruct (drop_while (u_space u) t) as [|c t'] eqn:E.
  - exists []. rewrite H1, app_nil_r. constructor. exact H2.
  - destruct (c =? AT) eqn:Ec; [|discriminate]. apply N.eqb_eq in Ec. subst c.
    destruct (span (name_char u) t') as [n r] eqn:Es. destruct n as [|x n]; [discriminate|].
    destruct (IH _ _ H) as (ns & Hns). destruct (span_spec _ _ _ _ Es) as (G1 & G2 & G3).
    exists ((x :: n) :: ns). rewrite H1, G1. constructor; auto; try discriminate.
    apply Forall_ident. exact G2.
Qed.

Lemma refs_line_length : forall u t ns, refs_line u t ns -> (List.length ns <= List.length t)%nat.
Proof.
  induction 1; simpl; try lia. rewrite app_length. simpl. rewrite app_length. lia.
Qed.

Lemma meta_rest_complete : forall u t ns, uni_ok u -> refs_line u t ns ->
  forall f, (List.length ns < f)%nat -> meta_rest f u t = true.
Proof.
  intros u t ns Hu H. induction H; intros f Hf; destruct f as [|f]; try lia; simpl.
  - assert (drop_while (u_space u) t = []) as ->; auto.
    rewrite <- (app_nil_r t). rewrite drop_while_app; auto.
  - rewrite drop_while_app by exact H. simpl. rewrite (uo_at u Hu). rewrite N.eqb_refl.
    rewrite span_app.
    + destruct n as [|x n]; [congruence|]. apply IHrefs_line. simpl in Hf. lia.
    + apply Forall_ident. exact H1.
    + exact (refs_line_head u t ns Hu H2).
Qed.

Lemma meta_refs_spec : forall u t ns, uni_ok u -> refs_line u t ns ->
  forall f, (List.length ns < f)%nat -> meta_refs f u t = map new_ref ns.
Proof.
  intros u t ns Hu H. induction H; intros f Hf; destruct f as [|f]; try lia; simpl.
  - assert (Hd : drop_while (fun c => negb (c =? AT)) t = []).
    { rewrite <- (app_nil_r t). rewrite drop_while_app; auto.
      unfold blanks in H. revert H. apply Forall_impl. intros c Hc.
      destruct (c =? AT) eqn:E; auto. apply N.eqb_eq in E. subst c. unfold AT in Hc. rewrite (uo_at u Hu) in Hc. discriminate. }
    rewrite Hd. reflexivity.
  - rewrite drop_while_app.
    + simpl. rewrite span_app.
      * destruct n as [|x n]; [congruence|]. f_equal. apply IHrefs_line. simpl in Hf. lia.
      * apply Forall_ident. exact H1.
      * exact (refs_line_head u t ns Hu H2).
    + unfold blanks in H. revert H. apply Forall_impl. intros c Hc.
      destruct (c =? AT) eqn:E; auto. apply N.eqb_eq in E. subst c. unfold AT in Hc. rewrite (uo_at u Hu) in Hc. discriminate.
Qed.

Lemma is_meta_spec : forall u l, uni_ok u -> (is_meta u l = true <-> exists ns, meta_line u l ns).
Proof.
  intros u l Hu. unfold is_meta. split.
  - intros H.
    destruct (drop_while (u_space u) l) as [|c t] eqn:E; [discriminate|].
    destruct (meta_rest_sound _ _ _ H) as (ns & Hns). exists ns. split; auto.
    intros ->. inversion Hns; subst. rewrite <- (app_nil_r l), drop_while_app in E by exact H0. discriminate.
  - intros (ns & H & Hn). rewrite (meta_rest_complete u l ns Hu H) by (pose proof (refs_line_length _ _ _ H); lia).
    inversion H; subst; [congruence|].
    rewrite drop_while_app by exact H0. simpl. rewrite (uo_at u Hu). reflexivity.
Qed.

Lemma is_meta_false : forall u l, uni_ok u -> (is_meta u l = false <-> forall ns, ~ meta_line u l ns).
Proof.
  intros u l Hu. split.
  - intros H ns Hns. assert (is_meta u l = true) by (apply is_meta_spec; eauto). congruence.
  - intros H. destruct (is_meta u l) eqn:E; auto. apply is_meta_spec in E; auto.
    destruct E as (ns & E). exfalso. exact (H ns E).
Qed.

Lemma meta_rule_of_spec : forall u l ns, uni_ok u -> meta_line u l ns -> meta_rule_of u l = map new_ref ns.
Proof.
  intros u l ns Hu (H & Hn). unfold meta_rule_of. apply meta_refs_spec; auto.
  pose proof (refs_line_length _ _ _ H). lia.
Qed.

(** Words. *)
Lemma c_isspace_spec : forall c, c_isspace c = true <-> c_blank c.
Proof.
  intros. unfold c_isspace, c_blank. rewrite orb_true_iff, andb_true_iff, N.eqb_eq, !N.leb_le. tauto.
Qed.
Lemma c_isspace_false : forall c, c_isspace c = false <-> ~ c_blank c.
Proof.
  intros. rewrite <- c_isspace_spec. destruct (c_isspace c); split; intros; congruence.
Qed.

Lemma drop_space_spec : forall t, exists a, t = a ++ drop_space t /\ Forall c_blank a /\
  match drop_space t with [] => True | c :: _ => ~ c_blank c end.
Proof.
  induction t as [|c t IH]; simpl.
  - exists []; auto.
  - destruct (c_isspace c) eqn:E.
    + destruct IH as (a & H1 & H2 & H3). exists (c :: a). simpl. rewrite <- H1.
      repeat split; auto. constructor; auto. apply c_isspace_spec; auto.
    + exists []. simpl. repeat split; auto. apply c_isspace_false; auto.
Qed.
Lemma drop_space_app : forall a t, Forall c_blank a -> drop_space (a ++ t) = drop_space t.
Proof. induction 1; simpl; auto. apply c_isspace_spec in H. rewrite H. auto. Qed.
Lemma drop_space_nb : forall t, match t with [] => True | c :: _ => ~ c_blank c end -> drop_space t = t.
Proof. destruct t; simpl; auto. intros H. apply c_isspace_false in H. rewrite H. auto. Qed.
Lemma span_nospace_spec : forall t a r, span_nospace t = (a, r) ->
  t = a ++ r /\ Forall (fun c => ~ c_blank c) a /\ (r = [] \/ exists c r', r = c :: r' /\ c_blank c).
Proof.
  induction t as [|c t IH]; simpl; intros a r H.
  - inversion H; subst; auto.
  - destruct (c_isspace c) eqn:E.
    + inversion H; subst. simpl. repeat split; auto. right. exists c, t. split; auto. apply c_isspace_spec; auto.
    + destruct (span_nospace t) as [a' r'] eqn:Es. inversion H; subst.
      destruct (IH _ _ eq_refl) as (H1 & H2 & H3). simpl. rewrite <- H1.
      repeat split; auto. constructor; auto. apply c_isspace_false; auto.
Qed.
Lemma span_nospace_app : forall a r, Forall (fun c => ~ c_blank c) a ->
  (r = [] \/ exists c r', r = c :: r' /\ c_blank c) -> span_nospace (a ++ r) = (a, r).
Proof.
  induction 1; simpl; intros.
  - destruct H as [-> | (c & r' & -> & Hc)]; simpl; auto. apply c_isspace_spec in Hc. rewrite Hc. auto.
  - apply c_isspace_false in H. rewrite H, IHForall; auto.
Qed.

Lemma words_exist : forall n t, (List.length t <= n)%nat -> exists ws, words t ws.
Proof.
  induction n as [|n IH]; intros t Ht.
  - destruct t; simpl in Ht; [|lia]. exists []. constructor. constructor.
  - destruct (drop_space_spec t) as (a & H1 & H2 & H3).
    destruct (drop_space t) as [|c t'] eqn:E.
    + exists []. rewrite H1, app_nil_r. constructor. auto.
    + destruct (span_nospace (c :: t')) as [w r] eqn:Es.
      destruct (span_nospace_spec _ _ _ Es) as (G1 & G2 & G3).
      assert (Hw : w <> []).
      { intros ->. simpl in G1. subst r. destruct G3 as [K|(d & r' & K & Kd)]; [discriminate|].
        injection K; intros; subst. contradiction. }
      assert (Hr : (List.length r <= n)%nat).
      { rewrite H1, app_length, G1, app_length in Ht. destruct w; [congruence|]. simpl in Ht. lia. }
      destruct (IH r Hr) as (ws & Hws). exists (w :: ws). rewrite H1, G1. constructor; auto.
Qed.

Lemma words_det : forall t ws, words t ws -> forall ws', words t ws' -> ws = ws'.
Proof.
  induction 1 as [t H | a w t ws Ha Hw Hn Ht IH Hend]; intros ws' H'.
  - inversion H' as [|a w t' ws2 Ha Hw Hn Ht Hend]; subst; auto.
    exfalso. apply Forall_app in H. destruct H as (_ & H). apply Forall_app in H. destruct H as (H & _).
    destruct w; [congruence|]. inversion H; inversion Hn; contradiction.
  - assert (E : drop_space (a ++ w ++ t) = w ++ t).
    { rewrite drop_space_app by auto. apply drop_space_nb. destruct w; [congruence|]. inversion Hn; auto. }
    inversion H' as [t0 K | a' w' t' ws2 Ha' Hw' Hn' Ht' Hend' E2]; subst.
    + exfalso. apply Forall_app in K. destruct K as (_ & K). apply Forall_app in K. destruct K as (K & _).
      destruct w; [congruence|]. inversion K; inversion Hn; contradiction.
    + rewrite <- E2 in E. rewrite drop_space_app in E by auto. rewrite drop_space_nb in E
        by (destruct w'; [congruence|]; inversion Hn'; auto).
      assert (S1 := span_nospace_app w t Hn Hend). assert (S2 := span_nospace_app w' t' Hn' Hend').
      rewrite E in S2. rewrite S2 in S1. injection S1; intros; subst. f_equal. apply IH. auto.
Qed.

(** The rule reader folds [rule_word] over the words, the last one repeated when blanks follow it. *)
Definition rule_fold (atof : text -> flt) (ws : list text) (st : nat * rule) : nat * rule :=
  fold_left (fun st w => rule_word atof w st) ws st.

Lemma read_word_word : forall a x t w, Forall c_blank a -> x <> [] -> Forall (fun c => ~ c_blank c) x ->
  (t = [] \/ exists c t', t = c :: t' /\ c_blank c) ->
  read_word (mkStream (a ++ x ++ t) false false) w =
  (mkStream t (match t with [] => true | _ => false end) false, x).
Proof.
  intros a x t w Ha Hx Hn Hend. unfold read_word. cbn [s_rest s_eof s_fail orb].
  rewrite drop_space_app by auto.
  rewrite drop_space_nb by (destruct x; [congruence|]; inversion Hn; auto).
  destruct (x ++ t) as [|c0 t0] eqn:E0; [destruct x; [congruence|discriminate]|]. rewrite <- E0.
  rewrite span_nospace_app by auto. reflexivity.
Qed.

Lemma last_cons : forall {A} (l : list A) x d, last (x :: l) d = last l x.
Proof.
  induction l as [|y l IH]; intros x d; [reflexivity|].
  change (last (x :: y :: l) d) with (last (y :: l) d). rewrite !IH. reflexivity.
Qed.

Lemma rule_loop_words : forall t ws, words t ws -> forall f atof w st,
  (List.length t + 2 <= f)%nat ->
  rule_loop f atof (mkStream t false false) w st =
    Some (rule_fold atof ws st) /\ ws <> [] \/
  rule_loop f atof (mkStream t false false) w st =
    Some (rule_fold atof (ws ++ [last ws w]) st).
Proof.
  induction 1 as [t H | a x t ws Ha Hx Hn Ht IH Hend]; intros f atof w st Hf.
  - destruct f as [|[|f]]; try lia. right. simpl.
    unfold read_word. simpl. assert (drop_space t = []) as ->.
    { rewrite <- (app_nil_r t), drop_space_app; auto. }
    reflexivity.
  - destruct f as [|f]; try lia. cbn [rule_loop s_eof]. rewrite read_word_word by auto.
    destruct t as [|c t].
    + simpl. left. inversion Ht; subst; [|destruct a0; [destruct w0; [congruence|discriminate]|discriminate]].
      split; [|discriminate].
      destruct f as [|f]; [rewrite app_length in Hf; simpl in Hf; lia|]. simpl. reflexivity.
    + specialize (IH f atof x (rule_word atof x st)).
      assert (Hf' : (List.length (c :: t) + 2 <= f)%nat).
      { rewrite !app_length in Hf. destruct x; [congruence|]. simpl in *. lia. }
      destruct (IH Hf') as [(I1 & I2)|I1].
      * left. split; [exact I1|discriminate].
      * right. cbv beta iota zeta. rewrite I1, last_cons. reflexivity.
Qed.

Lemma teqb_arrow : forall w, teqb w (s2t "->") = true <-> w = ARROW.
Proof. intros. apply teqb_eq. Qed.

Lemma fold_plain0 : forall atof ws r, no_arrow ws -> rule_fold atof ws (0%nat, r) =
  (0%nat, mkRule (r_in r ++ map as_one_type ws) (r_out r) (r_score r)).
Proof.
  induction ws as [|w ws IH]; intros r H; simpl.
  - rewrite app_nil_r. destruct r; reflexivity.
  - destruct (teqb w (s2t "->")) eqn:E. { apply teqb_arrow in E. exfalso. apply H. left. auto. }
    unfold rule_fold in *. simpl in E. rewrite E. rewrite IH by (intro; apply H; right; auto). simpl. rewrite <- app_assoc. reflexivity.
Qed.
Lemma fold_plain1 : forall atof ws r, no_arrow ws -> rule_fold atof ws (1%nat, r) =
  (1%nat, mkRule (r_in r) (r_out r ++ map out_as_type ws) (r_score r)).
Proof.
  induction ws as [|w ws IH]; intros r H; simpl.
  - rewrite app_nil_r. destruct r; reflexivity.
  - destruct (teqb w (s2t "->")) eqn:E. { apply teqb_arrow in E. exfalso. apply H. left. auto. }
    unfold rule_fold in *. simpl in E. rewrite E. rewrite IH by (intro; apply H; right; auto). simpl. rewrite <- app_assoc. reflexivity.
Qed.
Lemma fold_plain2 : forall atof ws r, no_arrow ws -> rule_fold atof ws (2%nat, r) =
  (2%nat, mkRule (r_in r) (r_out r) (fold_left (fun _ w => atof w) ws (r_score r))).
Proof.
  induction ws as [|w ws IH]; intros r H; simpl.
  - destruct r; reflexivity.
  - destruct (teqb w (s2t "->")) eqn:E. { apply teqb_arrow in E. exfalso. apply H. left. auto. }
    unfold rule_fold in *. simpl in E. rewrite E. rewrite IH by (intro; apply H; right; auto). simpl. reflexivity.
Qed.
Lemma fold_done : forall atof ws k r, snd (rule_fold atof ws (S (S (S k)), r)) = r.
Proof.
  induction ws as [|w ws IH]; intros k r; simpl; auto.
  unfold rule_fold in *. simpl. destruct (teqb w _); apply IH.
Qed.
Lemma fold_arrow : forall atof ws k r, rule_fold atof (ARROW :: ws) (k, r) = rule_fold atof ws (S k, r).
Proof. intros. reflexivity. Qed.
Lemma fold_app : forall atof a b st, rule_fold atof (a ++ b) st = rule_fold atof b (rule_fold atof a st).
Proof. intros. apply fold_left_app. Qed.

(** Splitting at the first arrow. *)
Lemma split_arrow : forall ws, no_arrow ws \/ exists a b, ws = a ++ ARROW :: b /\ no_arrow a.
Proof.
  induction ws as [|w ws IH].
  - left. intros [].
  - destruct (teqb w ARROW) eqn:E.
    + apply teqb_eq in E. subst. right. exists [], ws. split; auto. intros [].
    + apply teqb_neq in E. destruct IH as [H|(a & b & -> & Ha)].
      * left. intros [K|K]; auto.
      * right. exists (w :: a), b. split; auto. intros [K|K]; auto.
Qed.

(** What the fold computes from the words. *)
Definition shape (atof : text -> flt) (ws : list text) (r : rule) : Prop :=
  exists ins outs scs sc more,
    ws = ins ++ ARROW :: outs ++ ARROW :: (scs ++ [sc]) ++ more /\
    no_arrow ins /\ no_arrow outs /\ no_arrow (scs ++ [sc]) /\ (more = [] \/ exists m, more = ARROW :: m) /\
    List.length ins = List.length outs /\ not_le_zero (atof sc) /\
    r = mkRule (map as_one_type ins) (map out_as_type outs) (atof sc).

Lemma rule_valid_spec : forall r, rule_valid r = true <->
  List.length (r_in r) = List.length (r_out r) /\ not_le_zero (r_score r).
Proof.
  intros. unfold rule_valid, not_le_zero, f_le, f_zero. rewrite negb_true_iff, orb_false_iff, negb_false_iff, Nat.eqb_eq. tauto.
Qed.

Lemma shape_fold : forall atof ws r, shape atof ws r -> snd (rule_fold atof ws (0%nat, empty_rule)) = r /\ rule_valid r = true.
Proof.
  intros atof ws r (ins & outs & scs & sc & more & -> & H1 & H2 & H3 & H4 & H5 & H6 & ->).
  split.
  - rewrite fold_app, (fold_plain0 atof ins) by auto. rewrite fold_arrow, fold_app, fold_plain1 by auto.
    rewrite fold_arrow, fold_app, fold_plain2 by auto. simpl.
    rewrite fold_left_app. simpl.
    destruct H4 as [-> | (m & ->)]; [reflexivity|]. rewrite fold_arrow. apply fold_done.
  - apply rule_valid_spec. simpl. rewrite !map_length. auto.
Qed.

Lemma fold_shape : forall atof ws r, snd (rule_fold atof ws (0%nat, empty_rule)) = r -> rule_valid r = true -> shape atof ws r.
Proof.
  intros atof ws r H Hv.
  assert (Z : forall x, rule_valid (mkRule (r_in x) (r_out x) f_zero) = true -> False).
  { intros x K. apply rule_valid_spec in K. destruct K as (_ & K). unfold not_le_zero in K. simpl in K. discriminate. }
  destruct (split_arrow ws) as [Hn|(ins & ws1 & -> & Hi)].
  { rewrite fold_plain0 in H by auto. simpl in H. subst r. exfalso. apply (Z _ Hv). }
  rewrite fold_app, fold_plain0, fold_arrow in H by auto. simpl in H.
  destruct (split_arrow ws1) as [Hn|(outs & ws2 & -> & Ho)].
  { rewrite fold_plain1 in H by auto. simpl in H. subst r. exfalso. apply (Z _ Hv). }
  rewrite fold_app, fold_plain1, fold_arrow in H by auto. simpl in H.
  assert (Hs : exists sco more, ws2 = sco ++ more /\ no_arrow sco /\ (more = [] \/ exists m, more = ARROW :: m)).
  { destruct (split_arrow ws2) as [Hn|(a & b & -> & Ha)].
    - exists ws2, []. rewrite app_nil_r. auto.
    - exists a, (ARROW :: b). repeat split; auto. right. eexists; reflexivity. }
  destruct Hs as (sco & more & -> & Hsn & Hm).
  assert (Hr : r = mkRule (map as_one_type ins) (map out_as_type outs) (fold_left (fun _ w => atof w) sco f_zero)).
  { rewrite <- H. rewrite fold_app, fold_plain2 by auto. simpl.
    destruct Hm as [-> | (m & ->)]; [reflexivity|]. rewrite fold_arrow, fold_done. reflexivity. }
  destruct (@exists_last _ sco) as (scs & sc & E).
  { intros ->. rewrite Hr in Hv. exact (Z (mkRule (map as_one_type ins) (map out_as_type outs) f_zero) Hv). }
  subst sco. rewrite fold_left_app in Hr. simpl in Hr.
  exists ins, outs, scs, sc, more. apply rule_valid_spec in Hv. rewrite Hr in Hv. simpl in Hv. rewrite !map_length in Hv.
  destruct Hv. repeat split; auto.
Qed.

Lemma last_app_cons : forall {A} (a : list A) x b d, last (a ++ x :: b) d = last (x :: b) d.
Proof.
  induction a as [|y a IH]; intros; simpl; auto.
  specialize (IH x b d). destruct (a ++ x :: b) eqn:E; [destruct a; discriminate|]. rewrite IH. reflexivity.
Qed.

(** Repeating the last word changes nothing about a valid rule. *)
Lemma app_last_inv : forall {A} (a b : list A) x y, a ++ [x] = b ++ [y] -> a = b /\ x = y.
Proof. intros. apply app_inj_tail. auto. Qed.

Lemma shape_repeat : forall atof ws w r, shape atof (ws ++ [last ws w]) r <-> shape atof ws r.
Proof.
  intros atof ws w r. split; intros (ins & outs & scs & sc & more & E & H1 & H2 & H3 & H4 & H5 & H6 & ->).
  - destruct H4 as [-> | (m & ->)].
    + rewrite app_nil_r in E.
      replace (ins ++ ARROW :: outs ++ ARROW :: scs ++ [sc]) with ((ins ++ ARROW :: outs ++ ARROW :: scs) ++ [sc]) in E
        by (repeat (rewrite <- app_assoc; simpl); reflexivity).
      apply app_last_inv in E. destruct E as (E1 & E2).
      destruct scs as [|s0 scs0].
      { exfalso. rewrite E1 in E2.
        replace (ins ++ ARROW :: outs ++ [ARROW]) with ((ins ++ ARROW :: outs) ++ [ARROW]) in E2
          by (rewrite <- app_assoc; reflexivity).
        rewrite last_last in E2. apply H3. left. auto. }
      destruct (@exists_last _ (s0 :: scs0)) as (scs' & x & Es); [discriminate|]. rewrite Es in *.
      assert (x = sc).
      { rewrite <- E2, E1.
        replace (ins ++ ARROW :: outs ++ ARROW :: scs' ++ [x]) with ((ins ++ ARROW :: outs ++ ARROW :: scs') ++ [x])
          by (repeat (rewrite <- app_assoc; simpl); reflexivity).
        rewrite last_last. reflexivity. }
      subst x. exists ins, outs, scs', sc, []. rewrite app_nil_r. repeat split; auto.
      intro K. apply H3. apply in_or_app. left. exact K.
    + destruct (@exists_last _ (ARROW :: m)) as (m' & x & Em); [discriminate|]. rewrite Em in E.
      replace (ins ++ ARROW :: outs ++ ARROW :: (scs ++ [sc]) ++ m' ++ [x])
        with ((ins ++ ARROW :: outs ++ ARROW :: (scs ++ [sc]) ++ m') ++ [x]) in E
        by (repeat (rewrite <- app_assoc; simpl); reflexivity).
      apply app_last_inv in E. destruct E as (E1 & E2).
      exists ins, outs, scs, sc, m'. repeat split; auto.
      destruct m' as [|y m'']; auto. right. simpl in Em. injection Em; intros; subst. eexists; reflexivity.
  - destruct H4 as [-> | (m & ->)].
    + rewrite app_nil_r in E.
      assert (El : last ws w = sc).
      { rewrite E. replace (ins ++ ARROW :: outs ++ ARROW :: scs ++ [sc])
          with ((ins ++ ARROW :: outs ++ ARROW :: scs) ++ [sc])
          by (repeat (rewrite <- app_assoc; simpl); reflexivity).
        apply last_last. }
      rewrite El. exists ins, outs, (scs ++ [sc]), sc, []. repeat split; auto.
      * rewrite E, app_nil_r. repeat (rewrite <- app_assoc; simpl); reflexivity.
      * intro K. apply in_app_or in K. destruct K as [K|[K|[]]]; apply H3; auto.
        apply in_or_app; right; left; auto.
    + exists ins, outs, scs, sc, ((ARROW :: m) ++ [last ws w]). repeat split; auto.
      * rewrite E at 1. repeat (rewrite <- app_assoc; simpl); reflexivity.
      * right. exists (m ++ [last ws w]). reflexivity.
Qed.

Theorem rule_parse_spec : forall atof l r, rule_parse atof l = Ok r <-> rule_line atof l r.
Proof.
  intros atof l r. unfold rule_parse, open_stream.
  destruct (words_exist _ l (Nat.le_refl _)) as (ws & Hws).
  assert (RL : rule_line atof l r <-> shape atof ws r).
  { unfold rule_line, shape. split.
    - intros (ws' & ins & outs & scs & sc & more & Hw & H). assert (ws' = ws) by (eapply words_det; eauto). subst ws'.
      exists ins, outs, scs, sc, more. exact H.
    - intros (ins & outs & scs & sc & more & H). exists ws, ins, outs, scs, sc, more. split; auto. }
  rewrite RL.
  assert (K : forall ws', rule_loop (List.length l + 2) atof (mkStream l false false) [] (0%nat, empty_rule)
                = Some (rule_fold atof ws' (0%nat, empty_rule)) ->
     (match rule_loop (List.length l + 2) atof (mkStream l false false) [] (0%nat, empty_rule) with
      | Some (_, r) => if rule_valid r then Ok r else Throw (s2t "Rule-Not-Valid(" ++ l ++ s2t ")")
      | None => UB end = Ok r <-> shape atof ws' r)).
  { intros ws' E. rewrite E. destruct (rule_fold atof ws' (0%nat, empty_rule)) as [k rr] eqn:Ef.
    split.
    - destruct (rule_valid rr) eqn:Ev; [|discriminate]. intros Q. injection Q; intros <-.
      apply fold_shape; auto. rewrite Ef. reflexivity.
    - intros H. destruct (shape_fold _ _ _ H) as (H1 & H2). rewrite Ef in H1. simpl in H1. subst rr. rewrite H2. reflexivity. }
  destruct (rule_loop_words l ws Hws (List.length l + 2)%nat atof [] (0%nat, empty_rule) (Nat.le_refl _)) as [(E & _)|E].
  - apply K. exact E.
  - rewrite (K _ E). apply shape_repeat.
Qed.

Theorem rule_parse_total : forall atof l, rule_parse atof l <> UB.
Proof.
  intros atof l. unfold rule_parse, open_stream.
  destruct (words_exist _ l (Nat.le_refl _)) as (ws & Hws).
  destruct (rule_loop_words l ws Hws (List.length l + 2)%nat atof [] (0%nat, empty_rule) (Nat.le_refl _)) as [(E & _)|E];
    rewrite E; destruct (rule_fold _ _ _); destruct (rule_valid _); discriminate.
Qed.

Theorem rule_parse_throw : forall atof l m, rule_parse atof l = Throw m -> m = s2t "Rule-Not-Valid(" ++ l ++ s2t ")".
Proof.
  intros atof l m. unfold rule_parse. destruct (rule_loop _ _ _ _ _) as [[k r]|]; [|discriminate].
  destruct (rule_valid r); [discriminate|]. intros H. injection H. auto.
Qed.
