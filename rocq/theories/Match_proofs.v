(** What the constant patterns match. *)
From Coq Require Import String List NArith Bool Lia Arith.
From Verif Require Import Base_model Uni_model Regex_model.
Import ListNotations.
Local Open Scope N_scope.

Section L.
Variables (u : uni) (ic : bool).
(** The texts a pattern can take off the front, whatever precedes. *)
Definition rlang (r : re) (P : text -> Prop) : Prop :=
  forall s b, (exists s', In s' (mt u ic r s) /\ m_rest s' = b) <-> (exists a, m_rest s = a ++ b /\ P a).
(** The texts a pattern matches up to the end. *)
Definition rall (r : re) (P : text -> Prop) : Prop :=
  forall s, (exists s', In s' (mt u ic r s) /\ m_rest s' = []) <-> P (m_rest s).

Definition set_pred (neg : bool) (l : list item) (c : N) : bool := xorb neg (existsb (item_has u ic c) l).
Lemma one_char_in : forall p s s', In s' (one_char p s) <-> exists c t, m_rest s = c :: t /\ p c = true /\ s' = m_step s c t.
Proof.
  intros p s s'. unfold one_char. destruct (m_rest s) as [|c t].
  - split; [intros []|]. intros (c & t & H & _). discriminate.
  - destruct (p c) eqn:E.
    + simpl. split; [intros [<-|[]]; exists c, t; auto|]. intros (c' & t' & H & _ & ->). injection H as -> ->. auto.
    + split; [intros []|]. intros (c' & t' & H & Hp & _). injection H as -> ->. congruence.
Qed.
Lemma lang_set : forall neg l, rlang (RSet neg l) (fun a => exists c, a = [c] /\ set_pred neg l c = true).
Proof.
  intros neg l s b. cbn [mt]. split.
  - intros (s' & H & <-). apply one_char_in in H. destruct H as (c & t & H & Hp & ->). exists [c]. split; [exact H|]. exists c. auto.
  - intros (a & H & c & -> & Hp). exists (m_step s c b). split; [|reflexivity]. apply one_char_in. exists c, b. auto.
Qed.
Lemma lang_dot : rlang RDot (fun a => exists c, a = [c]).
Proof.
  intros s b. cbn [mt]. split.
  - intros (s' & H & <-). apply one_char_in in H. destruct H as (c & t & H & Hp & ->). exists [c]. split; [exact H|]. exists c. auto.
  - intros (a & H & c & ->). exists (m_step s c b). split; [|reflexivity]. apply one_char_in. exists c, b. auto.
Qed.
Lemma lang_empty : rlang REmpty (fun a => a = []).
Proof.
  intros s b. cbn [mt]. split.
  - intros (s' & [<-|[]] & <-). exists []. auto.
  - intros (a & H & ->). exists s. split; [left; reflexivity|exact H].
Qed.
Lemma lang_cat : forall a b P Q, rlang a P -> rlang b Q -> rlang (RCat a b) (fun t => exists x y, t = x ++ y /\ P x /\ Q y).
Proof.
  intros a b P Q Ha Hb s r. cbn [mt]. split.
  - intros (s' & H & E). apply in_flat_map in H. destruct H as (s1 & H1 & H2).
    destruct (proj1 (Ha s (m_rest s1)) (ex_intro _ s1 (conj H1 eq_refl))) as (x & Ex & Px).
    destruct (proj1 (Hb s1 r) (ex_intro _ s' (conj H2 E))) as (y & Ey & Qy).
    exists (x ++ y). split; [rewrite <- app_assoc, <- Ey; exact Ex|]. exists x, y. auto.
  - intros (t & H & x & y & -> & Px & Qy). rewrite <- app_assoc in H.
    destruct (proj2 (Ha s (y ++ r)) (ex_intro _ x (conj H Px))) as (s1 & H1 & E1).
    destruct (proj2 (Hb s1 r) (ex_intro _ y (conj E1 Qy))) as (s2 & H2 & E2).
    exists s2. split; [|exact E2]. apply in_flat_map. exists s1. auto.
Qed.
Lemma lang_alt : forall a b P Q, rlang a P -> rlang b Q -> rlang (RAlt a b) (fun t => P t \/ Q t).
Proof.
  intros a b P Q Ha Hb s r. cbn [mt]. split.
  - intros (s' & H & E). apply in_app_iff in H. destruct H as [H|H].
    + destruct (proj1 (Ha s r) (ex_intro _ s' (conj H E))) as (x & Ex & Px). exists x. auto.
    + destruct (proj1 (Hb s r) (ex_intro _ s' (conj H E))) as (x & Ex & Px). exists x. auto.
  - intros (x & E & [Px|Qx]).
    + destruct (proj2 (Ha s r) (ex_intro _ x (conj E Px))) as (s1 & H1 & E1). exists s1. rewrite in_app_iff. auto.
    + destruct (proj2 (Hb s r) (ex_intro _ x (conj E Qx))) as (s1 & H1 & E1). exists s1. rewrite in_app_iff. auto.
Qed.
Lemma lang_opt : forall a P, rlang a P -> rlang (ROpt a) (fun t => P t \/ t = []).
Proof.
  intros a P Ha s r. cbn [mt]. split.
  - intros (s' & H & E). apply in_app_iff in H. destruct H as [H|[<-|[]]].
    + destruct (proj1 (Ha s r) (ex_intro _ s' (conj H E))) as (x & Ex & Px). exists x. auto.
    + exists []. simpl. auto.
  - intros (x & E & [Px| ->]).
    + destruct (proj2 (Ha s r) (ex_intro _ x (conj E Px))) as (s1 & H1 & E1). exists s1. rewrite in_app_iff. auto.
    + exists s. rewrite in_app_iff. simpl in *. auto.
Qed.
Lemma lang_cap : forall k a P, rlang a P -> rlang (RCap k a) P.
Proof.
  intros k a P Ha s r. cbn [mt]. rewrite <- (Ha s r). split.
  - intros (s' & H & E). apply in_map_iff in H. destruct H as (s1 & <- & H). exists s1. auto.
  - intros (s' & H & E). eexists. split; [apply in_map; exact H|exact E].
Qed.
Lemma lang_weaken : forall r (P Q : text -> Prop), (forall t, P t <-> Q t) -> rlang r P -> rlang r Q.
Proof.
  intros r P Q H Hr s b. rewrite (Hr s b). split; intros (a & E & K); exists a; (split; [exact E|apply H; exact K]).
Qed.
(** Repeats of one character. *)
Lemma star_set : forall p n s b, (List.length (m_rest s) <= n)%nat ->
  (exists s', In s' (star_of (one_char p) n s) /\ m_rest s' = b) <->
  (exists a, m_rest s = a ++ b /\ Forall (fun c => p c = true) a).
Proof.
  induction n as [|n IH]; intros s b Hn.
  - simpl. destruct (m_rest s) eqn:E; [|simpl in Hn; lia]. split.
    + intros (s' & [<-|[]] & <-). exists []. rewrite E. split; [reflexivity|constructor].
    + intros (a & H & _). symmetry in H. apply app_eq_nil in H. destruct H as (-> & ->). exists s. auto.
  - cbn [star_of]. split.
    + intros (s' & H & E). apply in_app_iff in H. destruct H as [H|[<-|[]]]; [|exists []; split; [exact E|constructor]].
      apply in_flat_map in H. destruct H as (s1 & H1 & H2). apply one_char_in in H1. destruct H1 as (c & t & H1 & Hp & ->).
      destruct (Nat.ltb _ _) eqn:L; [|destruct H2]. cbn [m_rest m_step] in *.
      destruct (proj1 (IH (m_step s c t) b ltac:(cbn [m_rest m_step]; rewrite H1 in Hn; simpl in Hn; lia)) (ex_intro _ s' (conj H2 E))) as (a & Ea & Fa).
      simpl in Ea. exists (c :: a). rewrite H1, Ea. split; [reflexivity|constructor; assumption].
    + intros (a & E & F). destruct a as [|c a].
      * exists s. rewrite in_app_iff. simpl in *. auto.
      * inversion F; subst. simpl in E.
        destruct (proj2 (IH (m_step s c (a ++ b)) b ltac:(simpl; rewrite E in Hn; simpl in Hn; lia))) as (s' & H & Eb).
        { exists a. auto. }
        exists s'. split; [|exact Eb]. apply in_app_iff. left. apply in_flat_map. exists (m_step s c (a ++ b)). split.
        -- apply one_char_in. exists c, (a ++ b). auto.
        -- replace (Nat.ltb _ _) with true; [exact H|]. symmetry. apply Nat.ltb_lt. rewrite E. simpl. lia.
Qed.
Lemma lang_plus_set : forall neg l, rlang (RPlus (RSet neg l)) (fun t => t <> [] /\ Forall (fun c => set_pred neg l c = true) t).
Proof.
  intros neg l s b. cbn [mt]. split.
  - intros (s' & H & E). apply in_flat_map in H. destruct H as (s1 & H1 & H2). apply one_char_in in H1. destruct H1 as (c & t & H1 & Hp & ->).
    destruct (proj1 (star_set (set_pred neg l) (List.length (m_rest (m_step s c t))) (m_step s c t) b (le_n _)) (ex_intro _ s' (conj H2 E))) as (a & Ea & Fa).
    simpl in Ea. exists (c :: a). rewrite H1, Ea. split; [reflexivity|]. split; [discriminate|constructor; assumption].
  - intros (a & E & Ne & F). destruct a as [|c a]; [congruence|]. inversion F; subst. simpl in E.
    destruct (proj2 (star_set (set_pred neg l) (List.length (m_rest (m_step s c (a ++ b)))) (m_step s c (a ++ b)) b (le_n _))) as (s' & H & Eb).
    { exists a. auto. }
    exists s'. split; [|exact Eb]. apply in_flat_map. exists (m_step s c (a ++ b)). split; [|exact H]. apply one_char_in. exists c, (a ++ b). auto.
Qed.
Lemma lang_star_set : forall neg l, rlang (RStar (RSet neg l)) (fun t => Forall (fun c => set_pred neg l c = true) t).
Proof. intros neg l s b. cbn [mt]. apply (star_set (set_pred neg l)). apply le_n. Qed.
Lemma lang_star_dot : rlang (RStar RDot) (fun t => True).
Proof.
  intros s b. cbn [mt]. rewrite (star_set (fun _ => true)) by apply le_n.
  split; intros (a & E & F); exists a; (split; [exact E|]); [exact I|]. apply Forall_forall. reflexivity.
Qed.
Lemma lang_plus_dot : rlang (RPlus RDot) (fun t => t <> []).
Proof.
  intros s b. cbn [mt]. split.
  - intros (s' & H & E). apply in_flat_map in H. destruct H as (s1 & H1 & H2). apply one_char_in in H1. destruct H1 as (c & t & H1 & Hp & ->).
    destruct (proj1 (star_set (fun _ => true) (List.length (m_rest (m_step s c t))) (m_step s c t) b (le_n _)) (ex_intro _ s' (conj H2 E))) as (a & Ea & Fa).
    simpl in Ea. exists (c :: a). rewrite H1, Ea. split; [reflexivity|discriminate].
  - intros (a & E & Ne). destruct a as [|c a]; [congruence|]. simpl in E.
    destruct (proj2 (star_set (fun _ => true) (List.length (m_rest (m_step s c (a ++ b)))) (m_step s c (a ++ b)) b (le_n _))) as (s' & H & Eb).
    { exists a. split; [reflexivity|]. apply Forall_forall. reflexivity. }
    exists s'. split; [|exact Eb]. apply in_flat_map. exists (m_step s c (a ++ b)). split; [|exact H]. apply one_char_in. exists c, (a ++ b). auto.
Qed.
(** Up to the end. *)
Lemma all_eol : rall (RCat REol REmpty) (fun t => t = []).
Proof.
  intros s. cbn [mt]. unfold guard. split.
  - intros (s' & H & E). destruct (at_eol s); [|destruct H]. simpl in H. destruct H as [<-|[]]. exact E.
  - intros E. exists s. split; [|exact E]. unfold at_eol. rewrite E. simpl. auto.
Qed.
Lemma all_empty : rall REmpty (fun t => t = []).
Proof. intros s. cbn [mt]. split; [intros (s' & [<-|[]] & E); exact E|intros E; exists s; simpl; auto]. Qed.
Lemma all_cat : forall a b P Q, rlang a P -> rall b Q -> rall (RCat a b) (fun t => exists x y, t = x ++ y /\ P x /\ Q y).
Proof.
  intros a b P Q Ha Hb s. cbn [mt]. split.
  - intros (s' & H & E). apply in_flat_map in H. destruct H as (s1 & H1 & H2).
    destruct (proj1 (Ha s (m_rest s1)) (ex_intro _ s1 (conj H1 eq_refl))) as (x & Ex & Px).
    assert (Q1 := proj1 (Hb s1) (ex_intro _ s' (conj H2 E))). exists x, (m_rest s1). auto.
  - intros (x & y & H & Px & Qy).
    destruct (proj2 (Ha s y) (ex_intro _ x (conj H Px))) as (s1 & H1 & E1). rewrite <- E1 in Qy.
    destruct (proj2 (Hb s1) Qy) as (s2 & H2 & E2). exists s2. split; [|exact E2]. apply in_flat_map. exists s1. auto.
Qed.
Lemma match_all_iff : forall r (P : text -> Prop) t, rall r P ->
  ((match match_all u ic r t with Some _ => true | None => false end) = true <-> P t).
Proof.
  intros r P t H. unfold match_all. destruct (find _ _) as [s|] eqn:F.
  - split; [intros _|reflexivity]. apply find_some in F. destruct F as (F1 & F2). apply (proj1 (H (m_start t))). exists s. split; [exact F1|].
    destruct (m_rest s); [reflexivity|discriminate].
  - split; [discriminate|]. intros K. exfalso. destruct (proj2 (H (m_start t)) K) as (s & F1 & F2).
    assert (Z := find_none _ _ F _ F1). simpl in Z. rewrite F2 in Z. discriminate.
Qed.
(** A leading [^] is true at the start. *)
Lemma match_bol_iff : forall r (P : text -> Prop) t, rall r P ->
  ((match match_all u ic (RCat RBol r) t with Some _ => true | None => false end) = true <-> P t).
Proof.
  intros r P t H. unfold match_all. cbn [mt]. unfold guard. cbn [at_bol m_start m_prev flat_map]. rewrite app_nil_r.
  apply (match_all_iff r P t H).
Qed.
End L.
