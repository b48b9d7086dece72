(** The order of texts and of their bytes. *)
From Coq Require Import String List NArith Bool Lia.
From Verif Require Import Base_model Utf8_model Utf8_spec TextOrder_spec Utf8_proofs.
Import ListNotations.
Local Open Scope N_scope.

Lemma tltb_lt : forall a b, tltb a b = true <-> text_lt a b.
Proof.
  induction a as [|x a IH]; intros [|y b]; cbn [tltb].
  - split; [discriminate|intros H; inversion H].
  - split; [constructor|reflexivity].
  - split; [discriminate|intros H; inversion H].
  - destruct (N.ltb_spec x y) as [L|L]; [split; [intros _; constructor; exact L|reflexivity]|]. destruct (N.ltb_spec y x) as [G|G].
    + split; [discriminate|]. intros H. inversion H; subst; lia.
    + assert (x = y) as -> by lia. rewrite IH. split; [constructor; assumption|]. intros H. inversion H; subst; [lia|assumption].
Qed.
Lemma lt_irrefl : forall a, ~ text_lt a a.
Proof. induction a as [|c a IH]; intros H; inversion H; subst; [lia|auto]. Qed.
Lemma lt_asym : forall a b, text_lt a b -> text_lt b a -> False.
Proof. intros a b H. induction H; intros K; inversion K; subst; try lia; auto. Qed.
Lemma lt_total : forall a b, text_lt a b \/ a = b \/ text_lt b a.
Proof.
  induction a as [|x a IH]; intros [|y b]; [auto|left; constructor|right; right; constructor|].
  destruct (N.lt_trichotomy x y) as [L|[->|L]]; [left; constructor; exact L| |right; right; constructor; exact L].
  destruct (IH b) as [H|[->|H]]; [left; constructor; exact H|auto|right; right; constructor; exact H].
Qed.
Lemma lt_common : forall p a b, text_lt (p ++ a) (p ++ b) <-> text_lt a b.
Proof. induction p as [|c p IH]; intros a b; cbn [app]; [reflexivity|]. rewrite <- (IH a b). split; [intros H; inversion H; subst; [lia|assumption]|constructor; assumption]. Qed.
(** A smaller code point has smaller bytes. *)
Lemma char_lt : forall c d x y, utf8_of c x -> utf8_of d y -> c < d -> forall p q, text_lt (x ++ p) (y ++ q).
Proof.
  intros c d x y H K L p q.
  destruct H as [c1 H1|x1 y1 H1 H2 H3|x1 y1 z1 H1 H2 H3 H4|w1 x1 y1 z1 H1 H2 H3 H4 H5 H6], K as [c2 K1|x2 y2 K1 K2 K3|x2 y2 z2 K1 K2 K3 K4|w2 x2 y2 z2 K1 K2 K3 K4 K5 K6];
    cbn [app]; try (apply tl_char; lia).
  - destruct (N.lt_trichotomy x1 x2) as [Q|[->|Q]]; [apply tl_char; lia| |exfalso; lia]. apply tl_next, tl_char. lia.
  - destruct (N.lt_trichotomy x1 x2) as [Q|[->|Q]]; [apply tl_char; lia| |exfalso; lia]. apply tl_next.
    destruct (N.lt_trichotomy y1 y2) as [Q|[->|Q]]; [apply tl_char; lia| |exfalso; lia]. apply tl_next, tl_char. lia.
  - destruct (N.lt_trichotomy w1 w2) as [Q|[->|Q]]; [apply tl_char; lia| |exfalso; lia]. apply tl_next.
    destruct (N.lt_trichotomy x1 x2) as [Q|[->|Q]]; [apply tl_char; lia| |exfalso; lia]. apply tl_next.
    destruct (N.lt_trichotomy y1 y2) as [Q|[->|Q]]; [apply tl_char; lia| |exfalso; lia]. apply tl_next, tl_char. lia.
Qed.
Lemma utf8_of_one' : forall c d x y, utf8_of c x -> utf8_of d y -> c = d -> x = y.
Proof.
  intros c d x y H K E.
  destruct H as [c1 H1|x1 y1 H1 H2 H3|x1 y1 z1 H1 H2 H3 H4|w1 x1 y1 z1 H1 H2 H3 H4 H5 H6], K as [c2 K1|x2 y2 K1 K2 K3|x2 y2 z2 K1 K2 K3 K4|w2 x2 y2 z2 K1 K2 K3 K4 K5 K6]; try lia.
  - congruence.
  - assert (x1 = x2) by lia. assert (y1 = y2) by lia. congruence.
  - assert (x1 = x2) by lia. assert (y1 = y2) by lia. assert (z1 = z2) by lia. congruence.
  - assert (w1 = w2) by lia. assert (x1 = x2) by lia. assert (y1 = y2) by lia. assert (z1 = z2) by lia. congruence.
Qed.
Lemma utf8_of_one : forall c x y, utf8_of c x -> utf8_of c y -> x = y.
Proof. intros c x y H K. exact (utf8_of_one' c c x y H K eq_refl). Qed.
Lemma utf8_nonempty : forall c x, utf8_of c x -> exists b t, x = b :: t.
Proof. intros c x H. destruct H; do 2 eexists; reflexivity. Qed.
Lemma bytes_mono : forall a x, utf8_text a x -> forall b y, utf8_text b y -> text_lt a b -> text_lt x y.
Proof.
  intros a x H. induction H as [|c ca a x Hc H IH]; intros b y K L; inversion K as [|d db b' y' Hd K']; subst; inversion L; subst.
  - destruct (utf8_nonempty _ _ Hd) as (e & t & ->). constructor.
  - exact (char_lt _ _ _ _ Hc Hd ltac:(assumption) x y').
  - rewrite (utf8_of_one _ _ _ Hc Hd). apply lt_common. apply (IH b'); assumption.
Qed.
Lemma bytes_order : forall a b x y, utf8_text a x -> utf8_text b y -> (text_lt a b <-> text_lt x y).
Proof.
  intros a b x y H K. split; [exact (bytes_mono a x H b y K)|]. intros L. destruct (lt_total a b) as [Q|[->|Q]]; [exact Q| |].
  - exfalso. assert (x = y). { clear L. revert y K. induction H as [|c ca a x Hc H IH]; intros y K; inversion K as [|d db b' y' Hd K']; subst; [reflexivity|]. rewrite (utf8_of_one _ _ _ Hc Hd), (IH _ K'). reflexivity. }
    subst. exact (lt_irrefl _ L).
  - exfalso. exact (lt_asym _ _ L (bytes_mono b y K a x H Q)).
Qed.
Lemma encode_scalars : forall a x, encode a = Ok x -> utf8_text a x.
Proof.
  intros a x E. assert (F : Forall scalar a).
  { revert x E. induction a as [|c a IH]; intros x E; [constructor|]. unfold encode in E; fold encode in E. constructor.
    - destruct (N.lt_ge_cases c 0x110000) as [L|L]; [exact L|]. exfalso. destruct (encode_big c) as (m & K); [unfold scalar; lia|]. cbn [encode] in E. rewrite K in E. discriminate.
    - cbn [encode] in E. destruct (code_point_to_utf8 c); try discriminate. cbn [obind] in E. destruct (encode a) as [r| |]; try discriminate. exact (IH r eq_refl). }
  destruct (encode_text a F) as (s & E' & U). rewrite E in E'. injection E' as <-. exact U.
Qed.
Lemma encoded_order : forall a b x y, encode a = Ok x -> encode b = Ok y -> (text_lt a b <-> text_lt x y).
Proof. intros a b x y H K. apply bytes_order; apply encode_scalars; assumption. Qed.
