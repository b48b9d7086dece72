(** Lemmas about exchanged separators. *)
From Coq Require Import String List NArith Bool Lia Arith.
From Verif Require Import Base_model Class_model Uni_model Token_model Lexicon_model Tokenizer_model Archive_model Float_model Rule_model Search_model Grammar_model Wrapper_model
  Sample_model Class_spec Grammar_spec LexText_spec Lexicon_spec Tokenizer_spec Split_spec Read_spec Address_spec Answer_spec End_spec Local_spec Gap_spec Blank_proofs
  TokAlt_proofs Tab_proofs Split_proofs SplitEx_proofs Address_proofs Wrapper_proofs WrapperTop_proofs TokExample_proofs WrapperEx_proofs AddressEx_proofs End_proofs EndEx_proofs Edges_proofs.
Import ListNotations.
Local Open Scope N_scope.

Section Gaps.
Variables (u : uni) (x : lexicon) (filt : text) (Q : text -> Prop).
Hypothesis AT : apart_tables u.
Notation R := (regapped u x filt Q).
Notation drop := (droppable u x filt Q).

Lemma drop_head : forall g, drop g -> exists c g1, g = c :: g1 /\ sep_char u c /\ ~ line_end c.
Proof. intros g (N & _ & F & _). destruct g as [|c g1]; [destruct (N eq_refl)|]. inversion F as [|? ? (H1 & H2) _]; subst. exists c, g1. auto. Qed.
Lemma rg_none : forall p t t', R p t t' -> (forall c, p = Some c -> sep_char u c \/ dash u c) -> R None t t'.
Proof. intros p t t' H K. destruct H as [p|p c t t' H|c g g' t t' N1 N2 D D' B H]; [constructor|constructor; exact H|]. destruct (K c eq_refl); contradiction. Qed.
Lemma rg_more : forall p t t', R None t t' -> R p t t'.
Proof. intros p t t' H. inversion H; subst; [constructor|constructor; assumption]. Qed.
Lemma rg_head : forall t t', R None t t' -> hd_error t = hd_error t'.
Proof. intros t t' H. inversion H; subst; reflexivity. Qed.
Lemma head_sep : forall t t', hd_error t = hd_error t' -> ~ begins_sep u t -> ~ begins_sep u t'.
Proof. intros [|c t] [|c' t'] E N; try discriminate; [exact N|]. injection E as <-. exact N. Qed.
Lemma rg_sym : forall p t t', R p t t' -> R p t' t.
Proof.
  intros p t t' H. induction H as [p|p c t t' H IH|c g g' t t' N1 N2 D D' B H IH]; [constructor|constructor; exact IH|]. constructor; try assumption.
  exact (head_sep _ _ (rg_head _ _ H) B).
Qed.
Lemma rg_nil_iff : forall p t t', R p t t' -> (t = [] <-> t' = []).
Proof.
  intros p t t' H. destruct H as [p|p c t t' H|c g g' t t' _ _ (N & _) (N' & _) _ H]; [tauto|split; discriminate|].
  destruct g; [destruct (N eq_refl)|]. destruct g'; [destruct (N' eq_refl)|]. split; discriminate.
Qed.
Lemma rg_stops : forall p t t', R p t t' -> stops u t -> stops u t'.
Proof.
  intros p t t' H S. destruct H as [p|p c t t' H|c g g' t t' _ _ D D' _ H]; [exact I|exact S|]. destruct (drop_head _ D') as (d & g1 & -> & K0 & _). left. exact K0.
Qed.

(** ** Beginnings *)
Fixpoint after (p : option N) (w : text) : option N := match w with [] => p | c :: w' => after (Some c) w' end.
Definition solid (w r : text) : Prop := forall a c b, w = a ++ c :: b -> forall g t, drop g -> c :: b ++ r <> g ++ t.
Lemma rg_prefix : forall w r p t', solid w r -> R p (w ++ r) t' -> exists r', t' = w ++ r' /\ R (after p w) r r'.
Proof.
  induction w as [|c w IH]; intros r p t' K H; [exists t'; auto|]. cbn [app] in H. inversion H as [|p' c' t1 t1' H1|c' g g' t1 t1' N1 N2 D D' B H1 E1 E2]; subst.
  - destruct (IH r (Some c) t1') as (r' & -> & H2); [|exact H1|exists r'; split; [reflexivity|exact H2]].
    intros a d b E g t D. apply (K (c :: a) d b); [rewrite E; reflexivity|exact D].
  - exfalso. apply (K [] c w eq_refl g t1 D). symmetry. assumption.
Qed.
Lemma solid_word : forall w r, (forall a b g, w = a ++ b -> b <> [] -> Q g -> ~ begins g b /\ ~ begins b g) -> solid w r.
Proof.
  intros w r K a c b -> g t D E. destruct (K a (c :: b) g eq_refl ltac:(discriminate) (proj1 (proj2 D))) as (K1 & K2).
  destruct (app_eq_app (c :: b) r g t E) as (m & [(E1 & E2)|(E1 & E2)]); [apply K1|apply K2]; exists m; exact E1.
Qed.
Lemma solid_run : forall w r, Forall (alnum u) w -> solid w r.
Proof.
  intros w r F a c b -> g t D E. destruct (drop_head _ D) as (d & g1 & -> & K0 & _). injection E as <- _. apply Forall_app in F. destruct F as (_ & F). inversion F as [|? ? H _]; subst.
  destruct (proj1 AT c H) as (K & _). exact (K K0).
Qed.
Lemma digits_alnum : forall a, digits u a -> Forall (alnum u) a.
Proof. intros a (_ & F). eapply Forall_impl; [|exact F]. intros c H. right. exact H. Qed.
Lemma solid_sign : forall s d r g t, joins u s -> digits u d -> drop g -> s :: d ++ r <> g ++ t.
Proof.
  intros s d r g t S (N2 & F2) D K. destruct (drop_head _ D) as (c & g1 & -> & _). injection K as <- K. destruct d as [|e d]; [destruct (N2 eq_refl)|].
  destruct D as (_ & _ & F & J & _). destruct g1 as [|f g1]; [exact (J _ eq_refl S)|]. injection K as <- _. inversion F as [|? ? _ F']; subst. inversion F' as [|? ? (K0 & _) _]; subst.
  inversion F2 as [|? ? DG _]; subst. destruct (proj1 AT e (or_intror DG)) as (Z & _). exact (Z K0).
Qed.
Lemma solid_number : forall w r, number_like u w -> solid w r.
Proof.
  intros w r (d1 & s & d2 & -> & D1 & D2 & S) a c b E g t D K.
  destruct (app_eq_app _ _ _ _ E) as (l & [(E1 & E2)|(E1 & E2)]).
  - destruct l as [|z l]; cbn [app] in E2; injection E2 as Ez Eb.
    + subst c b. exact (solid_sign s d2 r g t S D2 D K).
    + subst z b. apply digits_alnum in D1. apply (solid_run d1 (s :: d2 ++ r) D1 a c l E1 g t D). rewrite <- K, <- app_assoc. reflexivity.
  - destruct l as [|z l]; cbn [app] in E2; injection E2 as Ez Eb.
    + subst c b. exact (solid_sign s d2 r g t S D2 D K).
    + subst z. apply digits_alnum in D2. exact (solid_run d2 r D2 l c b Eb g t D K).
Qed.
Lemma rg_blanks : forall b t t', blanks u b -> R None (b ++ t) t' -> exists t1, t' = b ++ t1 /\ R None t t1.
Proof.
  induction b as [|c b IH]; intros t t' F H; [exists t'; auto|]. inversion F as [|? ? S F']; subst. cbn [app] in H. inversion H as [|p' c' t1 t1' H1|]; subst.
  apply rg_none in H1; [|intros d E; injection E as <-; left; right; right; right; left; exact S]. destruct (IH t t1' F' H1) as (t2 & -> & H2). exists t2. auto.
Qed.

(** ** Tokens *)
Definition clear (t : text) : Prop := words_clear u x Q t.
Lemma clear_back : forall a t, clear (a ++ t) -> clear t.
Proof. intros a t H w a0 b0 g L (a1 & b1 & E). apply (H w a0 b0 g L). exists (a ++ a1), b1. rewrite E, <- app_assoc. reflexivity. Qed.
Lemma rg_word : forall t t' w r, R None t t' -> clear t -> word_at x u t w r -> exists r', word_at x u t' w r' /\ R (after None w) r r'.
Proof.
  intros t t' w r H C (-> & L & S). destruct (rg_prefix w r None t') as (r' & -> & H2); [|exact H|].
  - apply solid_word. intros a b g. apply (C w a b g L). exists [], r. reflexivity.
  - exists r'. split; [split; [reflexivity|split; [exact L|exact (rg_stops _ _ _ H2 S)]]|exact H2].
Qed.
Lemma rg_number : forall t t' w r, R None t t' -> number_at u t w r -> exists r', number_at u t' w r' /\ R (after None w) r r'.
Proof.
  intros t t' w r H (-> & L & S). destruct (rg_prefix w r None t' (solid_number w r L) H) as (r' & -> & H2).
  exists r'. split; [split; [reflexivity|split; [exact L|exact (rg_stops _ _ _ H2 S)]]|exact H2].
Qed.
Lemma rg_run : forall t t' w r, R None t t' -> run_at u t w r -> exists r', run_at u t' w r' /\ R (after None w) r r'.
Proof.
  intros t t' w r H (-> & N & L & S). destruct (rg_prefix w r None t' (solid_run w r L) H) as (r' & -> & H2).
  exists r'. split; [split; [reflexivity|split; [exact N|split; [exact L|exact (rg_stops _ _ _ H2 S)]]]|exact H2].
Qed.
Lemma rg_nothing : forall t t', R None t t' -> nothing_at x u t -> nothing_at x u t'.
Proof. intros t t' H (L & S). split; [exact L|exact (rg_stops _ _ _ H S)]. Qed.
Lemma rg_dash : forall t t', R None t t' -> begins_dash u t -> begins_dash u t'.
Proof. intros t t' H D. apply rg_head in H. destruct t as [|c t]; [destruct D|]. destruct t' as [|c' t']; [discriminate|]. injection H as <-. exact D. Qed.
Lemma rg_token : forall t t' w r, R None t t' -> clear t -> clear t' -> token_at u x t w r -> exists r', t' = w ++ r' /\ token_at u x t' w r' /\ R (after None w) r r'.
Proof.
  intros t t' w r H C C' T. assert (Y := rg_sym _ _ _ H).
  assert (ND : ~ begins_dash u t -> ~ begins_dash u t') by (intros N D; exact (N (rg_dash _ _ Y D))).
  assert (NW : (forall w' r', ~ word_at x u t w' r') -> forall w' r', ~ word_at x u t' w' r') by (intros N w' r' X; destruct (rg_word _ _ _ _ Y C' X) as (r2 & Q2 & _); exact (N _ _ Q2)).
  assert (NN : ~ nothing_at x u t -> ~ nothing_at x u t') by (intros N X; exact (N (rg_nothing _ _ Y X))).
  destruct T as [w r D W M|D N|w r D N1 N2 N|w r D N1 N2 N3 N].
  - destruct (rg_word _ _ _ _ H C W) as (r' & W' & H2). exists r'. split; [exact (proj1 W')|]. split; [|exact H2]. apply ta_word; [exact (ND D)|exact W'|].
    intros w2 r2 X. destruct (rg_word _ _ _ _ Y C' X) as (r3 & Q3 & _). exact (M _ _ Q3).
  - exists t'. split; [reflexivity|]. split; [apply ta_nothing; [exact (ND D)|exact (rg_nothing _ _ H N)]|exact H].
  - destruct (rg_number _ _ _ _ H N) as (r' & W' & H2). exists r'. split; [exact (proj1 W')|]. split; [|exact H2]. apply ta_number; auto.
  - destruct (rg_run _ _ _ _ H N) as (r' & W' & H2). exists r'. split; [exact (proj1 W')|]. split; [|exact H2]. apply ta_run; auto.
    intros w2 r2 X. destruct (rg_number _ _ _ _ Y X) as (r3 & Q3 & _). exact (N3 _ _ Q3).
Qed.
Lemma rg_unreadable : forall t t', R None t t' -> clear t -> clear t' -> unreadable u x t -> unreadable u x t'.
Proof.
  intros t t' H C C' U b t1 w r -> B T. destruct (rg_blanks b t1 t B (rg_sym _ _ _ H)) as (t2 & -> & H2). apply clear_back in C, C'.
  destruct (rg_token _ _ _ _ H2 C' C T) as (r' & _ & T' & _). exact (U b t2 w r' eq_refl B T').
Qed.
Lemma rg_read : forall t t' b w r, R None t t' -> clear t -> clear t' -> read_at u x t b w r -> exists r', read_at u x t' b w r' /\ R (after None w) r r'.
Proof.
  intros t t' b w r H C C' (-> & B & T & M). destruct (rg_blanks b _ t' B H) as (t2 & -> & H2). assert (Cb := clear_back _ _ C). assert (Cb' := clear_back _ _ C').
  destruct (rg_token _ _ _ _ H2 Cb Cb' T) as (r' & -> & T' & H3). exists r'. split; [|exact H3]. split; [reflexivity|]. split; [exact B|]. split; [exact T'|].
  intros b2 t3 E B2 L w2 r2 T2. rewrite E in H, C'. destruct (rg_blanks b2 t3 _ B2 (rg_sym _ _ _ H)) as (t4 & E4 & H4). rewrite E4 in C. apply clear_back in C, C'.
  destruct (rg_token _ _ _ _ H4 C' C T2) as (r5 & _ & T5 & _). exact (M b2 t4 E4 B2 L w2 r5 T5).
Qed.

(** ** Separators *)
Definition alike_seps (s s' : text) : Prop := s = s' \/ (drop s /\ drop s').
Lemma rg_same_run : forall s rest t', Forall (sep_char u) s -> R None (s ++ rest) t' -> exists rest', t' = s ++ rest' /\ R None rest rest'.
Proof.
  induction s as [|c s IH]; intros rest t' F H; [exists t'; auto|]. inversion F as [|? ? S F']; subst. cbn [app] in H. inversion H as [|p' c' t1 t1' H1|]; subst.
  apply rg_none in H1; [|intros d E; injection E as <-; left; exact S]. destruct (IH rest t1' F' H1) as (t2 & -> & H2). exists t2. auto.
Qed.
Lemma run_unique : forall s rest g t, Forall (sep_char u) s -> ~ begins_sep u rest -> Forall (sep_char u) g -> ~ begins_sep u t -> s ++ rest = g ++ t -> s = g /\ rest = t.
Proof.
  induction s as [|c s IH]; intros rest g t F B F' B' E.
  - destruct g as [|d g]; [auto|]. cbn [app] in E. subst rest. exfalso. apply B. inversion F'; assumption.
  - destruct g as [|d g].
    + cbn [app] in E. subst t. exfalso. apply B'. inversion F; assumption.
    + injection E as <- E. inversion F; inversion F'; subst. destruct (IH rest g t) as (-> & ->); auto.
Qed.
Lemma rg_separator : forall p s rest t', R p (s ++ rest) t' -> separator u s rest -> exists s' rest', t' = s' ++ rest' /\ separator u s' rest' /\ R None rest rest' /\ alike_seps s s'.
Proof.
  intros p s rest t' H [(-> & ->)|[(N & F & B)|(c & -> & D & NS)]].
  - cbn [app] in H. inversion H; subst.
    + exists [], []. split; [reflexivity|]. split; [left; auto|]. split; [constructor|left; reflexivity].
    + exfalso. match goal with K : _ ++ _ = [] |- _ => apply app_eq_nil in K; destruct K as (K & _) end. match goal with D : drop ?g, K : ?g = [] |- _ => destruct D as (D & _); exact (D K) end.
  - assert (B' : ~ begins_sep u rest) by (destruct rest; [intros []|exact B]). destruct s as [|c s]; [destruct (N eq_refl)|]. cbn [app] in H. inversion H as [|p' c' t1 t1' H1|c' g g' t1 t1' N1 N2 D D' B1 H1 E1 E2]; subst.
    + inversion F as [|? ? S F']; subst. apply rg_none in H1; [|intros d E; injection E as <-; left; exact S]. destruct (rg_same_run s rest t1' F' H1) as (rest' & -> & H2).
      exists (c :: s), rest'. split; [reflexivity|]. split; [|split; [exact H2|left; reflexivity]]. right; left. split; [discriminate|]. split; [exact F|].
      assert (HS := head_sep _ _ (rg_head _ _ H2) B'). destruct rest'; [exact I|exact HS].
    + assert (Fg : Forall (sep_char u) g) by (eapply Forall_impl; [|exact (proj1 (proj2 (proj2 D)))]; intros ? (Q0 & _); exact Q0). destruct (run_unique g t1 (c :: s) rest Fg B1 F B' E2) as (-> & ->).
      exists g', t1'. split; [reflexivity|]. split; [|split; [exact H1|right; auto]]. right; left. split; [exact (proj1 D')|]. split; [eapply Forall_impl; [|exact (proj1 (proj2 (proj2 D')))]; intros ? (Q0 & _); exact Q0|].
      assert (HS := head_sep _ _ (rg_head _ _ H1) B1). destruct t1'; [exact I|exact HS].
  - cbn [app] in H. inversion H as [|p' c' t1 t1' H1|c' g g' t1 t1' N1 N2 D1 D' B1 H1 E1 E2]; subst.
    + exists [c], t1'. split; [reflexivity|]. split; [right; right; exists c; auto|]. split; [|left; reflexivity]. apply (rg_none _ _ _ H1). intros d E. injection E as <-. right. exact D.
    + exfalso. destruct (drop_head _ D1) as (d & g1 & -> & K0 & _). injection E2 as <- _. exact (NS K0).
Qed.

(** ** Lines *)
Inductive item := Same (c : N) | Gap (g g' : text).
Definition one (i : item) : text := match i with Same c => [c] | Gap g _ => g end.
Definition two (i : item) : text := match i with Same c => [c] | Gap _ g' => g' end.
Definition flat (f : item -> text) (l : list item) : text := concat (map f l).
Fixpoint fit (p : option N) (l : list item) : Prop :=
  match l with
  | [] => True
  | Same c :: l' => fit (Some c) l'
  | Gap g g' :: l' => (exists c, p = Some c /\ ~ sep_char u c /\ ~ dash u c) /\ drop g /\ drop g' /\ ~ begins_sep u (flat one l') /\ fit None l'
  end.
Lemma rg_items : forall p t t', R p t t' -> exists l, fit p l /\ t = flat one l /\ t' = flat two l.
Proof.
  intros p t t' H. induction H as [p|p c t t' H (l & F & -> & ->)|c g g' t t' N1 N2 D D' B H (l & F & -> & ->)].
  - exists []. repeat split.
  - exists (Same c :: l). auto.
  - exists (Gap g g' :: l). split; [|auto]. cbn [fit]. split; [exists c; auto|]. auto.
Qed.
Lemma items_rg : forall l p, fit p l -> R p (flat one l) (flat two l).
Proof.
  induction l as [|[c|g g'] l IH]; intros p F; [constructor|constructor; apply IH; exact F|]. destruct F as ((c & -> & N1 & N2) & D & D' & B & F).
  cbn [flat map concat one two]. fold (flat one l). fold (flat two l). constructor; auto.
Qed.
Lemma fit_line : forall l1 l2 p c, fit p (l1 ++ Same c :: l2) -> sep_char u c -> fit None l2.
Proof.
  induction l1 as [|[d|g g'] l1 IH]; intros l2 p c F S; cbn [app fit] in F.
  - destruct l2 as [|[e|g g'] l2]; [exact I|exact F|]. cbn [fit] in F. destruct F as ((d & E & N & _) & _). injection E as <-. contradiction.
  - exact (IH _ _ _ F S).
  - destruct F as (_ & _ & _ & _ & F). exact (IH _ _ _ F S).
Qed.
(** Both sides of an item. *)
Definition side (f : item -> text) : Prop := (forall c, f (Same c) = [c]) /\ forall g g', f (Gap g g') = g \/ f (Gap g g') = g'.
Lemma side_one : side one. Proof. split; auto. Qed.
Lemma side_two : side two. Proof. split; auto. Qed.
Lemma drop_line : forall g c, drop g -> In c g -> ~ line_end c.
Proof. intros g c (_ & _ & F & _) I. rewrite Forall_forall in F. exact (proj2 (F c I)). Qed.
Lemma items_char : forall f, side f -> forall l p a c t, fit p l -> flat f l = a ++ c :: t -> line_end c -> exists l1 l2, l = l1 ++ Same c :: l2 /\ flat f l1 = a /\ flat f l2 = t.
Proof.
  intros f SF. induction l as [|i l IH]; intros p a c t F E L; [destruct a; discriminate|]. unfold flat in E. cbn [map concat] in E. fold (flat f l) in E. destruct i as [d|g g'].
  - rewrite (proj1 SF d) in E. destruct a as [|e a]; injection E as -> E.
    + exists [], l. auto.
    + destruct (IH (Some e) a c t F E L) as (l1 & l2 & -> & <- & E2). exists (Same e :: l1), l2. split; [reflexivity|]. split; [unfold flat; cbn [map concat]; rewrite (proj1 SF e); reflexivity|exact E2].
  - destruct F as (_ & D & D' & _ & F). assert (DF : drop (f (Gap g g'))) by (destruct (proj2 SF g g') as [-> | ->]; assumption).
    destruct (app_eq_app _ _ _ _ E) as (m & [(E1 & E2)|(E1 & E2)]).
    + destruct m as [|z m].
      * rewrite app_nil_r in E1. cbn [app] in E2. destruct (IH None [] c t F (eq_sym E2) L) as (l1 & l2 & -> & E3 & E4).
        exists (Gap g g' :: l1), l2. split; [reflexivity|]. split; [unfold flat in *; cbn [map concat]; rewrite E3, app_nil_r; exact E1|exact E4].
      * injection E2 as <- _. exfalso. apply (drop_line _ c DF); [rewrite E1; apply in_or_app; right; left; reflexivity|exact L].
    + destruct (IH None m c t F E2 L) as (l1 & l2 & -> & E3 & E4). exists (Gap g g' :: l1), l2. split; [reflexivity|]. split; [unfold flat in *; cbn [map concat]; rewrite E3; symmetry; exact E1|exact E4].
Qed.
Lemma flat_app : forall f l1 l2, flat f (l1 ++ l2) = flat f l1 ++ flat f l2.
Proof. intros f l1 l2. unfold flat. rewrite map_app, concat_app. reflexivity. Qed.
Definition lined (l : list item) : Prop := forall c, In (Same c) l -> line_end c -> sep_char u c.
Lemma items_cut : forall f, side f -> forall l a t, fit None l -> lined l -> flat f l = a ++ t -> line_start a t ->
  exists l1 l2, l = l1 ++ l2 /\ flat f l1 = a /\ flat f l2 = t /\ fit None l2 /\ line_start (flat one l1) (flat one l2) /\ line_start (flat two l1) (flat two l2).
Proof.
  intros f SF l a t F LL E [-> |(a' & c & -> & L & N)].
  - exists [], l. cbn [app] in E. repeat (split; [first [reflexivity|assumption]|]). split; left; reflexivity.
  - rewrite <- app_assoc in E. cbn [app] in E. destruct (items_char f SF l None a' c t F E L) as (l1 & l2 & -> & E1 & E2).
    assert (F2 : fit None l2) by (apply (fit_line l1 l2 None c F), LL; [apply in_or_app; right; left; reflexivity|exact L]).
    assert (HD := rg_head _ _ (items_rg _ _ F2)). assert (HT : hd_error t = hd_error (flat one l2) \/ hd_error t = hd_error (flat two l2)).
    { subst t. destruct l2 as [|[d|g g'] l2]; [left; reflexivity|left; unfold flat; cbn [map concat]; rewrite (proj1 SF d); reflexivity|]. cbn [fit] in F2. destruct F2 as ((d & K & _) & _). discriminate K. }
    exists (l1 ++ [Same c]), l2. split; [rewrite <- app_assoc; reflexivity|]. split; [rewrite flat_app; unfold flat at 2; cbn [map concat]; rewrite (proj1 SF c), app_nil_r, E1; reflexivity|].
    split; [exact E2|]. split; [exact F2|]. split; right; [exists (flat one l1), c|exists (flat two l1), c]; (split; [rewrite flat_app; reflexivity|]; split; [exact L|]).
    + destruct HT as [HT|HT]; rewrite HT, <- ?HD in N; exact N.
    + destruct HT as [HT|HT]; rewrite HT, ?HD in N; exact N.
Qed.
Lemma items_in : forall f, side f -> forall l c, In (Same c) l -> In c (flat f l).
Proof. intros f SF l c I. unfold flat. apply in_concat. exists (f (Same c)). split; [apply in_map; exact I|rewrite (proj1 SF c); left; reflexivity]. Qed.
Lemma lines_lined : forall l, blank_lines u (flat one l) -> lined l.
Proof. intros l B c I L. right; right; right; left. apply B; [apply items_in; [exact side_one|exact I]|exact L]. Qed.

Lemma rg_stop : forall t t', R None t t' -> clear t -> clear t' -> blank_lines u t -> (forall a z, t = a ++ z -> line_start a z -> unreadable u x z) -> forall a z, t' = a ++ z -> line_start a z -> unreadable u x z.
Proof.
  intros t t' H C C' BL U a z E LS. destruct (rg_items _ _ _ H) as (l & F & -> & ->).
  destruct (items_cut two side_two l a z F (lines_lined _ BL) E LS) as (l1 & l2 & -> & _ & <- & F2 & L1 & _). rewrite flat_app in C, C', U. apply clear_back in C, C'.
  apply (rg_unreadable (flat one l2) (flat two l2) (items_rg _ _ F2) C C'). exact (U _ _ eq_refl L1).
Qed.
Lemma flat_longer : forall f, side f -> forall k p, fit p k -> k <> [] -> flat f k <> [].
Proof.
  intros f SF [|[c|g g'] k] p F N; [destruct (N eq_refl)| |]; unfold flat; cbn [map concat]; [rewrite (proj1 SF c); discriminate|].
  destruct F as (_ & (D & _) & (D' & _) & _). intros E. apply app_eq_nil in E. destruct E as (E & _). destruct (proj2 SF g g') as [K|K]; rewrite K in E; contradiction.
Qed.
Lemma rg_round : forall t t' p rest, R None t t' -> clear t -> clear t' -> blank_lines u t -> read_round u x t p rest ->
  exists p' rest', read_round u x t' p' rest' /\ R None rest rest' /\ pc_tok p' = pc_tok p /\ alike_seps (pc_sep p) (pc_sep p').
Proof.
  intros t t' p rest H C C' BL (b & t1 & E & LS & RA & SP & _ & NO). destruct (rg_items _ _ _ H) as (l & F & Et & Et'). rewrite Et in E. rewrite Et in BL.
  assert (LL := lines_lined _ BL). destruct (items_cut one side_one l _ t1 F LL E LS) as (l1 & l2 & -> & E1 & E2 & F2 & _ & L2). subst t1.
  rewrite Et, Et' in *. clear Et Et' t t'. rewrite flat_app in C, C'. assert (Cb := clear_back _ _ C). assert (Cb' := clear_back _ _ C').
  destruct (rg_read _ _ _ _ _ (items_rg _ _ F2) Cb Cb' RA) as (r' & RA' & H3). destruct (rg_separator _ _ _ _ H3 SP) as (s' & rest' & -> & SP' & H4 & AL).
  exists (mkPiece (flat two l1) (b ++ pc_tok p ++ s') (pc_tok p) s'), rest'. split; [|cbn [pc_tok pc_sep]; auto].
  exists b, (flat two l2). cbn [pc_skip pc_all pc_tok pc_sep]. split; [apply flat_app|]. split; [exact L2|]. split; [exact RA'|]. split; [exact SP'|]. split; [reflexivity|].
  intros a1 a2 EA NE LA. assert (EC : flat two (l1 ++ l2) = a1 ++ a2 ++ flat two l2) by (rewrite flat_app, EA, <- app_assoc; reflexivity).
  destruct (items_cut two side_two _ _ _ F LL EC LA) as (j1 & j2 & EJ & J1 & J2 & FJ & K1 & _). 
  destruct (app_eq_app _ _ _ _ EJ) as (k & [(Q1 & Q2)|(Q1 & Q2)]).
  - subst l1 j2. rewrite flat_app in J2. apply app_inv_tail in J2. assert (KN : flat one k <> []). { apply (flat_longer one side_one k None); [|intros ->; apply NE; symmetry; exact J2]. clear - FJ. revert FJ. generalize (@None N).
      induction k as [|[c|g g'] k IH]; intros o FJ; [exact I|exact (IH _ FJ)|]. cbn [app fit] in *. destruct FJ as (X & D & D' & B & FJ). split; [exact X|]. split; [exact D|]. split; [exact D'|]. split; [|exact (IH _ FJ)].
      intros Z. apply B. rewrite flat_app. destruct (flat one k); [destruct Z|exact Z]. }
    rewrite <- J2, <- flat_app. rewrite !flat_app in C, C', E1. rewrite <- !app_assoc in C, C'. rewrite <- flat_app in C, C'. apply clear_back in C, C'. apply (rg_unreadable _ _ (items_rg _ _ FJ) C C').
    rewrite flat_app. apply (NO (flat one j1) (flat one k)); [symmetry; exact E1|exact KN|]. rewrite <- flat_app. exact K1.
  - exfalso. subst j1 l2. rewrite flat_app in J2. assert (LN := f_equal (@List.length N) J2). rewrite !app_length in LN. destruct a2 as [|z a2]; [exact (NE eq_refl)|]. cbn [List.length] in LN. lia.
Qed.
Definition alike_rounds (p p' : piece) : Prop := pc_tok p' = pc_tok p /\ alike_seps (pc_sep p) (pc_sep p').
Lemma round_rest : forall t p rest, read_round u x t p rest -> exists a, t = a ++ rest.
Proof. intros t p rest (b & t1 & E & _ & (E2 & _) & _). exists (pc_skip p ++ b ++ pc_tok p ++ pc_sep p). rewrite E, E2, <- !app_assoc. reflexivity. Qed.
Lemma round_sep : forall t p rest, read_round u x t p rest -> separator u (pc_sep p) rest.
Proof. intros t p rest (b & t1 & _ & _ & _ & S & _). exact S. Qed.
Lemma rg_scanned : forall t ps, scanned u x t ps -> forall t', R None t t' -> clear t -> clear t' -> blank_lines u t ->
  exists ps', scanned u x t' ps' /\ Forall2 alike_rounds ps ps' /\ Forall (fun p => exists rest, separator u (pc_sep p) rest) ps'.
Proof.
  intros t ps SC. induction SC as [t U|p RR|t p rest ps N RR SC IH]; intros t' H C C' BL.
  - exists []. split; [|split; constructor]. apply sc_stop. exact (rg_stop t t' H C C' BL U).
  - destruct (rg_round _ _ _ _ H C C' BL RR) as (p' & rest' & RR' & H2 & A1 & A2). assert (t' = []) by (apply (rg_nil_iff _ _ _ H); reflexivity). assert (rest' = []) by (apply (rg_nil_iff _ _ _ H2); reflexivity). subst t' rest'.
    exists [p']. split; [apply sc_last; exact RR'|]. split; [constructor; [split; assumption|constructor]|constructor; [exists []; exact (round_sep _ _ _ RR')|constructor]].
  - destruct (rg_round _ _ _ _ H C C' BL RR) as (p' & rest' & RR' & H2 & A1 & A2). destruct (round_rest _ _ _ RR) as (a & Ea). destruct (round_rest _ _ _ RR') as (a' & Ea').
    destruct (IH rest' H2) as (ps' & SC' & F & G); [rewrite Ea in C; exact (clear_back _ _ C)|rewrite Ea' in C'; exact (clear_back _ _ C')|intros c I; apply BL; rewrite Ea; apply in_or_app; right; exact I|].
    exists (p' :: ps'). split; [apply (sc_more u x t' p' rest' ps'); [intros X; apply N, (rg_nil_iff _ _ _ H), X|exact RR'|exact SC']|].
    split; [constructor; [split; assumption|exact F]|constructor; [exists rest'; exact (round_sep _ _ _ RR')|exact G]].
Qed.

(** ** Tokens that stay *)
Notation caught_by := (fun k => exists c, In c (t_in k) /\ in_list filt c).
Lemma drop_tokens : forall g ks, drop g -> sep_exact u x g ks -> Forall caught_by ks.
Proof. intros g ks (N & _ & _ & _ & K) [(-> & _)|(fs & m & k & X)]; [destruct (N eq_refl)|]. assert (E : ks = [k]) by tauto. subst ks. constructor; [|constructor]. apply K. right. exists fs, m, k. exact X. Qed.
Lemma sifted_app : forall D a b a' b', sifted D a a' -> sifted D b b' -> sifted D (a ++ b) (a' ++ b').
Proof. intros D a b a' b' H H2. induction H; cbn [app]; [exact H2|apply sift_keep; assumption|apply sift_drop; assumption]. Qed.
Lemma sifted_split : forall D a b out, sifted D (a ++ b) out -> exists o1 o2, out = o1 ++ o2 /\ sifted D a o1 /\ sifted D b o2.
Proof.
  intros D a. induction a as [|k a IH]; intros b out H; [exists [], out; split; [reflexivity|split; [constructor|exact H]]|]. cbn [app] in H. inversion H as [|? ? o N H2|? ? ? N H2]; subst.
  - destruct (IH _ _ H2) as (o1 & o2 & -> & S1 & S2). exists (k :: o1), o2. split; [reflexivity|]. split; [apply sift_keep; assumption|exact S2].
  - destruct (IH _ _ H2) as (o1 & o2 & -> & S1 & S2). exists o1, o2. split; [reflexivity|]. split; [apply sift_drop; assumption|exact S2].
Qed.
Lemma sifted_all : forall (D : token -> Prop) a, Forall D a -> sifted D a [].
Proof. intros D a F. induction F; [constructor|apply sift_drop; assumption]. Qed.
Lemma sifted_none : forall (D : token -> Prop) a o, Forall D a -> sifted D a o -> o = [].
Proof. intros D a o F H. induction H as [|k a b N H IH|k a b N H IH]; [reflexivity| |]; inversion F; subst; [contradiction|auto]. Qed.
Lemma seps_set : forall w, Forall (fun k => is_inset (t_in k)) (sep_tokens u x w).
Proof. intros w. unfold sep_tokens. destruct w as [|c w]; [constructor|]. constructor; [|constructor]. apply classify_set. rewrite trim_set. apply text_set. Qed.
Lemma rg_groups : tab_tables u -> forall ps ps', Forall2 alike_rounds ps ps' -> Forall (fun p => exists rest, separator u (pc_sep p) rest) ps' -> forall gs out, Forall2 (exact_tokens u x) ps gs -> Forall (fun k => is_inset (t_in k)) (concat gs) -> sifted caught_by (concat gs) out ->
  exists gs', Forall2 (exact_tokens u x) ps' gs' /\ Forall (fun k => is_inset (t_in k)) (concat gs') /\ sifted caught_by (concat gs') out.
Proof.
  intros TT ps ps' F. induction F as [|p p' ps ps' (A1 & A2) F IH]; intros G gs out X I SI.
  - inversion X; subst. exists []. auto.
  - inversion G as [|? ? (rest & SP) G']; subst. inversion X as [|? g ? gs1 (k1 & k2 & -> & W & SE) X']; subst. cbn [concat] in I, SI. apply Forall_app in I. destruct I as (I1 & I2). apply Forall_app in I1. destruct I1 as (I1 & I3).
    destruct (sifted_split _ _ _ _ SI) as (o1 & o2 & -> & S1 & S2). destruct (sifted_split _ _ _ _ S1) as (o3 & o4 & -> & S3 & S4).
    destruct (IH G' gs1 o2 X' I2 S2) as (gs' & X2 & I4 & S5).
    assert (K : exists k2', sep_exact u x (pc_sep p') k2' /\ Forall (fun k => is_inset (t_in k)) k2' /\ sifted caught_by k2' o4).
    { destruct A2 as [<-|(D & D')]; [exists k2; auto|]. assert (SE' := sep_any u x _ rest TT SP). exists (sep_tokens u x (pc_sep p')). split; [exact SE'|]. split; [apply seps_set|].
      rewrite (sifted_none _ _ _ (drop_tokens _ _ D SE) S4). apply sifted_all. exact (drop_tokens _ _ D' SE'). }
    destruct K as (k2' & SE' & I5 & S6). exists ((k1 ++ k2') :: gs'). cbn [concat]. split; [constructor; [exists k1, k2'; rewrite A1; auto|exact X2]|]. split.
    + apply Forall_app. split; [apply Forall_app; auto|exact I4].
    + apply sifted_app; [apply sifted_app; assumption|exact S5].
Qed.
Lemma rg_tokens : tab_tables u -> forall t t' ks out, R None t t' -> clear t -> clear t' -> blank_lines u t -> tokens_are u x t ks -> sifted caught_by ks out -> exists ks', tokens_are u x t' ks' /\ sifted caught_by ks' out.
Proof.
  intros TT t t' ks out H C C' BL (ps & gs & SC & F & -> & I) SI. destruct (rg_scanned t ps SC t' H C C' BL) as (ps' & SC' & A & G).
  destruct (rg_groups TT ps ps' A G gs out F I SI) as (gs' & F' & I' & SI'). exists (concat gs'). split; [|exact SI']. exists ps', gs'. auto.
Qed.
End Gaps.

Lemma phrases_gaps : forall e x locale filt address address' Q, built x -> simple_words x -> apart_tables (e_uni e) -> word_tables (e_uni e) -> tabs_apart (e_uni e) x ->
  let t := reading e x locale address in let t' := reading e x locale address' in
  regapped (e_uni e) x filt Q None t t' -> words_clear (e_uni e) x Q t -> words_clear (e_uni e) x Q t' ->
  blank_lines (e_uni e) t -> case_clear (e_uni e) x t -> blank_lines (e_uni e) t' -> case_clear (e_uni e) x t' ->
  make_phrases e x locale filt address' = make_phrases e x locale filt address.
Proof.
  intros e x locale filt address address' Q B SW AT WT TA t t' H C C' BL CC BL' CC'. unfold make_phrases. change (set_filter (mkTz x []) (as_type filt)) with (mkTz x (as_type filt)).
  assert (E : get_tokens e (mkTz x (as_type filt)) (prepared e locale address') = get_tokens e (mkTz x (as_type filt)) (prepared e locale address)); [|rewrite E; reflexivity].
  destruct (tokens_ok e x (prepared e locale address) B SW BL) as (all & E).
  assert (T : tokens_are (e_uni e) x t all) by (apply (all_tokens_are e x (prepared e locale address) all B SW AT WT BL CC TA); exact E).
  assert (SI := filter_sifted (as_type filt) all). assert (SW2 : forall a o, sifted (caught (as_type filt)) a o <-> sifted (fun k => exists c, In c (t_in k) /\ in_list filt c) a o).
  { intros a o. split; intros X; induction X as [|k a o N X IH|k a o N X IH]; try constructor; try assumption; try (intros Z; apply N); apply filter_iff; assumption. }
  apply SW2 in SI. destruct (rg_tokens _ _ _ _ AT (proj1 TA) t t' all _ H C C' BL T SI) as (all' & T' & SI'). apply (all_tokens_are e x (prepared e locale address') _ B SW AT WT BL' CC' TA) in T'.
  unfold get_tokens. cbn [z_lex z_filter]. rewrite E, T'. cbn [obind]. f_equal. apply (sifted_unique (caught (as_type filt)) all'); [apply filter_sifted|]. apply SW2. exact SI'.
Qed.
(** Whole calls. *)
Lemma calls_gaps : forall e atof sort address address' gr lx arg locale filt Q, real_tables (e_uni e) -> given_as e lx arg ->
  (forall x, lexicon_of e lx x -> let t := reading e x locale address in let t' := reading e x locale address' in
     regapped (e_uni e) x filt Q None t t' /\ words_clear (e_uni e) x Q t /\ words_clear (e_uni e) x Q t') ->
  readable_with e lx locale address -> readable_with e lx locale address' ->
  std_standardize e atof address' gr arg locale filt = std_standardize e atof address gr arg locale filt /\
  std_parse_address e address' arg locale filt = std_parse_address e address arg locale filt /\
  std_match_address e atof sort address' gr arg locale filt = std_match_address e atof sort address gr arg locale filt.
Proof.
  intros e atof sort address address' gr lx arg locale filt Q (UO & AT & WT & TT) G H R R'. apply (calls_same e atof sort address address' gr lx arg locale filt G).
  intros x L. destruct (H x L) as (RG & C & C'). destruct (R x L) as (SW & BL & CC). destruct (R' x L) as (_ & BL' & CC').
  exact (phrases_gaps e x locale filt address address' Q (lexicon_built _ _ _ L) SW AT WT (conj TT (lexicon_tabs _ _ _ L)) RG C C' BL CC BL' CC').
Qed.

(** ** Blanks *)
Lemma blank_drop : forall u x filt n, apart_tables u -> word_tables u -> tab_tables u -> u_space u 32 = true -> ~ joins u 32 -> ~ listed x [32] -> in_list filt I_SPACE ->
  droppable u x filt (fun g => exists m, g = 32 :: repeat 32 m) (32 :: repeat 32 n).
Proof.
  intros u x filt n AT WT TT BK NJ TW IL. assert (FB : Forall (fun c => c = 32) (32 :: repeat 32 n)) by (constructor; [reflexivity|]; induction n; [constructor|constructor; [reflexivity|assumption]]).
  split; [discriminate|]. split; [exists n; reflexivity|]. split; [|split].
  - eapply Forall_impl; [|exact FB]. intros c ->. split; [right; right; right; left; exact BK|]. intros L. vm_compute in L. repeat (destruct L as [L|L]; [discriminate|]). exact L.
  - intros s E. injection E as <- _. exact NJ.
  - intros k H. apply sep_plain in H; [|intros I; rewrite Forall_forall in FB; specialize (FB 9 I); discriminate]. destruct H as [(E & _)|(m & k' & _ & T & E & M)]; [discriminate|]. injection E as <-.
    assert (m = [32]). { destruct T as (a & b & _ & _ & [(_ & Em)|(E & N & Hd & _)]); [exact Em|]. destruct m as [|c m]; [destruct (N eq_refl)|]. exfalso. apply (Hd c eq_refl).
      rewrite Forall_forall in FB. rewrite (FB c); [cbn; tauto|]. rewrite E. apply in_or_app; right; left; reflexivity. }
    subst m. destruct (made_same u x I_PUNCT [32] _ _ M (space_made u x WT BK TW)) as (_ & C & _). exists I_SPACE. split; [apply C; left; reflexivity|exact IL].
Qed.
Lemma respaced_gaps : forall u x filt p t t', apart_tables u -> word_tables u -> tab_tables u -> u_space u 32 = true -> ~ joins u 32 -> ~ listed x [32] -> in_list filt I_SPACE ->
  respaced u p t t' -> regapped u x filt (fun g => exists m, g = 32 :: repeat 32 m) p t t'.
Proof.
  intros u x filt p t t' AT WT TT BK NJ TW IL H. induction H as [p|p c t t' H IH|c n m t t' N1 N2 B H IH]; [constructor|constructor; exact IH|].
  exact (rg_gap u x filt _ c (32 :: repeat 32 n) (32 :: repeat 32 m) t t' N1 N2 (blank_drop u x filt n AT WT TT BK NJ TW IL) (blank_drop u x filt m AT WT TT BK NJ TW IL) B IH).
Qed.
Lemma blank_clear : forall u x t, blank_free u x t -> words_clear u x (fun g => exists m, g = 32 :: repeat 32 m) t.
Proof.
  intros u x t H w a b g L P -> N (m & ->). assert (K : hd_error b <> Some 32) by (intros E; apply (H _ L P), in_or_app; right; destruct b; [discriminate|]; injection E as ->; left; reflexivity).
  destruct b as [|c b]; [destruct (N eq_refl)|]. split; intros (z & E); injection E as E _; apply K; cbn [hd_error]; congruence.
Qed.
Lemma calls_blanks : forall e atof sort address address' gr lx arg locale filt, real_tables (e_uni e) -> ~ joins (e_uni e) 32 -> given_as e lx arg -> in_list filt I_SPACE ->
  (forall x, lexicon_of e lx x -> let t := reading e x locale address in let t' := reading e x locale address' in
     ~ listed x [32] /\ respaced (e_uni e) None t t' /\ blank_free (e_uni e) x t /\ blank_free (e_uni e) x t') ->
  readable_with e lx locale address -> readable_with e lx locale address' ->
  std_standardize e atof address' gr arg locale filt = std_standardize e atof address gr arg locale filt /\
  std_parse_address e address' arg locale filt = std_parse_address e address arg locale filt /\
  std_match_address e atof sort address' gr arg locale filt = std_match_address e atof sort address gr arg locale filt.
Proof.
  intros e atof sort address address' gr lx arg locale filt RT NJ G IL H. apply (calls_gaps e atof sort address address' gr lx arg locale filt (fun g => exists m, g = 32 :: repeat 32 m) RT G).
  intros x L. destruct (H x L) as (TW & RS & B & B'). destruct RT as (UO & AT & WT & TT). split; [exact (respaced_gaps _ _ _ _ _ _ AT WT TT (uo_blank _ UO) NJ TW IL RS)|]. split; apply blank_clear; assumption.
Qed.

(** ** Examples *)
Definition gap_addr : text := s2t "12 Main st; PO Box 7"%string.
Definition gaps : text -> Prop := fun g => g = [44; 32; 32] \/ g = [59; 32].
Lemma ascii_sep : forall c, In c [32; 44; 59] -> sep_char ascii_uni c /\ ~ line_end c.
Proof.
  intros c I. split.
  - cbn [In] in I. destruct I as [<-|[<-|[<-|[]]]]; [right; right; right; left; reflexivity|right; right; right; right; reflexivity|right; right; right; right; reflexivity].
  - intros L. unfold line_end in L. cbn [In] in I, L. lia.
Qed.
Lemma gap_drop : forall g, gaps g -> droppable ascii_uni w_x w_filter gaps g.
Proof.
  intros g G. assert (F : Forall (fun c => sep_char ascii_uni c /\ ~ line_end c) g) by (destruct G as [-> | ->]; repeat (constructor; [apply ascii_sep; cbn [In]; tauto|]); constructor).
  split; [destruct G as [-> | ->]; discriminate|]. split; [exact G|]. split; [exact F|]. split; [intros s E; exfalso; destruct G as [G|G]; rewrite G in E; discriminate|].
  intros k H. assert (S : separator ascii_uni g []). { right; left. split; [destruct G as [-> | ->]; discriminate|]. split; [eapply Forall_impl; [|exact F]; intros c (K & _); exact K|exact I]. }
  assert (S2 := sep_exact_one _ _ _ _ _ H (sep_any ascii_uni w_x g [] ascii_tabs S)). exists I_PUNCT. split; [|apply in_list_iff; vm_compute; tauto].
  destruct G as [-> | ->]; cbn [sep_tokens] in S2; inversion S2 as [|? k' ? ? (_ & C & _) _]; subst; apply C; vm_compute; tauto.
Qed.
Lemma gap_setting : real_tables ascii_uni /\ given_as ascii_env w_lexicon w_lexicon /\
  (forall x, lexicon_of ascii_env w_lexicon x -> let t := reading ascii_env x en w_addr in let t' := reading ascii_env x en gap_addr in
     regapped ascii_uni x w_filter gaps None t t' /\ words_clear ascii_uni x gaps t /\ words_clear ascii_uni x gaps t') /\
  readable_with ascii_env w_lexicon en w_addr /\ readable_with ascii_env w_lexicon en gap_addr /\
  reading ascii_env w_x en w_addr = (s2t "12 MAIN ST" ++ [44; 32; 32] ++ s2t "PO BOX 7")%list /\ reading ascii_env w_x en gap_addr = (s2t "12 MAIN ST" ++ [59; 32] ++ s2t "PO BOX 7")%list.
Proof.
  assert (E1 : reading ascii_env w_x en w_addr = (s2t "12 MAIN ST" ++ [44; 32; 32] ++ s2t "PO BOX 7")%list) by (vm_compute; reflexivity).
  assert (E2 : reading ascii_env w_x en gap_addr = (s2t "12 MAIN ST" ++ [59; 32] ++ s2t "PO BOX 7")%list) by (vm_compute; reflexivity).
  split; [exact ascii_real|]. split; [exact w_given|]. split; [|split; [exact w_readable|split; [|auto]]].
  - intros x L. rewrite (w_only x L). cbv zeta. rewrite E1, E2. split; [|assert (C : forall t, words_clear ascii_uni w_x gaps t); [|auto]].
    + let t := eval vm_compute in (s2t "12 MAIN ST"%string) in change (s2t "12 MAIN ST"%string) with t. cbn [app]. do 10 apply rg_char.
      apply (rg_gap ascii_uni w_x w_filter gaps 84 [44; 32; 32] [59; 32]); [| |apply gap_drop; left; reflexivity|apply gap_drop; right; reflexivity| |].
      * apply (proj1 ascii_apart 84). left. reflexivity.
      * apply (proj1 ascii_apart 84). left. reflexivity.
      * apply (proj1 ascii_apart 80). left. reflexivity.
      * let t := eval vm_compute in (s2t "PO BOX 7"%string) in change (s2t "PO BOX 7"%string) with t. do 8 apply rg_char. apply rg_nil.
    + intros t w a b g (v & V & _ & F) _ -> N G. apply (listed_keys w_x v [s2t "PO BOX"; s2t "ST"]%string w_x_built eq_refl) in V.
      assert (NC : forall c, In c (a ++ b) -> c <> 44 /\ c <> 59).
      { intros c I. assert (J : exists d, In d v /\ like ascii_uni d c). { clear - F I. induction F as [|d c' v w Q F IH]; [destruct I|]. destruct I as [<-|I]; [exists d; split; [left; reflexivity|exact Q]|]. destruct (IH I) as (d' & J & Q'). exists d'. split; [right; exact J|exact Q']. }
        destruct J as (d & J & Q). split; intros ->; destruct V as [<-|[<-|[]]]; vm_compute in J; repeat (destruct J as [<-|J]; [vm_compute in Q; discriminate Q|]); destruct J. }
      destruct b as [|c b]; [destruct (N eq_refl)|]. assert (NC1 := NC c ltac:(apply in_or_app; right; left; reflexivity)).
      split; intros (z & E); destruct G as [-> | ->]; injection E as E _; lia.
  - intros x H. rewrite (w_only x H). split; [exact w_x_simple|]. split; [apply ascii_lines; absent|]. apply (upper_clear w_x _ [s2t "PO BOX"%string; s2t "ST"%string] w_x_built); vm_compute; reflexivity.
Qed.
Definition few_addr : text := s2t "12 Main st"%string.
Definition more_addr : text := s2t "12   Main  st"%string.
Lemma blanks_setting : real_tables ascii_uni /\ ~ joins ascii_uni 32 /\ given_as ascii_env w_lexicon w_lexicon /\ in_list w_filter I_SPACE /\
  (forall x, lexicon_of ascii_env w_lexicon x -> let t := reading ascii_env x en few_addr in let t' := reading ascii_env x en more_addr in
     ~ listed x [32] /\ respaced ascii_uni None t t' /\ blank_free ascii_uni x t /\ blank_free ascii_uni x t') /\
  readable_with ascii_env w_lexicon en few_addr /\ readable_with ascii_env w_lexicon en more_addr.
Proof.
  split; [exact ascii_real|]. split; [intros [J|[J|J]]; vm_compute in J; discriminate J|]. split; [exact w_given|]. split; [exact space_named|].
  assert (RD : forall a, ~ In 0x85 (reading ascii_env w_x en a) -> ~ In 0x2028 (reading ascii_env w_x en a) -> ~ In 0x2029 (reading ascii_env w_x en a) -> readable_with ascii_env w_lexicon en a).
  { intros a N1 N2 N3 x H. rewrite (w_only x H). split; [exact w_x_simple|]. split; [apply ascii_lines; assumption|]. apply (upper_clear w_x _ [s2t "PO BOX"%string; s2t "ST"%string] w_x_built); vm_compute; reflexivity. }
  split; [|split; apply RD; absent].
  intros x L. rewrite (w_only x L). assert (KY := fun w => listed_keys w_x w [s2t "PO BOX"; s2t "ST"]%string w_x_built eq_refl).
  assert (BF : forall t, ~ In 79 t -> ~ In 111 t -> blank_free ascii_uni w_x t).
  { intros t N1 N2 w (v & V & _ & F) (a & b & ->) I. apply KY in V. destruct V as [<-|[<-|[]]].
    - let s := eval vm_compute in (s2t "PO BOX"%string) in change (s2t "PO BOX"%string) with s in F. inversion F as [|? c1 ? w1 _ F1]; subst. inversion F1 as [|? c2 ? w2 Q _]; subst.
      assert (c2 = 79 \/ c2 = 111). { idtac. unfold like in Q. cbn [ascii_uni u_fold] in Q. change (a_fold 79) with 111 in Q. unfold a_fold in Q. destruct (a_upper c2) eqn:U; lia. }
      destruct H; subst c2; [apply N1|apply N2]; rewrite !in_app_iff; cbn [In]; tauto.
    - let s := eval vm_compute in (s2t "ST"%string) in change (s2t "ST"%string) with s in F. inversion F as [|? c1 ? w1 Q1 F1]; subst. inversion F1 as [|? c2 ? w2 Q2 F2]; subst. inversion F2; subst.
      destruct I as [->|[->|[]]]; [vm_compute in Q1; discriminate Q1|vm_compute in Q2; discriminate Q2]. }
  cbv zeta. split; [intros V; apply KY in V; vm_compute in V; destruct V as [V|[V|[]]]; discriminate V|].
  split; [|split; apply BF; absent].
  let t := eval vm_compute in (reading ascii_env w_x en few_addr) in change (reading ascii_env w_x en few_addr) with t.
  let t := eval vm_compute in (reading ascii_env w_x en more_addr) in change (reading ascii_env w_x en more_addr) with t.
  assert (AL : forall c, alnum ascii_uni c -> ~ sep_char ascii_uni c /\ ~ dash ascii_uni c) by exact (proj1 ascii_apart).
  do 2 apply rs_char. apply (rs_gap ascii_uni 50 0 2 [77; 65; 73; 78; 32; 83; 84]); [apply (AL 50); right; reflexivity|apply (AL 50); right; reflexivity|apply (AL 77); left; reflexivity|].
  do 4 apply rs_char. apply (rs_gap ascii_uni 78 0 1 [83; 84]); [apply (AL 78); left; reflexivity|apply (AL 78); left; reflexivity|apply (AL 83); left; reflexivity|].
  do 2 apply rs_char. apply rs_nil.
Qed.
(** A single joining sign is no separator between digits. *)
Lemma joined_differs : exists rows rows', parse_table (std_parse_address ascii_env (s2t "3,5"%string) w_lexicon en w_filter) = Ok rows /\
  parse_table (std_parse_address ascii_env (s2t "3, 5"%string) w_lexicon en w_filter) = Ok rows' /\
  List.length rows = 1%nat /\ map pr_class rows' = [s2t "NUMBER"; s2t "NUMBER"]%string.
Proof. eexists _, _. split; [vm_compute; reflexivity|]. split; [vm_compute; reflexivity|]. split; vm_compute; reflexivity. Qed.
