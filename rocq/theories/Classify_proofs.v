(** Classification and standard words. *)
From Coq Require Import String List NArith ZArith Bool Lia Arith.
From Verif Require Import Base_model Class_model Uni_model Token_model Regex_model Trie_model Lexicon_model Lexicon_spec
  Search_proofs Class_proofs Trie_proofs LexMap_proofs Match_proofs.
Import ListNotations.
Local Open Scope N_scope.

(** ** Constant patterns *)
Lemma rmatch_bol : forall u ic pat r (P : text -> Prop) t, parse_re (s2t pat) = Some (RCat RBol r) -> rall u ic r P ->
  (rmatch u ic pat t = true <-> P t).
Proof.
  intros u ic pat r P t E H. unfold rmatch, u32regex_match. rewrite E. apply match_bol_iff. exact H.
Qed.
Ltac langs := repeat first [ apply all_eol | apply lang_plus_set | apply lang_star_dot | apply lang_set | apply lang_empty
  | eapply lang_cap | eapply lang_alt | eapply lang_opt | eapply lang_cat | eapply all_cat ].
Lemma set1 : forall u ic i c, set_pred u ic false [i] c = item_has u ic c i.
Proof. intros. unfold set_pred. cbn [existsb xorb]. rewrite orb_false_r. destruct (item_has u ic c i); reflexivity. Qed.
Lemma Forall_iff : forall A (P Q : A -> Prop) l, (forall a, P a <-> Q a) -> (Forall P l <-> Forall Q l).
Proof. intros A P Q l H. rewrite !Forall_forall. split; intros K a Ha; apply H; auto. Qed.

Lemma plus_class : forall u pat i (p : N -> bool), parse_re (s2t pat) = Some (RCat RBol (RCat (RPlus (RSet false i)) (RCat REol REmpty))) ->
  (forall c, set_pred u false false i c = p c) -> forall t, rmatch u false pat t = true <-> all_of p t.
Proof.
  intros u pat i p E Hp t. erewrite rmatch_bol; [|exact E|langs]. unfold all_of.
  assert (Q : forall a, Forall (fun c => set_pred u false false i c = true) a <-> Forall (fun c => p c = true) a).
  { intros a. apply Forall_iff. intros c. rewrite Hp. tauto. }
  split.
  - intros (x & y & -> & (H1 & H2) & ->). rewrite app_nil_r. split; [exact H1|]. apply Q. exact H2.
  - intros (H1 & H2). exists t, []. rewrite app_nil_r. split; [reflexivity|]. split; [|reflexivity]. split; [exact H1|]. apply Q. exact H2.
Qed.
Lemma m_digits : forall u t, rmatch u false "^\d+$" t = true <-> digits u t.
Proof. intros u. eapply plus_class; [vm_compute; reflexivity|]. intros c. rewrite set1. reflexivity. Qed.
Lemma m_words : forall u t, rmatch u false "^\w+$" t = true <-> words u t.
Proof. intros u. eapply plus_class; [vm_compute; reflexivity|]. intros c. rewrite set1. reflexivity. Qed.
Lemma m_spaces : forall u t, rmatch u false "^\s+$" t = true <-> all_of (u_space u) t.
Proof. intros u. eapply plus_class; [vm_compute; reflexivity|]. intros c. rewrite set1. reflexivity. Qed.
Lemma m_dashes : forall u t, rmatch u false "^[-]+$" t = true <-> all_of (N.eqb 45) t.
Proof. intros u. eapply plus_class; [vm_compute; reflexivity|]. intros c. rewrite set1. reflexivity. Qed.
Lemma m_puncts : forall u t, rmatch u false "^[\|[:punct:]]+$" t = true <-> all_of (fun c => u_punct u c || (c =? 124)) t.
Proof.
  intros u. eapply plus_class; [vm_compute; reflexivity|]. intros c. unfold set_pred. cbn [existsb item_has]. rewrite orb_false_r, xorb_false_l.
  unfold ceq. rewrite (N.eqb_sym 124 c). apply orb_comm.
Qed.
Lemma digits_item : forall u a, (a <> [] /\ Forall (fun c => set_pred u false false [IDigit] c = true) a) <-> digits u a.
Proof. intros u a. unfold digits, all_of. rewrite (Forall_iff _ _ (fun c => u_digit u c = true)); [tauto|]. intros c. rewrite set1. tauto. Qed.
Lemma split_pat : forall u pat l seps, parse_re (s2t pat) =
    Some (RCat RBol (RCat (RPlus (RSet false [IDigit])) (RCat (RSet false l) (RCat (RPlus (RSet false [IDigit])) (RCat REol REmpty))))) ->
  (forall c, set_pred u false false l c = true <-> In c seps) ->
  forall t, rmatch u false pat t = true <-> split_digits u seps t.
Proof.
  intros u pat l seps E Hs t. erewrite rmatch_bol; [|exact E|langs]. unfold split_digits. split.
  - intros (a & y & -> & Ha & s & z & -> & (c & -> & Hc) & b & e & -> & Hb & ->).
    exists a, c, b. rewrite app_nil_r. apply digits_item in Ha. apply digits_item in Hb. apply Hs in Hc. auto.
  - intros (a & s & b & -> & Ha & Hb & H). exists a, (s :: b). split; [reflexivity|]. split; [apply digits_item; exact Ha|].
    exists [s], b. split; [reflexivity|]. split; [exists s; split; [reflexivity|apply Hs; exact H]|].
    exists b, []. rewrite app_nil_r. split; [reflexivity|]. split; [apply digits_item; exact Hb|reflexivity].
Qed.
Lemma m_decimal : forall u t, rmatch u false "^\d+[,\.]\d+$" t = true <-> split_digits u [44; 46] t.
Proof.
  intros u. eapply split_pat; [vm_compute; reflexivity|]. intros c. unfold set_pred. cbn [existsb item_has]. rewrite xorb_false_l. unfold ceq.
  rewrite !orb_true_iff, !N.eqb_eq. simpl. intuition congruence.
Qed.
Lemma m_fraction : forall u t, rmatch u false "^\d+/\d+$" t = true <-> split_digits u [47] t.
Proof.
  intros u. eapply split_pat; [vm_compute; reflexivity|]. intros c. unfold set_pred. cbn [existsb item_has]. rewrite xorb_false_l. unfold ceq.
  rewrite !orb_true_iff, !N.eqb_eq. simpl. intuition congruence.
Qed.
Lemma latin_item : forall u c, set_pred u true false [IRange 65 90] c = true <-> latin u c.
Proof. intros u c. rewrite set1. simpl. rewrite andb_true_iff, !N.leb_le. reflexivity. Qed.
Lemma digit_item : forall u c, set_pred u true false [IDigit] c = true <-> u_digit u c = true.
Proof. intros u c. rewrite set1. reflexivity. Qed.
Lemma one_or_two : forall (p : N -> Prop) (q : N -> bool) (a : text), (forall c, q c = true <-> p c) ->
  ((exists x y, a = x ++ y /\ (exists c, x = [c] /\ q c = true) /\ ((exists x' y', y = x' ++ y' /\ (exists c, x' = [c] /\ q c = true) /\ y' = []) \/ y = []))
   <-> Forall p a /\ (1 <= List.length a <= 2)%nat).
Proof.
  intros p q a H. split.
  - intros (x & y & -> & (c & -> & Hc) & [(x' & y' & -> & (d & -> & Hd) & ->)| ->]); (split; [|simpl; lia]).
    + repeat constructor; apply H; assumption.
    + repeat constructor; apply H; assumption.
  - intros (F & L). destruct a as [|c [|d [|e a]]]; simpl in L; try lia.
    + inversion F; subst. exists [c], []. split; [reflexivity|]. split; [exists c; split; [reflexivity|apply H; assumption]|right; reflexivity].
    + inversion F as [|? ? F1 F2]; subst. inversion F2; subst. exists [c], [d]. split; [reflexivity|].
      split; [exists c; split; [reflexivity|apply H; assumption]|left]. exists [d], []. split; [reflexivity|].
      split; [exists d; split; [reflexivity|apply H; assumption]|reflexivity].
Qed.
Lemma up_to_one : forall (p : N -> Prop) (q : N -> bool) (a : text), (forall c, q c = true <-> p c) ->
  (((exists x' y', a = x' ++ y' /\ (exists c, x' = [c] /\ q c = true) /\ y' = []) \/ a = [])
   <-> Forall p a /\ (List.length a <= 1)%nat).
Proof.
  intros p q a H. split.
  - intros [(x' & y' & -> & (d & -> & Hd) & ->)| ->]; (split; [|simpl; lia]); [|constructor]. repeat constructor. apply H. assumption.
  - intros (F & L). destruct a as [|c [|d a]]; simpl in L; try lia; [right; reflexivity|]. inversion F; subst.
    left. exists [c], []. split; [reflexivity|]. split; [exists c; split; [reflexivity|apply H; assumption]|reflexivity].
Qed.
Lemma m_pch : forall u t, rmatch u true "^[A-Z]{1,2}\d{1,2}[A-Z]{0,1}$" t = true <-> postal_head u t.
Proof.
  intros u t. erewrite rmatch_bol; [|vm_compute; reflexivity|langs]. unfold postal_head.
  assert (O1 := fun a => one_or_two (latin u) _ a (latin_item u)).
  assert (O2 := fun a => one_or_two _ _ a (digit_item u)). assert (O3 := fun a => up_to_one _ _ a (latin_item u)). split.
  - intros (a & y & -> & Ha & b & z & -> & Hb & c & e & -> & Hc & ->). apply O1 in Ha. apply O2 in Hb. apply O3 in Hc.
    exists a, b, c. rewrite app_nil_r. intuition.
  - intros (a & b & c & -> & Ha & Hb & Hc & La & Lb & Lc). exists a, (b ++ c). split; [reflexivity|]. split; [apply O1; auto|].
    exists b, c. split; [reflexivity|]. split; [apply O2; auto|]. exists c, []. rewrite app_nil_r. split; [reflexivity|]. split; [apply O3; auto|reflexivity].
Qed.
Lemma m_pct : forall u t, rmatch u true "^(\d[A-Z]\d|\d[A-Z]{2})$" t = true <-> postal_tail u t.
Proof.
  intros u t. erewrite rmatch_bol; [|vm_compute; reflexivity|langs]. unfold postal_tail. split.
  - intros (x & y & -> & H & ->). rewrite app_nil_r. destruct H as [H|H].
    + destruct H as (? & ? & -> & (a & -> & Ha) & ? & ? & -> & (b & -> & Hb) & ? & ? & -> & (c & -> & Hc) & ->).
      exists a, b, c. apply digit_item in Ha. apply latin_item in Hb. apply digit_item in Hc. auto.
    + destruct H as (? & ? & -> & (a & -> & Ha) & ? & ? & -> & (? & ? & -> & (b & -> & Hb) & ? & ? & -> & (c & -> & Hc) & ->) & ->).
      exists a, b, c. apply digit_item in Ha. apply latin_item in Hb. apply latin_item in Hc. auto.
  - intros (a & b & c & -> & Ha & Hb & Hc). exists [a; b; c], []. split; [reflexivity|]. split; [|reflexivity].
    apply digit_item in Ha. apply latin_item in Hb. destruct Hc as [Hc|Hc].
    + apply digit_item in Hc. left. exists [a], [b; c]. split; [reflexivity|]. split; [exists a; auto|].
      exists [b], [c]. split; [reflexivity|]. split; [exists b; auto|]. exists [c], []. split; [reflexivity|]. split; [exists c; auto|reflexivity].
    + apply latin_item in Hc. right. exists [a], [b; c]. split; [reflexivity|]. split; [exists a; auto|].
      exists [b; c], []. split; [reflexivity|]. split; [|reflexivity].
      exists [b], [c]. split; [reflexivity|]. split; [exists b; auto|]. exists [c], []. split; [reflexivity|]. split; [exists c; auto|reflexivity].
Qed.
Lemma m_has_digit : forall u t, rmatch u false "^.*\d.*$" t = true <-> exists d, In d t /\ u_digit u d = true.
Proof.
  intros u t. erewrite rmatch_bol; [|vm_compute; reflexivity|langs]. split.
  - intros (x & y & -> & _ & ? & z & -> & (d & -> & Hd) & _). exists d. split; [apply in_or_app; right; left; reflexivity|].
    rewrite set1 in Hd. exact Hd.
  - intros (d & H & Hd). apply in_split in H. destruct H as (a & b & ->). exists a, (d :: b). split; [reflexivity|]. split; [exact I|].
    exists [d], b. split; [reflexivity|]. split; [exists d; rewrite set1; auto|]. exists b, []. rewrite app_nil_r. auto.
Qed.

(** ** Class sets *)
Lemma add_all_in : forall l s c, In c (add_all s l) <-> In c s \/ In c l.
Proof.
  unfold add_all. induction l as [|d l IH]; intros s c; simpl; [tauto|]. rewrite IH, iset_insert_in. intuition.
Qed.
Lemma fold_types_in : forall es s c, In c (fold_left (fun s le => add_all s (le_type le)) es s) <->
  In c s \/ exists le, In le es /\ In c (le_type le).
Proof.
  induction es as [|e es IH]; intros s c; simpl; [split; [auto|intros [H|(le & [] & _)]; exact H]|].
  rewrite IH, add_all_in. split.
  - intros [[H|H]|(le & H1 & H2)]; [auto|right; exists e; auto|right; exists le; auto].
  - intros [H|(le & [->|H1] & H2)]; [auto|auto|right; exists le; auto].
Qed.

Lemma row_here : forall (r : (text -> Prop) * (text -> list intype)) rows t cls, fst r t -> cls = snd r t -> row_applies (r :: rows) t cls.
Proof. intros r rows t cls H E. exists [], r, rows. repeat split; [constructor|exact H|exact E]. Qed.
Lemma row_next : forall (r : (text -> Prop) * (text -> list intype)) rows t cls, ~ fst r t -> row_applies rows t cls -> row_applies (r :: rows) t cls.
Proof.
  intros r rows t cls H (pre & row & post & -> & F & K & E). exists (r :: pre), row, post. repeat split; [constructor; assumption|exact K|exact E].
Qed.
Definition same_set (a b : list intype) : Prop := forall c, In c a <-> In c b.
Lemma shape_ok : forall u t d, exists cls, row_applies (shape_rows u d) t cls /\
  same_set (match shape_classes u t with [] => [d] | l => l end) cls.
Proof.
  intros u t d. unfold shape_classes, shape_rows.
  destruct (rmatch u false "^\d+[,\.]\d+$" t) eqn:E1.
  { eexists. split; [apply row_here; [apply m_decimal; exact E1|reflexivity]|]. intros c. reflexivity. }
  assert (F1 : ~ split_digits u [44; 46] t) by (rewrite <- m_decimal; congruence).
  destruct (rmatch u false "^\d+$" t) eqn:E2.
  { eexists. split; [apply row_next; [exact F1|]; apply row_here; [apply m_digits; exact E2|reflexivity]|]. cbn [snd].
    destruct (blen t) as [|[|[|[|[|[|n]]]]]]; intros c; reflexivity. }
  assert (F2 : ~ digits u t) by (rewrite <- m_digits; congruence).
  destruct (teqb t (s2t "@")) eqn:E3.
  { apply teqb_eq in E3. eexists. split; [apply row_next; [exact F1|]; apply row_next; [exact F2|]; apply row_here; [exact E3|reflexivity]|]. intros c. reflexivity. }
  assert (F3 : t <> s2t "@") by (intros ->; rewrite teqb_refl in E3; discriminate).
  destruct (teqb t (s2t "/")) eqn:E4.
  { apply teqb_eq in E4. eexists. split; [do 3 (apply row_next; [assumption|]); apply row_here; [exact E4|reflexivity]|]. intros c. reflexivity. }
  assert (F4 : t <> s2t "/") by (intros ->; rewrite teqb_refl in E4; discriminate).
  destruct (rmatch u false "^\d+/\d+$" t) eqn:E5.
  { eexists. split; [do 4 (apply row_next; [assumption|]); apply row_here; [apply m_fraction; exact E5|reflexivity]|]. intros c. reflexivity. }
  assert (F5 : ~ split_digits u [47] t) by (rewrite <- m_fraction; congruence).
  destruct (rmatch u true "^[A-Z]{1,2}\d{1,2}[A-Z]{0,1}$" t) eqn:E6.
  { eexists. split; [do 5 (apply row_next; [assumption|]); apply row_here; [apply m_pch; exact E6|reflexivity]|]. intros c. reflexivity. }
  assert (F6 : ~ postal_head u t) by (rewrite <- m_pch; congruence).
  destruct (rmatch u true "^(\d[A-Z]\d|\d[A-Z]{2})$" t) eqn:E7.
  { eexists. split; [do 6 (apply row_next; [assumption|]); apply row_here; [apply m_pct; exact E7|reflexivity]|]. intros c. reflexivity. }
  assert (F7 : ~ postal_tail u t) by (rewrite <- m_pct; congruence).
  destruct (rmatch u false "^\w+$" t) eqn:E8.
  { apply m_words in E8. destruct (rmatch u false "^.*\d.*$" t) eqn:E9.
    - apply m_has_digit in E9. eexists. split; [do 7 (apply row_next; [assumption|]); apply row_here; [cbn [fst]; auto|reflexivity]|]. intros c. reflexivity.
    - assert (F9 : ~ (exists d, In d t /\ u_digit u d = true)) by (rewrite <- m_has_digit; congruence).
      eexists. split; [do 7 (apply row_next; [assumption|]); apply row_next; [cbn [fst]; tauto|]; apply row_here; [exact E8|reflexivity]|].
      cbn [snd]. destruct (blen t) as [|[|[|n]]]; intros c; simpl; intuition. }
  assert (F8 : ~ words u t) by (rewrite <- m_words; congruence).
  destruct (teqb t [EMDASH]) eqn:E10.
  { apply teqb_eq in E10. eexists. split; [do 7 (apply row_next; [assumption|]); apply row_next; [cbn [fst]; tauto|]; apply row_next; [assumption|]; apply row_here; [exact E10|reflexivity]|]. intros c. reflexivity. }
  assert (F10 : t <> [0x2014]) by (intros ->; rewrite teqb_refl in E10; discriminate).
  destruct (rmatch u false "^[-]+$" t) eqn:E11.
  { eexists. split; [do 7 (apply row_next; [assumption|]); apply row_next; [cbn [fst]; tauto|]; do 2 (apply row_next; [assumption|]); apply row_here; [apply (m_dashes u); exact E11|reflexivity]|]. intros c. reflexivity. }
  assert (F11 : ~ all_of (N.eqb 45) t) by (rewrite <- (m_dashes u); congruence).
  destruct (teqb t (s2t "&")) eqn:E12.
  { apply teqb_eq in E12. eexists. split; [do 7 (apply row_next; [assumption|]); apply row_next; [cbn [fst]; tauto|]; do 3 (apply row_next; [assumption|]); apply row_here; [exact E12|reflexivity]|]. intros c. reflexivity. }
  assert (F12 : t <> s2t "&") by (intros ->; rewrite teqb_refl in E12; discriminate).
  destruct (rmatch u false "^\s+$" t) eqn:E13.
  { eexists. split; [do 7 (apply row_next; [assumption|]); apply row_next; [cbn [fst]; tauto|]; do 4 (apply row_next; [assumption|]); apply row_here; [apply m_spaces; exact E13|reflexivity]|]. intros c. reflexivity. }
  assert (F13 : ~ all_of (u_space u) t) by (rewrite <- m_spaces; congruence).
  destruct (rmatch u false "^[\|[:punct:]]+$" t) eqn:E14.
  { eexists. split; [do 7 (apply row_next; [assumption|]); apply row_next; [cbn [fst]; tauto|]; do 5 (apply row_next; [assumption|]); apply row_here; [apply m_puncts; exact E14|reflexivity]|]. intros c. reflexivity. }
  assert (F14 : ~ all_of (fun c => u_punct u c || (c =? 124)) t) by (rewrite <- m_puncts; congruence).
  eexists. split; [do 7 (apply row_next; [assumption|]); apply row_next; [cbn [fst]; tauto|]; do 6 (apply row_next; [assumption|]); apply row_here; [exact I|reflexivity]|]. intros c. reflexivity.
Qed.

Lemma classify_listed : forall u x k d c0,
  (In c0 (t_in k) \/ exists le, In le (lex_find x (t_text k)) /\ In c0 (le_type le)) ->
  let k' := classify u x k d in
  t_inlex k' = true /\ t_text k' = t_text k /\
  forall c, In c (t_in k') <-> In c (t_in k) \/ exists le, In le (lex_find x (t_text k)) /\ In c (le_type le).
Proof.
  intros u x k d c0 H. unfold classify. cbn [set_in t_in].
  apply (fold_types_in (lex_find x (t_text k)) (t_in k) c0) in H.
  destruct (fold_left _ _ _) as [|c1 s] eqn:E; [destruct H|]. rewrite <- E. cbn [set_inlex t_inlex t_text t_in set_in].
  split; [reflexivity|]. split; [reflexivity|]. intros c. apply fold_types_in.
Qed.
Lemma comma_first : forall t, In 44 t -> exists a b, t = a ++ 44 :: b /\ ~ In 44 a /\ comma_to_dot t = a ++ 46 :: b.
Proof.
  induction t as [|c t IH]; intros H; [destruct H|]. cbn [comma_to_dot]. destruct (N.eqb_spec c 44) as [->|N].
  - exists [], t. repeat split; auto.
  - destruct H as [H|H]; [congruence|]. destruct (IH H) as (a & b & -> & Ha & ->). exists (c :: a), b. split; [reflexivity|]. split; [|reflexivity].
    intros [K|K]; [congruence|contradiction].
Qed.
Lemma comma_none : forall t, ~ In 44 t -> comma_to_dot t = t.
Proof.
  induction t as [|c t IH]; intros H; [reflexivity|]. cbn [comma_to_dot]. destruct (N.eqb_spec c 44) as [->|N]; [exfalso; apply H; left; reflexivity|].
  rewrite IH; [reflexivity|]. intros K. apply H. right. exact K.
Qed.
(** The text changes only when it is a decimal number with a comma. *)
Lemma classify_unlisted : forall u x k d, unlisted x k ->
  let k' := classify u x k d in
  t_inlex k' = false /\ (exists cls, row_applies (shape_rows u d) (t_text k) cls /\ forall c, In c (t_in k') <-> In c cls) /\
  (split_digits u [44; 46] (t_text k) /\ In 44 (t_text k) ->
     exists a b, t_text k = a ++ 44 :: b /\ ~ In 44 a /\ t_text k' = a ++ 46 :: b) /\
  (~ (split_digits u [44; 46] (t_text k) /\ In 44 (t_text k)) -> t_text k' = t_text k).
Proof.
  intros u x k d (H1 & H2). unfold classify. cbn [set_in t_in].
  destruct (fold_left _ _ _) as [|c1 s] eqn:E.
  - destruct (shape_ok u (t_text k) d) as (cls & R & S).
    assert (Q : forall c, In c (add_all [] (match shape_classes u (t_text k) with [] => [d] | _ => shape_classes u (t_text k) end)) <-> In c cls).
    { assert (Z : match shape_classes u (t_text k) with [] => [d] | l => l end = match shape_classes u (t_text k) with [] => [d] | _ => shape_classes u (t_text k) end)
        by (destruct (shape_classes u (t_text k)); reflexivity).
      rewrite Z in S. intros c. rewrite add_all_in. pose proof (S c) as Sc. cbn [In]. tauto. }
    destruct (rmatch u false "^\d+[,\.]\d+$" (t_text k)) eqn:M; cbn [set_text set_in set_inlex t_inlex t_text t_in].
    + split; [reflexivity|]. split; [exists cls; auto|]. apply m_decimal in M. split; [intros (_ & K); apply comma_first; exact K|].
      intros K. apply comma_none. tauto.
    + split; [reflexivity|]. split; [exists cls; auto|]. assert (~ split_digits u [44; 46] (t_text k)) by (rewrite <- m_decimal; congruence).
      split; [tauto|reflexivity].
  - exfalso. assert (K : In c1 (fold_left (fun s le => add_all s (le_type le)) (lex_find x (t_text k)) (t_in k))) by (rewrite E; left; reflexivity).
    apply fold_types_in in K. rewrite H1 in K. destruct K as [[]|(le & K1 & K2)]. rewrite (H2 _ K1) in K2. destruct K2.
Qed.
Lemma listed_or_not : forall x k, unlisted x k \/ exists c, In c (t_in k) \/ exists le, In le (lex_find x (t_text k)) /\ In c (le_type le).
Proof.
  intros x k. unfold unlisted. destruct (t_in k) as [|c s]; [|right; exists c; left; left; reflexivity].
  assert (D : forall es : list lexentry, (forall le, In le es -> le_type le = []) \/ exists c le, In le es /\ In c (le_type le)).
  { induction es as [|e es [IH|(c & le & H1 & H2)]]; [left; intros le []| |right; exists c, le; split; [right|]; assumption].
    destruct (le_type e) as [|c s] eqn:E.
    - left. intros le [<-|H]; [exact E|auto].
    - right. exists c, e. split; [left; reflexivity|rewrite E; left; reflexivity]. }
  destruct (D (lex_find x (t_text k))) as [H|(c & le & H)]; [left; auto|right; exists c; right; exists le; exact H].
Qed.
Lemma rows_nonempty : forall u d t cls, row_applies (shape_rows u d) t cls -> cls <> [].
Proof.
  intros u d t cls (pre & row & post & E & _ & _ & ->). unfold shape_rows in E.
  assert (In row (shape_rows u d)) by (unfold shape_rows; rewrite E; apply in_or_app; right; left; reflexivity).
  simpl in H. repeat (destruct H as [<-|H]; [cbn [snd]; discriminate|]). destruct H.
Qed.
Lemma classify_total : forall u x k d, t_in (classify u x k d) <> [].
Proof.
  intros u x k d. destruct (listed_or_not x k) as [H|(c & H)].
  - destruct (classify_unlisted u x k d H) as (_ & (cls & R & S) & _). apply rows_nonempty in R. destruct cls as [|c cls]; [congruence|].
    intros K. specialize (S c). rewrite K in S. apply S. left. reflexivity.
  - destruct (classify_listed u x k d c H) as (_ & _ & S). intros K. apply S in H. rewrite K in H. destruct H.
Qed.

(** ** Single and double letters *)
Lemma blen_ascii : forall t, Forall (fun c => c < 128) t -> blen t = List.length t.
Proof.
  induction 1 as [|c t H Ht IH]; [reflexivity|]. simpl. rewrite IH. unfold utf8_len. apply N.ltb_lt in H.
  change 0x80 with 128. rewrite H. reflexivity.
Qed.
Lemma letters_row : forall u d t cls, letter_tables u -> t <> [] -> Forall (fun c => u_alpha u c = true) t ->
  row_applies (shape_rows u d) t cls -> cls = I_WORD :: match blen t with 1%nat => [I_SINGLE] | 2%nat => [I_DOUBLE] | _ => [] end.
Proof.
  intros u d t cls (T1 & T2 & T3) Hne F R.
  assert (ND : forall c, In c t -> u_digit u c = false). { intros c Hc. rewrite Forall_forall in F. apply T1, F, Hc. }
  assert (A : forall c, In c t -> u_alpha u c = true) by (apply Forall_forall; exact F).
  assert (N1 : forall seps, ~ split_digits u seps t).
  { intros seps (a & s & b & -> & (Ha & Fa) & _). destruct a as [|c a]; [congruence|]. inversion Fa; subst.
    rewrite ND in *; [discriminate|left; reflexivity]. }
  assert (N2 : ~ digits u t).
  { intros (_ & Fa). destruct t as [|c t]; [congruence|]. inversion Fa; subst. rewrite ND in *; [discriminate|left; reflexivity]. }
  assert (N3 : t <> s2t "@"). { intros ->. rewrite (A 64) in T2; [discriminate|left; reflexivity]. }
  assert (N4 : t <> s2t "/"). { intros ->. rewrite (A 47) in T3; [discriminate|left; reflexivity]. }
  assert (N5 : ~ postal_head u t).
  { intros (a & b & c & -> & _ & Fb & _ & _ & L & _). destruct b as [|x b]; [simpl in L; lia|]. inversion Fb; subst.
    rewrite ND in *; [discriminate|]. apply in_or_app. right. left. reflexivity. }
  assert (N6 : ~ postal_tail u t).
  { intros (a & b & c & -> & Ha & _). rewrite ND in Ha; [discriminate|left; reflexivity]. }
  assert (N7 : ~ (words u t /\ exists d, In d t /\ u_digit u d = true)).
  { intros (_ & x & Hx & Dx). rewrite ND in Dx; [discriminate|exact Hx]. }
  assert (Y : words u t). { split; [exact Hne|]. eapply Forall_impl; [|exact F]. intros c Hc. apply T1. exact Hc. }
  destruct R as (pre & row & post & E & Fp & K & ->). unfold shape_rows in E.
  do 8 (destruct pre as [|r pre]; [cbn [app] in E; injection E as <- _; cbn [fst] in K; exfalso; first [eapply N1; exact K|tauto]|
        cbn [app] in E; injection E as <- E; apply Forall_inv_tail in Fp]).
  destruct pre as [|r pre]; [cbn [app] in E; injection E as <- _; reflexivity|].
  cbn [app] in E. injection E as <- _. inversion Fp; subst. cbn [fst] in *. contradiction.
Qed.
Lemma letters_class : forall u x k d, letter_tables u -> unlisted x k -> t_text k <> [] ->
  Forall (fun c => u_alpha u c = true) (t_text k) ->
  forall c, In c (t_in (classify u x k d)) <->
    c = I_WORD \/ (blen (t_text k) = 1%nat /\ c = I_SINGLE) \/ (blen (t_text k) = 2%nat /\ c = I_DOUBLE).
Proof.
  intros u x k d T H Hne F c. destruct (classify_unlisted u x k d H) as (_ & (cls & R & S) & _). rewrite S.
  rewrite (letters_row u d _ cls T Hne F R). destruct (blen (t_text k)) as [|[|[|n]]]; simpl; intuition congruence.
Qed.
Lemma short_words : forall u x k d, letter_tables u -> unlisted x k -> Forall (fun c => u_alpha u c = true /\ c < 128) (t_text k) ->
  (List.length (t_text k) = 1%nat -> forall c, In c (t_in (classify u x k d)) <-> c = I_WORD \/ c = I_SINGLE) /\
  (List.length (t_text k) = 2%nat -> forall c, In c (t_in (classify u x k d)) <-> c = I_WORD \/ c = I_DOUBLE).
Proof.
  intros u x k d T H F.
  assert (F1 : Forall (fun c => u_alpha u c = true) (t_text k)) by (eapply Forall_impl; [|exact F]; simpl; tauto).
  assert (F2 : Forall (fun c => c < 128) (t_text k)) by (eapply Forall_impl; [|exact F]; simpl; tauto).
  assert (L := blen_ascii _ F2). split; intros E c; (rewrite (letters_class u x k d T H); [rewrite L, E; intuition congruence| |exact F1]);
    destruct (t_text k); discriminate.
Qed.
(** Latin-1 tables for the counterexample: E with acute accent is a letter. *)
Definition latin1_uni : uni :=
  mkUni a_space (fun c => a_word c || (c =? 0xC9)) (fun c => a_alpha c || (c =? 0xC9)) a_digit a_punct a_fold.
Lemma latin1_tables : letter_tables latin1_uni.
Proof.
  split; [|split; reflexivity]. intros c H. cbn [latin1_uni u_alpha u_word u_digit] in *. unfold a_word. split.
  - apply orb_true_iff in H. destruct H as [->| ->]; [reflexivity|apply orb_true_r].
  - apply orb_true_iff in H. unfold a_alpha, a_upper, a_lower, a_digit in *. rewrite !orb_true_iff, !andb_true_iff, !N.leb_le, N.eqb_eq in H.
    apply andb_false_iff. rewrite !N.leb_gt. lia.
Qed.
Lemma single_letter_refuted : exists u x t, letter_tables u /\ (exists c, t = [c] /\ u_alpha u c = true) /\
  let k := mkToken t [] [] O_BADTOKEN [] false in
  unlisted x k /\ ~ In I_SINGLE (t_in (classify u x k I_WORD)) /\ In I_DOUBLE (t_in (classify u x k I_WORD)).
Proof.
  exists latin1_uni, (new_lexicon []), [0xC9]. split; [apply latin1_tables|]. split; [exists 0xC9; split; reflexivity|].
  split; [split; [reflexivity|intros le []]|]. split; [|vm_compute; auto]. vm_compute. intros [H|[H|[]]]; discriminate.
Qed.

(** ** Standard words *)
Lemma find_first : forall A (f : A -> bool) l, match find f l with
  | Some a => exists l1 l2, l = l1 ++ a :: l2 /\ f a = true /\ Forall (fun b => f b = false) l1
  | None => Forall (fun b => f b = false) l end.
Proof.
  induction l as [|a l IH]; simpl; [constructor|]. destruct (f a) eqn:E.
  - exists [], l. repeat split; [exact E|constructor].
  - destruct (find f l) as [b|].
    + destruct IH as (l1 & l2 & -> & H1 & H2). exists (a :: l1), l2. repeat split; [exact H1|constructor; assumption].
    + constructor; assumption.
Qed.
Lemma standard_word : forall x k c, t_in k = [c] ->
  exists k', standardize_word x k = Ok k' /\ t_text k' = t_text k /\ t_in k' = t_in k /\ t_out k' = t_out k /\
  (forall l1 le l2, lex_find x (t_text k) = l1 ++ le :: l2 -> In c (le_type le) -> (forall e, In e l1 -> ~ In c (le_type e)) ->
     t_std k' = match le_std le with [] => t_text k | s => s end) /\
  ((forall e, In e (lex_find x (t_text k)) -> ~ In c (le_type e)) ->
     t_std k' = match t_std k with [] => t_text k | s => s end).
Proof.
  intros x k c E. unfold standardize_word. rewrite E.
  set (es := lex_find x (t_text k)).
  set (r := find (fun le => le_in_class le c) es). assert (F := find_first _ (fun le => le_in_class le c) es). fold r in F.
  assert (C : forall e, le_in_class e c = false <-> ~ In c (le_type e)).
  { intros e. unfold le_in_class. rewrite <- iset_mem_in. destruct (iset_mem c (le_type e)); split; congruence. }
  exists (let k1 := match r with Some le => set_std k (le_std le) | None => k end in match t_std k1 with [] => set_std k1 (t_text k1) | _ => k1 end).
  split; [|split; [|split; [|split; [|split]]]].
  - destruct es as [|e es']; [subst r; reflexivity|]. subst r. cbn [obind]. destruct (find _ (e :: es')); reflexivity.
  - destruct r as [le'|]; cbn [set_std t_std]; [destruct (le_std le')|destruct (t_std k)]; reflexivity.
  - destruct r as [le'|]; cbn [set_std t_std]; [destruct (le_std le')|destruct (t_std k)]; cbn; congruence.
  - destruct r as [le'|]; cbn [set_std t_std]; [destruct (le_std le')|destruct (t_std k)]; reflexivity.
  - intros l1 le l2 El Hc Hn. destruct r as [le'|].
    + destruct F as (m1 & m2 & Em & Hf & Fm). assert (le' = le).
      { rewrite Em in El. clear - El Hc Hn Hf Fm C. revert m1 El Fm. induction l1 as [|a l1 IH]; intros [|b m1] El Fm; cbn [app] in El.
        - congruence.
        - injection El as -> _. inversion Fm; subst. apply C in H1. contradiction.
        - injection El as -> _. exfalso. apply (Hn a); [left; reflexivity|]. apply iset_mem_in. exact Hf.
        - injection El as -> El. inversion Fm; subst. apply (IH ltac:(intros e He; apply Hn; right; exact He) m1); assumption. }
      subst le'. cbn [set_std t_std]. destruct (le_std le); reflexivity.
    + exfalso. rewrite Forall_forall in F. assert (K : In le es) by (rewrite El; apply in_or_app; right; left; reflexivity).
      apply F in K. apply C in K. contradiction.
  - intros Hn. destruct r as [le'|].
    + exfalso. destruct F as (m1 & m2 & Em & Hf & Fm). apply (Hn le').
      * rewrite Em. apply in_or_app. right. left. reflexivity.
      * apply iset_mem_in. exact Hf.
    + cbv zeta. destruct (t_std k) eqn:Es; [reflexivity|exact Es].
Qed.
