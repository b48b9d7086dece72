(** The format of compiled lexicons. *)
From Coq Require Import String List NArith ZArith Bool Lia.
From Verif Require Import Base_model Class_model Class_spec Grammar_model Lexicon_model LexDiag_spec LexDiag_proofs Archive_model Codes_spec Codes_proofs Format_spec.
Import ListNotations.
Local Open Scope N_scope.

Definition cls_name (c : cls) : string :=
  match c with C_map => "map" | C_item => "pair" | C_vec => "vector" | C_entry => "LexEntry" | C_types => "set of classes" | C_atts => "set of attachments" end.
Definition tracks (l : list cls) (b : list field) : Prop := forall c, In c l <-> In (F_class (cls_name c)) b.
Lemma cls_eqb_iff : forall a b, cls_eqb a b = true <-> a = b.
Proof. intros a b. destruct a, b; cbn; split; intros H; try reflexivity; try discriminate H. Qed.
Lemma cls_name_inj : forall a b, cls_name a = cls_name b -> a = b.
Proof. intros a b. destruct a, b; cbn; intros H; try reflexivity; discriminate H. Qed.
Lemma seen_iff : forall c l, seen c l = true <-> In c l.
Proof.
  intros c l. unfold seen. rewrite existsb_exists. split; [intros (d & I & E); apply cls_eqb_iff in E; subst; exact I|intros I; exists c; split; [exact I|apply cls_eqb_iff; reflexivity]].
Qed.
Lemma written_app : forall b fs t, written b fs t -> forall gs u, written (b ++ fs) gs u -> written b (fs ++ gs) (t ++ u).
Proof.
  intros b fs t W. induction W as [b|b z d fs t D W IH|b s d fs t D W IH|b n fs t D W IH|b n fs t D W IH]; intros gs u V; cbn [app].
  - rewrite app_nil_r in V. exact V.
  - rewrite <- !app_assoc. constructor; [exact D|]. apply IH. rewrite <- app_assoc. exact V.
  - rewrite <- !app_assoc. cbn [app]. rewrite <- app_assoc. constructor; [exact D|]. apply IH. rewrite <- app_assoc. exact V.
  - rewrite <- app_assoc. apply wr_first; [exact D|]. apply IH. rewrite <- app_assoc. exact V.
  - apply wr_again; [exact D|]. apply IH. rewrite <- app_assoc. exact V.
Qed.
Definition writes (w : writer) (fs : list field) : Prop := forall l b, tracks l b -> written b fs (fst (w l)) /\ tracks (snd (w l)) (b ++ fs).
Lemma w_seq : forall a b fs gs, writes a fs -> writes b gs -> writes (seq a b) (fs ++ gs).
Proof.
  intros a b fs gs A B l c T. unfold seq. destruct (A l c T) as (A1 & A2). destruct (a l) as [t l1]. cbn [fst snd] in A1, A2. destruct (B l1 (c ++ fs) A2) as (B1 & B2).
  destruct (b l1) as [t' l2]. cbn [fst snd] in *. split; [exact (written_app _ _ _ A1 _ _ B1)|]. rewrite app_assoc. exact B2.
Qed.
Lemma tracks_more : forall l b f, tracks l b -> (forall n, f <> F_class n) -> tracks l (b ++ [f]).
Proof.
  intros l b f T H c. rewrite (T c). split; [intros I; apply in_or_app; left; exact I|]. intros I. apply in_app_or in I. destruct I as [I|[I|[]]]; [exact I|].
  exfalso. exact (H _ I).
Qed.
Lemma num_text : forall z, exists d, decimal (Z.abs_N z) d /\ put_num z = 32 :: (if Z.ltb z 0 then [45] else []) ++ d.
Proof. intros z. exists (dec_text (Z.abs_N z)). split; [apply dec_decimal|]. destruct z; reflexivity. Qed.
Lemma w_num : forall z, writes (put (put_num z)) [F_num z].
Proof.
  intros z l b T. cbn [put fst snd]. split; [|apply tracks_more; [exact T|discriminate]]. destruct (num_text z) as (d & D & ->).
  rewrite <- (app_nil_r d) at 1. constructor; [exact D|constructor].
Qed.
Lemma w_str : forall s, writes (put (put_str s)) [F_str s].
Proof.
  intros s l b T. cbn [put fst snd]. split; [|apply tracks_more; [exact T|discriminate]]. unfold put_str. destruct (num_text (Z.of_nat (List.length s))) as (d & D & ->).
  replace (Z.ltb (Z.of_nat (List.length s)) 0) with false by (symmetry; apply Z.ltb_ge; lia). cbn [app].
  replace (32 :: d ++ SP :: s) with (32 :: d ++ 32 :: s ++ []) by (rewrite app_nil_r; reflexivity). constructor; [|constructor]. replace (N.of_nat (List.length s)) with (Z.abs_N (Z.of_nat (List.length s))) by lia. exact D.
Qed.
Lemma w_class : forall c, writes (put_class c) [F_class (cls_name c)].
Proof.
  intros c l b T. unfold put_class. destruct (seen c l) eqn:E; cbn [fst snd].
  - apply seen_iff in E. split; [apply wr_again; [apply T; exact E|constructor]|]. intros c'. rewrite (T c'). split; [intros I; apply in_or_app; left; exact I|].
    intros I. apply in_app_or in I. destruct I as [I|[I|[]]]; [exact I|]. injection I as I. apply cls_name_inj in I. subst. apply T. exact E.
  - assert (NI : ~ In c l) by (intros K; apply seen_iff in K; congruence). split; [change (put_num 0 ++ put_num 0) with (s2t " 0 0" ++ []); apply wr_first; [intros K; apply NI; apply T; exact K|constructor]|].
    intros c'. cbn [In]. rewrite (T c'). split.
    + intros [<-|I]; apply in_or_app; [right; left; reflexivity|left; exact I].
    + intros I. apply in_app_or in I. destruct I as [I|[I|[]]]; [right; exact I|left]. injection I as I. apply cls_name_inj in I. exact I.
Qed.
Lemma w_all : forall A (f : A -> writer) (g : A -> list field) xs, (forall x, writes (f x) (g x)) -> writes (put_all f xs) (flat_map g xs).
Proof.
  intros A f g xs H. induction xs as [|x xs IH]; [intros l b T; cbn; rewrite app_nil_r; split; [constructor|exact T]|]. cbn [put_all flat_map]. apply w_seq; [apply H|exact IH].
Qed.
Lemma w_two : forall z, writes (put (put_num z ++ put_num 0)) [F_num z; F_num 0].
Proof. intros z l b T. destruct (w_seq _ _ _ _ (w_num z) (w_num 0) l b T) as (A & B). exact (conj A B). Qed.
Lemma w_items : forall A (f : A -> writer) (g : A -> list field) xs, (forall x, writes (f x) (g x)) -> writes (put_items f xs) (items g xs).
Proof. intros A f g xs H. unfold put_items, items. apply (w_seq _ _ [_; _]); [apply w_two|apply w_all; exact H]. Qed.
Lemma code_num : forall t n z, number_of t n = Some z -> code_in t n = F_num z.
Proof. intros t n z E. unfold code_in. rewrite E. reflexivity. Qed.
Lemma w_entry : forall e, writes (put_entry e) (entry_fields e).
Proof.
  intros e. destruct codes_ok as (CI & CA & _ & _). unfold put_entry, entry_fields.
  apply (w_seq _ _ [_]); [apply (w_class C_entry)|]. apply (w_seq _ _ [_]); [apply w_str|]. apply (w_seq _ _ [_]); [apply w_str|].
  apply (w_seq _ _ [_]); [apply (w_class C_types)|]. apply w_seq; [apply w_items; intros c; rewrite (code_num _ _ _ (CI c)); apply w_num|].
  apply (w_seq _ _ [_]); [apply (w_class C_atts)|]. apply w_items. intros a. rewrite (code_num _ _ _ (CA a)). apply w_num.
Qed.
Lemma w_save : forall x v, writes (seq (put (put_num 0)) (seq (put (put_num v)) (save x))) (lexicon_fields v x).
Proof.
  intros x v. destruct codes_ok as (_ & _ & CL & _). unfold save, lexicon_fields.
  apply (w_seq _ _ [_]); [apply w_num|]. apply (w_seq _ _ [_]); [apply w_num|]. apply (w_seq _ _ [_]); [apply w_str|].
  apply (w_seq _ _ [_]); [rewrite (code_num _ _ _ (CL (x_lang x))); apply w_num|]. apply (w_seq _ _ [_]); [apply w_str|]. apply (w_seq _ _ [_]); [apply (w_class C_map)|].
  apply w_seq.
  - apply w_items. intros kv. unfold put_item. apply (w_seq _ _ [_]); [apply (w_class C_item)|]. apply (w_seq _ _ [_]); [apply w_str|].
    apply (w_seq _ _ [_]); [apply (w_class C_vec)|]. apply w_items. exact w_entry.
  - apply (w_seq _ _ [_] [_; _; _]); [apply w_str|]. apply (w_seq _ _ [_] [_; _]); [apply w_str|]. apply (w_seq _ _ [_] [_]); apply w_str.
Qed.
Lemma written_fun : forall fs b t u, written b fs t -> written b fs u -> t = u.
Proof.
  induction fs as [|f fs IH]; intros b t u W V; [inversion W; inversion V; reflexivity|].
  destruct f as [z|s|n]; inversion W; subst; inversion V; subst; try contradiction.
  - match goal with A : decimal _ ?d, B : decimal _ ?d' |- _ => assert (d = d') by (eapply decimal_fun; eassumption) end. subst. do 3 f_equal. eapply IH; eassumption.
  - match goal with A : decimal _ ?d, B : decimal _ ?d' |- _ => assert (d = d') by (eapply decimal_fun; eassumption) end. subst. do 4 f_equal. eapply IH; eassumption.
  - f_equal. eapply IH; eassumption.
  - eapply IH; eassumption.
Qed.
Lemma format_iff : forall v x t, save_archive v x = s2t "22 serialization::archive 17" ++ t <-> written [] (lexicon_fields v x) t.
Proof.
  intros v x t. assert (W : exists u, save_archive v x = s2t "22 serialization::archive 17" ++ u /\ written [] (lexicon_fields v x) u).
  { destruct (w_save x v [] []) as (W & _); [intros c; cbn [In]; reflexivity|]. eexists. split; [|exact W]. unfold save_archive, seq, put. destruct (save x []) as [u l] eqn:E. cbn [fst]. reflexivity. }
  destruct W as (u & E & W). rewrite E. split; [intros K; apply app_inv_head in K; subst; exact W|intros V; rewrite (written_fun _ _ _ _ W V); reflexivity].
Qed.
