(** Names of classes, class lists and tab separated records read back what was printed. *)
From Coq Require Import String List NArith ZArith Bool Lia Sorting.Sorted.
From Verif Require Import Base_model Class_model Token_model Class_spec Search_proofs.
Import ListNotations.
Local Open Scope N_scope.

(** ** Single names *)
Lemma in_name_ok : forall c, as_one_type (in_str c) = c.
Proof. intros c; destruct c; vm_compute; reflexivity. Qed.
Lemma out_name_ok : forall c, out_as_type (out_str c) = c.
Proof. intros c; destruct c; vm_compute; reflexivity. Qed.
Lemma lang_code_ok : forall l, as_lang (s2t (lang_code l)) = l.
Proof. intros l; destruct l; vm_compute; reflexivity. Qed.
Lemma lang_name_ok : forall l, as_lang (s2t (lang_name l)) = l.
Proof. intros l; destruct l; vm_compute; reflexivity. Qed.
Lemma in_int_ok : forall c, in_of_code (in_code c) = c.
Proof. intros c; destruct c; reflexivity. Qed.
Lemma out_int_ok : forall c, out_of_code (out_code c) = c.
Proof. intros c; destruct c; reflexivity. Qed.

Lemma table_find_other : forall A (tab : list (string * A)) d s,
  (forall n v, In (n, v) tab -> s <> s2t n) -> table_find tab d s = d.
Proof.
  induction tab as [|[n v] tab IH]; intros d s H; [reflexivity|]. simpl.
  replace (teqb s (s2t n)) with false.
  - apply IH. intros m w Hm. apply (H m w). right; exact Hm.
  - symmetry. apply teqb_neq. apply (H n v). left; reflexivity.
Qed.

Lemma table_names : forall A (f : A -> string) tab, forallb (fun p => String.eqb (fst p) (f (snd p))) tab = true ->
  forall n v, In (n, v) tab -> n = f v.
Proof.
  intros A f tab H n v Hin. rewrite forallb_forall in H. specialize (H _ Hin). simpl in H.
  apply String.eqb_eq in H. exact H.
Qed.
Lemma in_other : forall s, (forall c, s <> in_str c) -> as_one_type s = I_BADTOKEN.
Proof.
  intros s H. apply table_find_other. intros n v Hin.
  apply (table_names _ in_name) in Hin; [|vm_compute; reflexivity]. subst n. apply H.
Qed.
Lemma out_other : forall s, (forall c, s <> out_str c) -> out_as_type s = O_BADTOKEN.
Proof.
  intros s H. apply table_find_other. intros n v Hin.
  apply (table_names _ out_name) in Hin; [|vm_compute; reflexivity]. subst n. apply H.
Qed.
Lemma lang_other : forall s, (forall l, s <> s2t (lang_code l) /\ s <> s2t (lang_name l)) -> as_lang s = L_UNKNOWN.
Proof.
  intros s H. apply table_find_other. intros n v Hin.
  assert (E : n = lang_code v \/ n = lang_name v).
  { assert (F : forallb (fun p => String.eqb (fst p) (lang_code (snd p)) || String.eqb (fst p) (lang_name (snd p)))
                  lang_table = true) by (vm_compute; reflexivity).
    rewrite forallb_forall in F. specialize (F _ Hin). simpl in F. apply orb_true_iff in F.
    destruct F as [F|F]; apply String.eqb_eq in F; auto. }
  destruct E as [->| ->]; apply H.
Qed.
Lemma att_name_ok : forall a, table_find att_table None (att_str a) = Some a.
Proof. intros a; destruct a; vm_compute; reflexivity. Qed.
Lemma att_other : forall s, (forall a, s <> att_str a) -> table_find att_table None s = None.
Proof.
  intros s H. apply table_find_other. intros n v Hin.
  assert (E : exists a, n = att_name a).
  { simpl in Hin. repeat (destruct Hin as [Hin|Hin]; [injection Hin as <- <-; eexists|]); try contradiction.
    - instantiate (1 := DET_PRE); reflexivity.
    - instantiate (1 := DET_SUF); reflexivity.
    - instantiate (1 := ATT_PRE); reflexivity.
    - instantiate (1 := ATT_SUF); reflexivity. }
  destruct E as [a ->]. apply H.
Qed.

(** ** Comma separated lists *)
Lemma comma_pieces_app : forall a r, no_comma a -> comma_pieces (a ++ COMMA_CH :: r) = a :: comma_pieces r.
Proof.
  induction a as [|c a IH]; intros r H.
  - reflexivity.
  - simpl. destruct (N.eqb_spec c COMMA_CH) as [E|E].
    + exfalso. apply H. left. exact E.
    + rewrite IH; [reflexivity|]. intros Hin. apply H. right; exact Hin.
Qed.
Lemma comma_pieces_one : forall a, no_comma a -> comma_pieces a = [a].
Proof.
  induction a as [|c a IH]; intros H; [reflexivity|]. simpl.
  destruct (N.eqb_spec c COMMA_CH) as [E|E].
  - exfalso. apply H. left. exact E.
  - rewrite IH; [reflexivity|]. intros Hin. apply H. right; exact Hin.
Qed.
Lemma comma_pieces_join : forall l, l <> [] -> Forall no_comma l -> comma_pieces (join [COMMA_CH] l) = l.
Proof.
  induction l as [|a l IH]; intros Hne H; [congruence|]. inversion H; subst.
  destruct l as [|b l].
  - simpl. apply comma_pieces_one; assumption.
  - change (join [COMMA_CH] (a :: b :: l)) with (a ++ COMMA_CH :: join [COMMA_CH] (b :: l)).
    rewrite comma_pieces_app by assumption. rewrite IH; [reflexivity|discriminate|assumption].
Qed.

Lemma in_str_plain : forall c, no_comma (in_str c) /\ in_str c <> [] /\ trimboth (in_str c) = in_str c /\ no_tab (in_str c).
Proof.
  intros c. unfold no_comma, no_tab.
  assert (F : existsb (N.eqb 44) (in_str c) = false /\ existsb (N.eqb 9) (in_str c) = false /\
    in_str c <> [] /\ trimboth (in_str c) = in_str c)
    by (destruct c; repeat split; vm_compute; (reflexivity || discriminate)).
  destruct F as (F1 & F2 & F3 & F4).
  assert (G : forall d, existsb (N.eqb d) (in_str c) = false -> ~ In d (in_str c)).
  { intros d E Hin. rewrite <- not_true_iff_false in E. apply E. apply existsb_exists. exists d.
    split; [exact Hin|apply N.eqb_refl]. }
  repeat split; auto.
Qed.
Lemma att_str_plain : forall c, no_comma (att_str c) /\ att_str c <> [] /\ trimboth (att_str c) = att_str c /\ no_tab (att_str c).
Proof.
  intros c. unfold no_comma, no_tab.
  destruct c; repeat split; try reflexivity; try discriminate; vm_compute; intros H;
    repeat (destruct H as [H|H]; [discriminate|]); exact H.
Qed.
Lemma out_str_no_tab : forall c, no_tab (out_str c).
Proof. intros c; destruct c; vm_compute; intros H; repeat (destruct H as [H|H]; [discriminate|]); exact H. Qed.

Lemma iset_insert_last : forall s c, Forall (fun a => (in_code a < in_code c)%Z) s -> iset_insert c s = s ++ [c].
Proof.
  induction s as [|u s IH]; intros c H; [reflexivity|]. inversion H; subst. simpl.
  replace (in_code c <? in_code u)%Z with false by (symmetry; apply Z.ltb_ge; lia).
  replace (in_code u <? in_code c)%Z with true by (symmetry; apply Z.ltb_lt; lia).
  rewrite IH by assumption. reflexivity.
Qed.
Lemma aset_insert_last : forall s c, Forall (fun a => (att_code a < att_code c)%Z) s -> aset_insert c s = s ++ [c].
Proof.
  induction s as [|u s IH]; intros c H; [reflexivity|]. inversion H; subst. simpl.
  replace (att_code c <? att_code u)%Z with false by (symmetry; apply Z.ltb_ge; lia).
  replace (att_code u <? att_code c)%Z with true by (symmetry; apply Z.ltb_lt; lia).
  rewrite IH by assumption. reflexivity.
Qed.
Lemma add_type_name : forall s c, add_type_word s (in_str c) = iset_insert c s.
Proof.
  intros s c. unfold add_type_word. destruct (in_str_plain c) as (_ & H & T & _). rewrite T.
  rewrite <- (in_name_ok c) at 2. destruct (in_str c); [congruence|reflexivity].
Qed.
Lemma add_att_name : forall s c, add_att_word s (att_str c) = aset_insert c s.
Proof.
  intros s c. unfold add_att_word. destruct (att_str_plain c) as (_ & H & T & _). rewrite T.
  pose proof (att_name_ok c) as E. destruct (att_str c); [congruence|]. rewrite E. reflexivity.
Qed.
Lemma sorted_app_last : forall A (f : A -> Z) (s : list A) p, StronglySorted (fun a b => (f a < f b)%Z) (p ++ s) ->
  match s with [] => True | c :: _ => Forall (fun a => (f a < f c)%Z) p end.
Proof.
  intros A f s p. destruct s as [|c s]; [trivial|]. induction p as [|a p IH]; intros H; [constructor|].
  simpl in H. inversion H; subst. constructor.
  - rewrite Forall_forall in H3. apply H3. apply in_or_app. right; left; reflexivity.
  - apply IH; assumption.
Qed.
Lemma fold_types : forall s p, is_inset (p ++ s) -> fold_left add_type_word (map in_str s) p = p ++ s.
Proof.
  induction s as [|c s IH]; intros p H; [rewrite app_nil_r; reflexivity|]. simpl. rewrite add_type_name.
  rewrite iset_insert_last.
  - rewrite IH; rewrite <- app_assoc; [reflexivity|exact H].
  - exact (sorted_app_last _ in_code (c :: s) p H).
Qed.
Lemma fold_atts : forall s p, is_attset (p ++ s) -> fold_left add_att_word (map att_str s) p = p ++ s.
Proof.
  induction s as [|c s IH]; intros p H; [rewrite app_nil_r; reflexivity|]. simpl. rewrite add_att_name.
  rewrite aset_insert_last.
  - rewrite IH; rewrite <- app_assoc; [reflexivity|exact H].
  - exact (sorted_app_last _ att_code (c :: s) p H).
Qed.
Lemma iset_round : forall s, is_inset s -> as_type (iset_str s) = s.
Proof.
  intros s H. unfold as_type, iset_str. destruct s as [|c s]; [reflexivity|].
  rewrite comma_pieces_join.
  - apply (fold_types (c :: s) []). exact H.
  - discriminate.
  - apply Forall_forall. intros x Hx. apply in_map_iff in Hx. destruct Hx as (d & <- & _). apply in_str_plain.
Qed.
Lemma aset_round : forall s, is_attset s -> as_attach (aset_str s) = s.
Proof.
  intros s H. unfold as_attach, aset_str. destruct s as [|c s]; [reflexivity|].
  rewrite comma_pieces_join.
  - apply (fold_atts (c :: s) []). exact H.
  - discriminate.
  - apply Forall_forall. intros x Hx. apply in_map_iff in Hx. destruct Hx as (d & <- & _). apply att_str_plain.
Qed.

(** What is read is always a set. *)
Lemma Forall_insert : forall (P : intype -> Prop) c s, P c -> Forall P s -> Forall P (iset_insert c s).
Proof.
  intros P c s Hc H. induction H as [|u s Hu Hs IH]; simpl; [repeat constructor; assumption|].
  destruct (in_code c <? in_code u)%Z; [repeat constructor; assumption|].
  destruct (in_code u <? in_code c)%Z; constructor; assumption.
Qed.
Lemma in_code_inj : forall a b, in_code a = in_code b -> a = b.
Proof. intros a b H. rewrite <- (in_int_ok a), <- (in_int_ok b), H. reflexivity. Qed.
Lemma att_code_inj : forall a b, att_code a = att_code b -> a = b.
Proof. intros a b; destruct a, b; simpl; intros H; (reflexivity || discriminate). Qed.
Lemma iset_insert_set : forall c s, is_inset s -> is_inset (iset_insert c s).
Proof.
  intros c s H. induction H as [|u s Hs IH Hu]; simpl; [repeat constructor|].
  destruct (Z.ltb_spec (in_code c) (in_code u)).
  - constructor; [constructor; assumption|]. constructor; [assumption|].
    eapply Forall_impl; [|exact Hu]. simpl; intros; lia.
  - destruct (Z.ltb_spec (in_code u) (in_code c)); [|constructor; assumption].
    constructor; [exact IH|]. apply Forall_insert; assumption.
Qed.
Lemma iset_insert_in : forall c s d, In d (iset_insert c s) <-> d = c \/ In d s.
Proof.
  induction s as [|u s IH]; intros d; simpl.
  - split; intros [E|E]; auto; contradiction.
  - destruct (Z.ltb_spec (in_code c) (in_code u)); [simpl; split; intuition|].
    destruct (Z.ltb_spec (in_code u) (in_code c)).
    + simpl. rewrite IH. split; intuition.
    + assert (u = c) by (apply in_code_inj; lia). subst. simpl. split; intuition.
Qed.
Lemma aset_insert_in : forall c s d, In d (aset_insert c s) <-> d = c \/ In d s.
Proof.
  induction s as [|u s IH]; intros d; simpl.
  - split; intros [E|E]; auto; contradiction.
  - destruct (Z.ltb_spec (att_code c) (att_code u)); [simpl; split; intuition|].
    destruct (Z.ltb_spec (att_code u) (att_code c)).
    + simpl. rewrite IH. split; intuition.
    + assert (u = c) by (apply att_code_inj; lia). subst. simpl. split; intuition.
Qed.
Lemma as_type_set : forall t, is_inset (as_type t).
Proof.
  intros t. unfold as_type. assert (H : is_inset []) by constructor. revert H. generalize (@nil intype).
  induction (comma_pieces t) as [|p ps IH]; intros s H; [exact H|]. simpl. apply IH.
  unfold add_type_word. destruct (trimboth p); [exact H|apply iset_insert_set; exact H].
Qed.
Lemma aset_insert_set : forall c s, is_attset s -> is_attset (aset_insert c s).
Proof.
  intros c s H. induction H as [|u s Hs IH Hu]; simpl; [repeat constructor|].
  destruct (Z.ltb_spec (att_code c) (att_code u)).
  - constructor; [constructor; assumption|]. constructor; [assumption|].
    eapply Forall_impl; [|exact Hu]. simpl; intros; lia.
  - destruct (Z.ltb_spec (att_code u) (att_code c)); [|constructor; assumption].
    constructor; [exact IH|]. apply Forall_forall. intros d Hd. apply aset_insert_in in Hd.
    destruct Hd as [->|Hd]; [assumption|]. rewrite Forall_forall in Hu. auto.
Qed.
Lemma as_attach_set : forall t, is_attset (as_attach t).
Proof.
  intros t. unfold as_attach. assert (H : is_attset []) by constructor. revert H. generalize (@nil attach).
  induction (comma_pieces t) as [|p ps IH]; intros s H; [exact H|]. simpl. apply IH.
  unfold add_att_word. destruct (trimboth p); [exact H|]. destruct (table_find _ _ _); [apply aset_insert_set|]; exact H.
Qed.
Lemma iset_mem_in : forall c s, iset_mem c s = true <-> In c s.
Proof.
  intros c s. unfold iset_mem. rewrite existsb_exists. split.
  - intros (d & Hd & E). unfold in_eqb in E. apply Z.eqb_eq in E. apply in_code_inj in E. subst; exact Hd.
  - intros H. exists c. split; [exact H|]. unfold in_eqb. apply Z.eqb_refl.
Qed.
Lemma aset_mem_in : forall c s, aset_mem c s = true <-> In c s.
Proof.
  intros c s. unfold aset_mem. rewrite existsb_exists. split.
  - intros (d & Hd & E). unfold att_eqb in E. apply Z.eqb_eq in E. apply att_code_inj in E. subst; exact Hd.
  - intros H. exists c. split; [exact H|]. unfold att_eqb. apply Z.eqb_refl.
Qed.
(** The class names among the pieces are exactly the classes read. *)
Lemma as_type_in : forall t c, In c (as_type t) <->
  exists p, In p (comma_pieces t) /\ trimboth p <> [] /\ as_one_type (trimboth p) = c.
Proof.
  intros t c. unfold as_type.
  assert (G : forall ps s, In c (fold_left add_type_word ps s) <->
    In c s \/ exists p, In p ps /\ trimboth p <> [] /\ as_one_type (trimboth p) = c).
  { induction ps as [|p ps IH]; intros s; simpl.
    - split; [auto|]. intros [H|(p & [] & _)]; exact H.
    - rewrite IH. unfold add_type_word. destruct (trimboth p) as [|x w] eqn:T.
      + split.
        * intros [H|(q & H & K)]; [auto|]. right. exists q. auto.
        * intros [H|(q & [<-|H] & K)]; [auto| |].
          -- rewrite T in K. destruct K as [K _]; congruence.
          -- right. exists q. auto.
      + rewrite iset_insert_in. split.
        * intros [[->|H]|(q & H & K)]; [|auto|].
          -- right. exists p. rewrite T. split; [auto|]. split; [discriminate|reflexivity].
          -- right. exists q. auto.
        * intros [H|(q & [<-|H] & K)]; [auto| |].
          -- rewrite T in K. left. left. symmetry. apply K.
          -- right. exists q. auto. }
  rewrite G. simpl. split; [intros [[]|H]; exact H|auto].
Qed.

(** ** Blanks around names *)
Lemma drop_sp_blanks : forall a t, Forall (fun c => c = 32) a -> drop_sp (a ++ t) = drop_sp t.
Proof. intros a t H. induction H as [|c a E H IH]; [reflexivity|]. subst c. simpl. exact IH. Qed.
Lemma drop_sp_visible : forall t, visible t -> exists c u, drop_sp t = c :: u /\ c <> 32 /\ exists a, t = a ++ c :: u /\ Forall (fun c => c = 32) a.
Proof.
  induction t as [|c t IH]; intros (d & Hd & E); [destruct Hd|]. simpl.
  destruct (N.eqb_spec c SP) as [->|N].
  - destruct Hd as [<-|Hd]; [exfalso; apply E; reflexivity|].
    destruct IH as (c & u & -> & Hc & a & -> & Ha); [exists d; auto|].
    exists c, u. split; [reflexivity|]. split; [exact Hc|]. exists (SP :: a). split; [reflexivity|]. constructor; auto.
  - exists c, t. split; [reflexivity|]. split; [exact N|]. exists []. split; [reflexivity|constructor].
Qed.
Lemma trimboth_core : forall a n b, Forall (fun c => c = 32) a -> Forall (fun c => c = 32) b ->
  n <> [] -> (forall t, drop_sp (n ++ t) = n ++ t) -> (forall t, drop_sp (rev n ++ t) = rev n ++ t) -> trimboth (a ++ n ++ b) = n.
Proof.
  intros a n b Ha Hb Hn H1 H2. unfold trimboth. rewrite drop_sp_blanks by exact Ha. rewrite H1.
  destruct (n ++ b) as [|c u] eqn:E; [destruct n; [congruence|discriminate]|]. rewrite <- E.
  rewrite rev_app_distr. rewrite drop_sp_blanks by (apply Forall_rev; exact Hb).
  rewrite <- (app_nil_r (rev n)), H2, app_nil_r. apply rev_involutive.
Qed.
Lemma visible_core : forall n, visible n -> exists a m b, n = a ++ m ++ b /\ Forall (fun c => c = 32) a /\ Forall (fun c => c = 32) b /\
  m <> [] /\ (forall t, drop_sp (m ++ t) = m ++ t) /\ (forall t, drop_sp (rev m ++ t) = rev m ++ t).
Proof.
  intros n V. destruct (drop_sp_visible n V) as (c & u & _ & Hc & a & -> & Ha).
  assert (V2 : visible (rev (c :: u))). { exists c. split; [apply -> in_rev; left; reflexivity|exact Hc]. }
  destruct (drop_sp_visible _ V2) as (d & v & _ & Hd & b & E & Hb).
  apply (f_equal (@rev N)) in E. rewrite rev_involutive, rev_app_distr in E. simpl in E.
  exists a, (rev v ++ [d]), (rev b). split; [rewrite E; rewrite <- !app_assoc; reflexivity|].
  split; [exact Ha|]. split; [apply Forall_rev; exact Hb|]. split; [destruct (rev v); discriminate|].
  split; intros t.
  - assert (F : exists w, rev v ++ [d] = c :: w).
    { destruct (rev v) as [|x w]; simpl in E; injection E as <- _; eexists; reflexivity. }
    destruct F as [w ->]. simpl. destruct (N.eqb_spec c SP); [contradiction|reflexivity].
  - rewrite rev_app_distr, rev_involutive. simpl. destruct (N.eqb_spec d SP); [contradiction|reflexivity].
Qed.
Lemma trimboth_padded : forall n p, visible n -> padded n p -> trimboth p = trimboth n.
Proof.
  intros n p V (a & b & -> & Ha & Hb). destruct (visible_core n V) as (a' & m & b' & -> & Ha' & Hb' & Hm & H1 & H2).
  rewrite (trimboth_core a' m b' Ha' Hb' Hm H1 H2).
  replace (a ++ (a' ++ m ++ b') ++ b) with ((a ++ a') ++ m ++ (b' ++ b)) by (rewrite <- !app_assoc; reflexivity).
  apply trimboth_core; try assumption; apply Forall_app; auto.
Qed.
Lemma padded_no_comma : forall n p, padded n p -> no_comma n -> no_comma p.
Proof.
  intros n p (a & b & -> & Ha & Hb) H Hin. rewrite Forall_forall in Ha, Hb. apply in_app_or in Hin.
  destruct Hin as [Hin|Hin]; [specialize (Ha _ Hin); discriminate|]. apply in_app_or in Hin.
  destruct Hin as [Hin|Hin]; [exact (H Hin)|specialize (Hb _ Hin); discriminate].
Qed.
Lemma blanks_harmless : forall ns ps, Forall no_comma ns ->
  Forall2 (fun n p => p = n \/ (visible n /\ padded n p)) ns ps ->
  as_type (join [44] ps) = as_type (join [44] ns).
Proof.
  intros ns ps Hc H. unfold as_type. destruct ns as [|n0 ns].
  - inversion H; subst. reflexivity.
  - assert (Hp : Forall no_comma ps).
    { clear - Hc H. induction H as [|n p ns' ps' E H IH]; [constructor|]. inversion Hc; subst. constructor; [|auto].
      destruct E as [->|[_ E]]; [assumption|eapply padded_no_comma; eassumption]. }
    change 44 with COMMA_CH. rewrite !comma_pieces_join; try assumption; try discriminate;
      [|inversion H; discriminate].
    clear Hp Hc. revert H. generalize (n0 :: ns). clear n0 ns. intros ns H. generalize (@nil intype) as s.
    induction H as [|n p ns' ps' E H IH]; intros s; [reflexivity|]. simpl.
    replace (add_type_word s p) with (add_type_word s n); [apply IH|].
    unfold add_type_word. destruct E as [->|[V E]]; [reflexivity|]. rewrite (trimboth_padded n p V E). reflexivity.
Qed.

(** ** Tab separated records *)
Lemma span_to_app : forall d a r, ~ In d a -> span_to d (a ++ d :: r) = (a, Some r).
Proof.
  induction a as [|c a IH]; intros r H; simpl.
  - rewrite N.eqb_refl. reflexivity.
  - destruct (N.eqb_spec c d) as [E|E]; [exfalso; apply H; left; exact E|].
    rewrite IH; [reflexivity|]. intros Hin. apply H. right; exact Hin.
Qed.
Lemma span_to_none : forall d a, ~ In d a -> span_to d a = (a, None).
Proof.
  induction a as [|c a IH]; intros H; simpl; [reflexivity|].
  destruct (N.eqb_spec c d) as [E|E]; [exfalso; apply H; left; exact E|].
  rewrite IH; [reflexivity|]. intros Hin. apply H. right; exact Hin.
Qed.
Lemma getline_field : forall d a r old, ~ In d a ->
  getline d (open_stream (a ++ d :: r)) old = (open_stream r, a).
Proof. intros d a r old H. unfold getline. simpl. rewrite span_to_app by exact H. reflexivity. Qed.
Lemma getline_last : forall d a old, ~ In d a -> exists s, getline d (open_stream a) old = (s, a) /\ s_eof s = true.
Proof.
  intros d a old H. unfold getline. simpl. rewrite span_to_none by exact H. eexists. split; reflexivity.
Qed.
Lemma join_no_tab : forall l, Forall no_tab l -> no_tab (join [COMMA_CH] l).
Proof.
  induction l as [|a l IH]; intros H; [intros []|]. inversion H; subst. destruct l as [|b l]; [assumption|].
  change (join [COMMA_CH] (a :: b :: l)) with (a ++ COMMA_CH :: join [COMMA_CH] (b :: l)).
  intros Hin. apply in_app_or in Hin. destruct Hin as [Hin|[Hin|Hin]]; [exact (H2 Hin)|discriminate|].
  exact (IH H3 Hin).
Qed.
Lemma iset_str_no_tab : forall s, no_tab (iset_str s).
Proof.
  intros s. apply join_no_tab. apply Forall_forall. intros x Hx. apply in_map_iff in Hx.
  destruct Hx as (d & <- & _). apply in_str_plain.
Qed.
Lemma aset_str_no_tab : forall s, no_tab (aset_str s).
Proof.
  intros s. apply join_no_tab. apply Forall_forall. intros x Hx. apply in_map_iff in Hx.
  destruct Hx as (d & <- & _). apply att_str_plain.
Qed.
Lemma token_round : forall k, no_tab (t_text k) -> no_tab (t_std k) -> is_inset (t_in k) -> is_attset (t_att k) ->
  token_of_text (token_str k) = mkToken (t_text k) (t_std k) (t_in k) (t_out k) (t_att k) false.
Proof.
  intros k H1 H2 H3 H4.
  change (token_str k) with (s2t "TOKEN:" ++ TAB :: t_text k ++ TAB :: t_std k ++ TAB :: iset_str (t_in k) ++ TAB
    :: out_str (t_out k) ++ TAB :: aset_str (t_att k) ++ TAB :: (if t_inlex k then s2t "1" else s2t "0")).
  unfold token_of_text.
  rewrite (getline_field TAB (s2t "TOKEN:")) by (vm_compute; intuition discriminate).
  rewrite teqb_refl.
  rewrite (getline_field TAB (t_text k)) by exact H1.
  rewrite (getline_field TAB (t_std k)) by exact H2.
  rewrite (getline_field TAB (iset_str (t_in k))) by apply iset_str_no_tab.
  rewrite (getline_field TAB (out_str (t_out k))) by apply out_str_no_tab.
  rewrite (getline_field TAB (aset_str (t_att k))) by apply aset_str_no_tab.
  rewrite iset_round, aset_round, out_name_ok by assumption. reflexivity.
Qed.

(** ** Statements used in Class_props *)
Lemma names_round :
  (forall c, as_one_type (in_str c) = c) /\ (forall c, out_as_type (out_str c) = c) /\
  (forall l, as_lang (s2t (lang_code l)) = l) /\ (forall l, as_lang (s2t (lang_name l)) = l) /\
  (forall c, in_of_code (in_code c) = c) /\ (forall c, out_of_code (out_code c) = c).
Proof.
  repeat split; auto using in_name_ok, out_name_ok, lang_code_ok, lang_name_ok, in_int_ok, out_int_ok.
Qed.
Lemma sets_round :
  (forall s, is_inset s -> as_type (iset_str s) = s) /\ (forall s, is_attset s -> as_attach (aset_str s) = s).
Proof. split; [exact iset_round|exact aset_round]. Qed.
Lemma other_strings : forall s,
  ((forall c, s <> in_str c) -> as_one_type s = I_BADTOKEN) /\
  ((forall c, s <> out_str c) -> out_as_type s = O_BADTOKEN) /\
  ((forall l, s <> s2t (lang_code l) /\ s <> s2t (lang_name l)) -> as_lang s = L_UNKNOWN).
Proof. intros s. split; [apply in_other|]. split; [apply out_other|apply lang_other]. Qed.
Lemma no_comma_b : forall t, existsb (N.eqb 44) t = false -> no_comma t.
Proof.
  intros t E Hin. rewrite <- not_true_iff_false in E. apply E. apply existsb_exists. exists 44.
  split; [exact Hin|reflexivity].
Qed.
Lemma no_tab_b : forall t, existsb (N.eqb 9) t = false -> no_tab t.
Proof.
  intros t E Hin. rewrite <- not_true_iff_false in E. apply E. apply existsb_exists. exists 9.
  split; [exact Hin|reflexivity].
Qed.
(** "WORD," against "WORD, ". *)
Lemma blank_piece : exists ns ps, Forall no_comma ns /\ Forall2 padded ns ps /\
  as_type (join [44] ps) <> as_type (join [44] ns).
Proof.
  exists [s2t "WORD"; []], [s2t "WORD"; [32]]. split; [repeat constructor; apply no_comma_b; reflexivity|].
  split; [|vm_compute; discriminate].
  constructor; [exists [], []; repeat split; constructor|]. constructor; [|constructor].
  exists [], [32]. repeat split; repeat constructor.
Qed.
Lemma blanks_example : Forall no_comma [s2t "WORD"; s2t "TYPE"] /\
  Forall2 (fun n p => p = n \/ (visible n /\ padded n p)) [s2t "WORD"; s2t "TYPE"] [s2t "WORD"; s2t "  TYPE "] /\
  as_type (s2t "WORD,  TYPE ") = [I_WORD; I_TYPE].
Proof.
  split; [repeat constructor; apply no_comma_b; reflexivity|]. split; [|reflexivity].
  constructor; [left; reflexivity|]. constructor; [right|constructor]. split.
  - exists 84. split; [left; reflexivity|discriminate].
  - exists [32; 32], [32]. repeat split; repeat constructor.
Qed.
Lemma token_round_fields : forall k,
  no_tab (t_text k) -> no_tab (t_std k) -> is_inset (t_in k) -> is_attset (t_att k) ->
  let k' := token_of_text (token_str k) in
  t_text k' = t_text k /\ t_std k' = t_std k /\ t_in k' = t_in k /\ t_out k' = t_out k /\ t_att k' = t_att k.
Proof. intros k H1 H2 H3 H4 k'. unfold k'. rewrite token_round by assumption. repeat split. Qed.
Lemma token_example : let k := mkToken (s2t "TOKEN:") (s2t "ST") [I_WORD; I_TYPE] O_STREET [DET_SUF] true in
  no_tab (t_text k) /\ no_tab (t_std k) /\ is_inset (t_in k) /\ is_attset (t_att k) /\
  t_text (token_of_text (token_str k)) = s2t "TOKEN:".
Proof.
  intros k. split; [apply no_tab_b; reflexivity|]. split; [apply no_tab_b; reflexivity|].
  split; [repeat constructor|]. split; [repeat constructor|vm_compute; reflexivity].
Qed.
