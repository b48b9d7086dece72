(** What a lexicon text gives. *)
From Coq Require Import String List NArith ZArith Bool Lia Arith Sorting.Sorted.
From Verif Require Import Base_model Class_model Class_spec Uni_model Token_model Lexicon_model Lexicon_spec LexText_spec LexFile_spec
  Class_proofs LexMap_proofs LexLoad_proofs Md5_model.
Import ListNotations.
Local Open Scope N_scope.

(** ** Columns *)
Lemma columns_fun : forall d t cs cs', columns d t cs -> columns d t cs' -> cs = cs'.
Proof.
  intros d t cs cs' H. revert cs'. induction H as [t N|a t cs N H IH]; intros cs' H'.
  - inversion H' as [|a t' cs2 N2 H2]; subst; [reflexivity|]. exfalso. apply N. apply in_app_iff. right. left. reflexivity.
  - inversion H' as [t' N'|a' t' cs2 N2 H2 E]; subst.
    + exfalso. apply N'. apply in_app_iff. right. left. reflexivity.
    + assert (Q : a = a' /\ t = t').
      { clear - N N2 E. revert a' N2 E. induction a as [|c a IH]; intros [|c' a'] N2 E; simpl in E.
        - injection E as ->. auto.
        - injection E as -> _. exfalso. apply N2. left. reflexivity.
        - injection E as -> _. exfalso. apply N. left. reflexivity.
        - injection E as -> E. destruct (IH ltac:(intros K; apply N; right; exact K) a' ltac:(intros K; apply N2; right; exact K) E) as (-> & ->). auto. }
      destruct Q as (-> & ->). f_equal. apply IH. exact H2.
Qed.
Lemma columns_some : forall d t, exists cs, columns d t cs.
Proof.
  intros d. induction t as [|c t (cs & IH)]; [exists [[]]; constructor; intros []|]. destruct (N.eq_dec c d) as [->|N].
  - exists ([] :: cs). change (d :: t) with ([] ++ d :: t). constructor; [intros []|exact IH].
  - inversion IH as [t' N'|a t' cs' N' H]; subst.
    + exists [c :: t]. constructor. intros [K|K]; [congruence|contradiction].
    + exists ((c :: a) :: cs'). change (c :: a ++ d :: t') with ((c :: a) ++ d :: t'). constructor; [intros [K|K]; [congruence|contradiction]|exact H].
Qed.
Lemma columns_ne : forall d t cs, columns d t cs -> cs <> [].
Proof. intros d t cs H. inversion H; discriminate. Qed.
Lemma pieces_columns : forall t, columns 44 t (comma_pieces t).
Proof.
  induction t as [|c t IH]; [constructor; intros []|]. cbn [comma_pieces]. change COMMA_CH with 44. destruct (N.eqb_spec c 44) as [->|N].
  - change (44 :: t) with ([] ++ 44 :: t). constructor; [intros []|exact IH].
  - inversion IH as [t' N' E|a t' cs' N' H E]; subst.
    + constructor. intros [K|K]; [congruence|contradiction].
    + change (c :: a ++ 44 :: t') with ((c :: a) ++ 44 :: t'). constructor; [intros [K|K]; [congruence|contradiction]|exact H].
Qed.

(** ** Blanks *)
Lemma squeeze_one : forall t, one_blank t (squeeze t).
Proof.
  assert (R : forall n t, hd_error t <> Some 32 -> squeeze (repeat 32 (S n) ++ t) = 32 :: squeeze t).
  { induction n as [|n IH]; intros t H.
    - cbn [repeat app squeeze]. destruct t as [|d t]; [reflexivity|]. destruct (N.eqb_spec d SP) as [->|Nd]; [exfalso; apply H; reflexivity|].
      rewrite andb_false_r. reflexivity.
    - change (repeat 32 (S (S n)) ++ t) with (32 :: repeat 32 (S n) ++ t). rewrite <- (IH t H). reflexivity. }
  assert (L : forall n t, (List.length t <= n)%nat -> one_blank t (squeeze t)).
  { induction n as [|n IH]; intros [|c t] Hn; try (constructor; fail); [simpl in Hn; lia|]. destruct (N.eq_dec c 32) as [->|Nc].
    - assert (Q : exists m r, t = repeat 32 m ++ r /\ hd_error r <> Some 32).
      { clear. induction t as [|d t (m & r & -> & H)]; [exists 0%nat, []; split; [reflexivity|discriminate]|].
        destruct (N.eq_dec d 32) as [->|Nd]; [exists (S m), r; auto|]. exists 0%nat, (d :: repeat 32 m ++ r). split; [reflexivity|]. simpl. congruence. }
      destruct Q as (m & r & -> & H). change (32 :: repeat 32 m ++ r) with (repeat 32 (S m) ++ r). rewrite R by exact H. constructor; [exact H|].
      apply IH. simpl in Hn. rewrite app_length, repeat_length in Hn. lia.
    - assert (Es : squeeze (c :: t) = c :: squeeze t).
      { cbn [squeeze]. destruct t as [|d t]; [reflexivity|]. destruct (N.eqb_spec c SP) as [E|_]; [contradiction|]. reflexivity. }
      rewrite Es. constructor; [exact Nc|]. apply IH. simpl in Hn. lia. }
  intros t. apply (L (List.length t)). lia.
Qed.
Lemma one_fun : forall t a b, one_blank t a -> one_blank t b -> a = b.
Proof.
  intros t a b H. revert b. induction H as [|c t t' Nc H IH|n t t' Hh H IH]; intros b H'.
  - inversion H'. reflexivity.
  - inversion H' as [|c2 t2 t2' N2 H2|n t2 t2' Hh H2 E]; subst; [f_equal; apply IH; exact H2|congruence].
  - remember (repeat 32 (S n) ++ t) as z eqn:Ez. destruct H' as [|c2 t2 t2' N2 H2|n2 t2 t2' Hh2 H2]; [discriminate|injection Ez as Ez _; congruence|]. rename Ez into E.
    f_equal. apply IH. assert (Q : t2 = t).
      { clear - E Hh Hh2. revert n2 E. induction n as [|n IH]; intros [|n2] E; simpl in E.
        - injection E as E. exact E.
        - injection E as E. subst t. exfalso. apply Hh. reflexivity.
        - injection E as E. subst t2. exfalso. apply Hh2. reflexivity.
        - apply (IH n2). injection E as E. simpl. f_equal. exact E. }
      rewrite <- Q. exact H2.
Qed.

(** ** Names in a column *)
Lemma trim_padded : forall p, trimboth p = p \/ padded (trimboth p) p.
Proof.
  intros p. unfold trimboth. assert (D : forall t, exists a, t = a ++ drop_sp t /\ Forall (fun c => c = 32) a).
  { induction t as [|c t (a & E & F)]; [exists []; split; [reflexivity|constructor]|]. cbn [drop_sp]. destruct (N.eqb_spec c SP) as [->|N].
    - exists (SP :: a). split; [simpl; f_equal; exact E|constructor; [reflexivity|exact F]].
    - exists []. split; [reflexivity|constructor]. }
  destruct (D p) as (a & E & F). destruct (drop_sp p) as [|c l] eqn:Q; [left; reflexivity|right]. destruct (D (rev (c :: l))) as (b & E2 & F2).
  exists a, (rev b). split; [|split; [exact F|apply Forall_rev; exact F2]]. rewrite E at 1. f_equal.
  rewrite <- rev_app_distr, <- E2, rev_involutive. reflexivity.
Qed.
(** A name has no blank at its ends. *)
Definition solid (n : text) : Prop := n <> [] /\ (forall t, drop_sp (n ++ t) = n ++ t) /\ (forall t, drop_sp (rev n ++ t) = rev n ++ t).
Lemma solid_trim : forall n p, solid n -> padded n p -> trimboth p = n.
Proof. intros n p (N & A & B) (a & b & -> & Ha & Hb). apply trimboth_core; assumption. Qed.
Lemma solid_b : forall n, match n, rev n with c :: _, d :: _ => negb (c =? 32) && negb (d =? 32) | _, _ => false end = true -> solid n.
Proof.
  intros [|c n] H; [discriminate|]. destruct (rev (c :: n)) as [|d m] eqn:E; [discriminate|]. apply andb_true_iff in H. destruct H as (H1 & H2).
  rewrite negb_true_iff in H1, H2. split; [discriminate|]. split; intros t; [|rewrite E]; cbn [app drop_sp]; change SP with 32; [rewrite H1|rewrite H2]; reflexivity.
Qed.
Lemma in_solid : forall c, solid (in_str c).
Proof. intros c. apply solid_b. destruct c; vm_compute; reflexivity. Qed.
Lemma att_solid : forall a, solid (att_str a).
Proof. intros a. apply solid_b. destruct a; vm_compute; reflexivity. Qed.
Lemma in_known : forall s, (exists c, s = in_str c) \/ forall c, s <> in_str c.
Proof.
  intros s. destruct (teqb s (in_str (as_one_type s))) eqn:E.
  - left. eexists. apply Search_proofs.teqb_eq. exact E.
  - right. intros c K. rewrite K, in_name_ok, Search_proofs.teqb_refl in E. discriminate.
Qed.
Lemma att_known : forall s, (exists a, s = att_str a) \/ forall a, s <> att_str a.
Proof.
  intros s. destruct (table_find att_table None s) as [a|] eqn:E.
  - destruct (teqb s (att_str a)) eqn:T; [left; eexists; apply Search_proofs.teqb_eq; exact T|].
    right. intros a' ->. rewrite att_name_ok in E. injection E as ->. rewrite Search_proofs.teqb_refl in T. discriminate.
  - right. intros a ->. rewrite att_name_ok in E. discriminate.
Qed.
Lemma type_named : forall t c, In c (as_type t) <-> named t c.
Proof.
  intros t c. rewrite as_type_in. unfold named. split.
  - intros (p & Hp & N & E). exists (comma_pieces t), p. split; [apply pieces_columns|]. split; [exact Hp|].
    destruct (in_known (trimboth p)) as [(c' & Ec)|Un].
    + left. rewrite Ec, in_name_ok in E. subst c'. rewrite <- Ec. destruct (trim_padded p) as [Q|Q]; [|exact Q]. rewrite Q. exists [], []. rewrite app_nil_r. repeat split; constructor.
    + right. rewrite (in_other _ Un) in E. split; [symmetry; exact E|]. split; [intros ->; apply N; reflexivity|].
      intros c' P. apply (Un c'). apply solid_trim; [apply in_solid|exact P].
  - intros (cs & p & C & Hp & H). rewrite (columns_fun _ _ _ _ C (pieces_columns t)) in Hp. exists p. split; [exact Hp|]. destruct H as [P|(-> & Np & Un)].
    + rewrite (solid_trim _ _ (in_solid c) P). split; [apply in_solid|apply in_name_ok].
    + split.
      * intros K. destruct (trim_padded p) as [Q|(a & b & Q & _)]; [congruence|]. rewrite K in Q. unfold trimboth in K. destruct (drop_sp p) as [|d l] eqn:D; [contradiction|].
        apply (f_equal (@rev N)) in K. rewrite rev_involutive in K. simpl in K.
        assert (V : visible (rev (d :: l))).
        { exists d. split; [apply -> in_rev; left; reflexivity|]. intros ->. clear - D. induction p as [|x p IH]; [discriminate|]. cbn [drop_sp] in D.
          destruct (N.eqb_spec x SP) as [|Nx]; [auto|]. injection D as -> _. apply Nx. reflexivity. }
        destruct (drop_sp_visible _ V) as (x & y & Dx & _). simpl in Dx. congruence.
      * apply in_other. intros c' K. apply (Un c'). rewrite <- K. destruct (trim_padded p) as [Q|Q]; [|exact Q]. rewrite Q. exists [], []. rewrite app_nil_r. repeat split; constructor.
Qed.

Lemma att_in : forall t a, In a (as_attach t) <-> exists p, In p (comma_pieces t) /\ trimboth p = att_str a.
Proof.
  intros t a. unfold as_attach.
  assert (G : forall ps s, In a (fold_left add_att_word ps s) <-> In a s \/ exists p, In p ps /\ trimboth p = att_str a).
  { induction ps as [|p ps IH]; intros s.
    - cbn [fold_left]. split; [auto|]. intros [H|(p & [] & _)]; exact H.
    - cbn [fold_left]. rewrite IH.
      assert (Q : In a (add_att_word s p) <-> In a s \/ trimboth p = att_str a).
      { unfold add_att_word. destruct (trimboth p) as [|x w] eqn:T.
        - split; [auto|]. intros [H|H]; [exact H|]. exfalso. apply (proj1 (att_solid a)). symmetry. exact H.
        - destruct (att_known (x :: w)) as [(a' & E)|U].
          + rewrite E, att_name_ok, aset_insert_in. split; [intros [->|H]; auto|]. intros [H|H]; [auto|]. left.
            assert (K := att_name_ok a). rewrite <- H, att_name_ok in K. congruence.
          + rewrite (att_other _ U). split; [auto|]. intros [H|H]; [exact H|]. exfalso. exact (U a H). }
      rewrite Q. split.
      + intros [[H|H]|(q & H & K)]; [auto|right; exists p; split; [left; reflexivity|exact H]|right; exists q; split; [right; exact H|exact K]].
      + intros [H|(q & [<-|H] & K)]; [auto|auto|right; exists q; auto]. }
  rewrite G. simpl. split; [intros [[]|H]; exact H|auto].
Qed.
Lemma attach_named : forall t a, In a (as_attach t) <-> att_named t a.
Proof.
  intros t a. rewrite att_in. unfold att_named. split.
  - intros (p & Hp & E). exists (comma_pieces t), p. split; [apply pieces_columns|]. split; [exact Hp|].
    rewrite <- E. destruct (trim_padded p) as [Q|Q]; [|exact Q]. rewrite Q. exists [], []. rewrite app_nil_r. repeat split; constructor.
  - intros (cs & p & C & Hp & P). rewrite (columns_fun _ _ _ _ C (pieces_columns t)) in Hp. exists p. split; [exact Hp|]. apply solid_trim; [apply att_solid|exact P].
Qed.

(** ** Reading columns one after the other *)
(** A stream on the columns [cs]; none left: the end was reached. *)
Definition stands (s : stream) (cs : list text) : Prop :=
  match cs with [] => s_eof s = true | _ => exists t, s = open_stream t /\ columns 9 t cs end.
Lemma read_col : forall s cs old, stands s cs -> exists s', getline TAB s old = (s', hd old cs) /\ stands s' (tl cs).
Proof.
  intros s [|c cs] old H.
  - simpl in H. exists (mkStream (s_rest s) (s_eof s) true). unfold getline. rewrite H. split; [reflexivity|]. reflexivity.
  - destruct H as (t & -> & C). inversion C as [t' N'|a t' cs' N' C']; subst.
    + destruct (getline_last 9 c old N') as (s & E & F). exists s. split; [exact E|]. exact F.
    + exists (open_stream t'). split; [apply (getline_field 9); exact N'|]. cbn [tl]. destruct cs as [|d cs]; [inversion C'|]. exists t'. auto.
Qed.
Lemma stands_open : forall t cs, columns 9 t cs -> stands (open_stream t) cs.
Proof. intros t cs C. destruct cs as [|c cs]; [inversion C|]. exists t. auto. Qed.
Lemma hd_nth : forall (l : list text) d, hd d l = nth 0 l d.
Proof. intros [|a l] d; reflexivity. Qed.
Lemma nth_tl : forall (l : list text) n d, nth n (tl l) d = nth (S n) l d.
Proof. intros [|a l] n d; [destruct n; reflexivity|reflexivity]. Qed.
Lemma line_entry : forall t, entry_of t (lexentry_of_line t).
Proof.
  intros t. destruct (columns_some 9 t) as (cs & C). unfold lexentry_of_line.
  destruct (read_col _ _ [] (stands_open t cs C)) as (s1 & -> & S1).
  assert (T : forall s2 cs' w, stands s2 (tl cs') -> w = nth 0 cs' [] -> cs' <> [] ->
    (let (s3, std) := getline TAB s2 [] in let (s4, ty) := getline TAB s3 [] in let (_, att) := getline TAB s4 [] in mkLE w std (as_type ty) (as_attach att)) =
    mkLE (nth 0 cs' []) (nth 1 cs' []) (as_type (nth 2 cs' [])) (as_attach (nth 3 cs' []))).
  { intros s2 cs' w S2 -> N. destruct (read_col _ _ [] S2) as (s3 & -> & S3). destruct (read_col _ _ [] S3) as (s4 & -> & S4).
    destruct (read_col _ _ [] S4) as (s5 & -> & _). rewrite !hd_nth, !nth_tl. reflexivity. }
  assert (F : forall cs', le_word (mkLE (nth 0 cs' []) (nth 1 cs' []) (as_type (nth 2 cs' [])) (as_attach (nth 3 cs' []))) = nth 0 cs' [] /\
    le_std (mkLE (nth 0 cs' []) (nth 1 cs' []) (as_type (nth 2 cs' [])) (as_attach (nth 3 cs' []))) = nth 1 cs' [] /\
    (forall c, In c (as_type (nth 2 cs' [])) <-> named (nth 2 cs' []) c) /\ is_inset (as_type (nth 2 cs' [])) /\
    (forall a, In a (as_attach (nth 3 cs' [])) <-> att_named (nth 3 cs' []) a) /\ is_attset (as_attach (nth 3 cs' []))).
  { intros cs'. split; [reflexivity|]. split; [reflexivity|]. split; [intros c; apply type_named|]. split; [apply as_type_set|].
    split; [intros a; apply attach_named|apply as_attach_set]. }
  destruct cs as [|c cs]; [inversion C|]. cbn [hd]. cbn [tl] in S1. destruct (teqb c (s2t "LEXENTRY:")) eqn:Q.
  - apply Search_proofs.teqb_eq in Q. subst c. destruct cs as [|c2 cs].
    + destruct (read_col _ _ (s2t "LEXENTRY:") S1) as (s2 & E2 & S2). cbn [hd] in E2. rewrite E2.
      assert (K := T s2 [s2t "LEXENTRY:"] (s2t "LEXENTRY:") S2 eq_refl ltac:(discriminate)). eapply eq_ind; [|symmetry; exact K].
      exists [s2t "LEXENTRY:"], [s2t "LEXENTRY:"]. split; [exact C|]. split; [right; split; [reflexivity|intros _; reflexivity]|]. apply F.
    + destruct (read_col _ _ (s2t "LEXENTRY:") S1) as (s2 & E2 & S2). rewrite E2. cbn [tl hd] in *.
      assert (K := T s2 (c2 :: cs) c2 S2 eq_refl ltac:(discriminate)). eapply eq_ind; [|symmetry; exact K].
      exists (s2t "LEXENTRY:" :: c2 :: cs), (c2 :: cs). split; [exact C|]. split; [left; split; [reflexivity|discriminate]|]. apply F.
  - assert (Kt := T s1 (c :: cs) c S1 eq_refl ltac:(discriminate)). eapply eq_ind; [|symmetry; exact Kt].
    exists (c :: cs), (c :: cs). split; [exact C|]. split; [right; split; [reflexivity|]|apply F]. cbn [hd]. intros K. rewrite K, Search_proofs.teqb_refl in Q. discriminate.
Qed.

(** ** The entry of a line is determined *)
Lemma sorted_same : forall A (f : A -> Z) (a b : list A), StronglySorted (fun x y => (f x < f y)%Z) a -> StronglySorted (fun x y => (f x < f y)%Z) b ->
  (forall x, In x a <-> In x b) -> a = b.
Proof.
  intros A f a b Sa. revert b. induction Sa as [|x a Sa IH Fa]; intros b Sb H.
  - destruct b as [|y b]; [reflexivity|]. exfalso. apply (H y). left. reflexivity.
  - destruct Sb as [|y b Sb Fb]; [exfalso; apply (H x); left; reflexivity|]. rewrite Forall_forall in Fa, Fb.
    assert (E : x = y).
    { destruct (proj1 (H x) (or_introl eq_refl)) as [E|Hx]; [auto|]. destruct (proj2 (H y) (or_introl eq_refl)) as [E|Hy]; [auto|].
      apply Fb in Hx. apply Fa in Hy. lia. }
    subst y. f_equal. apply IH; [exact Sb|]. intros z. split; intros K.
    + destruct (proj1 (H z) (or_intror K)) as [->|Q]; [|exact Q]. apply Fa in K. lia.
    + destruct (proj2 (H z) (or_intror K)) as [->|Q]; [|exact Q]. apply Fb in K. lia.
Qed.
Lemma entry_fun : forall t a b, entry_of t a -> entry_of t b -> a = b.
Proof.
  intros t a b (cs & cs1 & C & S1 & W1 & D1 & T1 & I1 & A1 & J1) (cs' & cs2 & C' & S2 & W2 & D2 & T2 & I2 & A2 & J2).
  assert (cs = cs') by (eapply columns_fun; eassumption). subst cs'.
  assert (E : cs1 = cs2).
  { destruct S1 as [(E1 & N1)|(E1 & N1)], S2 as [(E2 & N2)|(E2 & N2)]; subst; try congruence.
    - exfalso. apply N1. apply (N2 eq_refl).
    - exfalso. apply N2. apply (N1 eq_refl). }
  subst cs2. destruct a as [aw asd aty aat], b as [bw bsd bty bat]. cbn [le_word le_std le_type le_att] in *.
  assert (aty = bty) by (apply (sorted_same _ in_code); [exact I1|exact I2|]; intros c; rewrite T1, T2; reflexivity).
  assert (aat = bat) by (apply (sorted_same _ att_code); [exact J1|exact J2|]; intros c; rewrite A1, A2; reflexivity).
  congruence.
Qed.
Lemma body_line_iff : forall e loc l le, body_line e loc l le <->
  entry_mark (squeeze l) /\ le = lexentry_of_line (norm e loc (squeeze l)) /\ ~ In I_BADTOKEN (le_type le).
Proof.
  intros e loc l le. split.
  - intros (t & B & M & E & N). assert (t = squeeze l) by (eapply one_fun; [exact B|apply squeeze_one]). subst t.
    split; [exact M|]. split; [|exact N]. eapply entry_fun; [exact E|apply line_entry].
  - intros (M & -> & N). exists (squeeze l). split; [apply squeeze_one|]. split; [exact M|]. split; [apply line_entry|exact N].
Qed.
Lemma body_line_fun : forall e loc l a b, body_line e loc l a -> body_line e loc l b -> a = b.
Proof. intros e loc l a b H K. apply body_line_iff in H. apply body_line_iff in K. destruct H as (_ & -> & _), K as (_ & -> & _). reflexivity. Qed.
Lemma body_line_ne : forall e loc le, ~ body_line e loc [] le.
Proof. intros e loc le H. apply body_line_iff in H. destruct H as (M & _). exact (mark_ne _ M eq_refl). Qed.

(** ** The body *)
Inductive lines_of (e : env) (loc : text) : list text -> list lexentry -> Prop :=
| lo_nil : lines_of e loc [] []
| lo_skip : forall ls les, lines_of e loc ls les -> lines_of e loc ([] :: ls) les
| lo_entry : forall l le ls les, body_line e loc l le -> lines_of e loc ls les -> lines_of e loc (l :: ls) (le :: les).
Lemma body_lines : forall e ls cnt x y, body e cnt ls x = Ok y -> exists les, lines_of e (x_locale x) ls les /\ y = run x (map Ins les).
Proof.
  intros e. induction ls as [|l ls IH]; intros cnt x y H; cbn [body] in H; [injection H as <-; exists []; split; [constructor|reflexivity]|].
  destruct (entry_line e (x_locale x) (cnt + 1) l) as [q|m|] eqn:E; cbn [obind] in H; try discriminate.
  apply IH in H. destruct H as (les & L & ->). rewrite ins_locale in L. apply entry_ok in E. destruct E as [(-> & ->)|(M & N & ->)].
  - exists les. split; [constructor; exact L|reflexivity].
  - eexists. split; [apply lo_entry; [apply body_line_iff; split; [exact M|split; [reflexivity|exact N]]|exact L]|reflexivity].
Qed.
Lemma lines_body : forall e ls les cnt x, lines_of e (x_locale x) ls les -> body e cnt ls x = Ok (run x (map Ins les)).
Proof.
  intros e ls les cnt x H. remember (x_locale x) as loc eqn:El. revert cnt x El. induction H as [|ls les H IH|l le ls les B H IH]; intros cnt x El; [reflexivity| |].
  - cbn [body]. unfold entry_line. cbn [squeeze obind fst ins1]. apply IH. exact El.
  - cbn [body]. apply body_line_iff in B. destruct B as (M & -> & N). pose proof (entry_intro e loc (cnt + 1) l M N) as Q. cbv zeta in Q.
    rewrite <- El, Q. cbn [obind fst ins1 map run fold_left step]. apply IH. rewrite El. symmetry. exact (ins_locale (Some _) x).
Qed.
Lemma lines_iff : forall e loc ls, (exists les, lines_of e loc ls les) <-> Forall (fun l => l = [] \/ exists le, body_line e loc l le) ls.
Proof.
  intros e loc ls. split.
  - intros (les & H). induction H; constructor; eauto.
  - intros F. induction F as [|l ls [->|(le & H)] F (les & IH)]; [exists []; constructor|exists les; constructor; exact IH|exists (le :: les); constructor; assumption].
Qed.
Lemma lines_in : forall e loc ls les le, lines_of e loc ls les -> (In le les <-> exists l, In l ls /\ body_line e loc l le).
Proof.
  intros e loc ls les le H. induction H as [|ls les H IH|l le' ls les B H IH].
  - split; [intros []|intros (l & [] & _)].
  - rewrite IH. split; intros (l & Hl & K); [exists l; split; [right; exact Hl|exact K]|]. destruct Hl as [<-|Hl]; [exfalso; exact (body_line_ne _ _ _ K)|exists l; auto].
  - simpl. rewrite IH. split.
    + intros [->|(l' & Hl & K)]; [exists l; auto|exists l'; auto].
    + intros (l' & [<-|Hl] & K); [left; eapply body_line_fun; eassumption|right; exists l'; auto].
Qed.
(** The entries before an entry come from the lines before its line. *)
Lemma lines_split : forall e loc ls les a le b, lines_of e loc ls les -> les = a ++ le :: b ->
  exists l1 l l2, ls = l1 ++ l :: l2 /\ body_line e loc l le /\ lines_of e loc l1 a.
Proof.
  intros e loc ls les a le b H. revert a le b. induction H as [|ls les H IH|l le' ls les B H IH]; intros a le b E.
  - destruct a; discriminate.
  - destruct (IH a le b E) as (l1 & l & l2 & -> & Q & R). exists ([] :: l1), l, l2. split; [reflexivity|]. split; [exact Q|constructor; exact R].
  - destruct a as [|x a].
    + injection E as -> E. exists [], l, ls. split; [reflexivity|]. split; [exact B|constructor].
    + injection E as -> E. destruct (IH a le b E) as (l1 & l' & l2 & -> & Q & R). exists (l :: l1), l', l2. split; [reflexivity|]. split; [exact Q|constructor; assumption].
Qed.

(** ** The whole text *)
Lemma header_found : forall pre h es line ls acc cnt, line :: ls = pre ++ h :: es -> Forall (fun l => ~ is_header l) pre -> is_header h ->
  (Forall (fun l => ~ is_entry l) pre /\ exists a c, find_header line acc cnt ls = Found es h a c /\ a ++ concat es = acc ++ concat ls) \/
  (~ Forall (fun l => ~ is_entry l) pre /\ find_header line acc cnt ls = Order).
Proof.
  induction pre as [|p pre IH]; intros h es line ls acc cnt E F H.
  - injection E as -> ->. left. split; [constructor|]. exists acc, cnt. apply (proj2 (has_prefix_iff _ _)) in H. destruct es as [|l es]; cbn [find_header]; rewrite H; auto.
  - injection E as -> ->. inversion F as [|? ? Np F']; subst. assert (Hp : has_prefix (s2t "LEXICON:") p = false).
    { destruct (has_prefix (s2t "LEXICON:") p) eqn:Q; [exfalso; apply Np; apply has_prefix_iff; exact Q|reflexivity]. }
    destruct (has_prefix (s2t "LEXENTRY:") p) eqn:Q.
    + right. split.
      * intros K. apply Forall_inv in K. apply K. apply has_prefix_iff. exact Q.
      * destruct (pre ++ h :: es) as [|l ls]; cbn [find_header]; rewrite Hp, Q; reflexivity.
    + assert (Ne : ~ is_entry p) by (intros K; apply has_prefix_iff in K; congruence).
      destruct (pre ++ h :: es) as [|l ls] eqn:El; [destruct pre; discriminate|]. cbn [find_header]. rewrite Hp, Q.
      destruct (IH h es l ls (acc ++ l) (cnt + 1) (eq_sym El) F' H) as [(A & a & c & B & D)|(A & B)].
      * left. split; [constructor; assumption|]. exists a, c. split; [exact B|]. rewrite D. cbn [concat]. rewrite app_assoc. reflexivity.
      * right. split; [|exact B]. intros K. apply A. inversion K; assumption.
Qed.
Lemma strip_plain : forall l, (forall t, l <> 0xFEFF :: t) -> lex_strip_bom l = Ok l.
Proof.
  intros [|c l] H; [reflexivity|]. cbn [lex_strip_bom]. change Grammar_model.BOM with 0xFEFF. destruct (N.eqb_spec c 0xFEFF) as [->|N]; [exfalso; exact (H l eq_refl)|reflexivity].
Qed.
Lemma header_read : forall h, exists cs, columns 9 h cs /\ header_fields h = (nth 0 cs [], nth 2 cs (last cs []), nth 3 cs []).
Proof.
  intros h. destruct (columns_some 9 h) as (cs & C). exists cs. split; [exact C|]. unfold header_fields.
  destruct (read_col _ _ [] (stands_open h cs C)) as (s1 & -> & S1). 
  match goal with |- context [getline TAB s1 ?o] => destruct (read_col _ _ o S1) as (s2 & -> & S2) end.
  match goal with |- context [getline TAB s2 ?o] => destruct (read_col _ _ o S2) as (s3 & -> & S3) end. destruct (read_col _ _ [] S3) as (s4 & -> & _).
  destruct cs as [|a [|b [|c [|d cs]]]]; [inversion C|reflexivity|reflexivity|reflexivity|reflexivity].
Qed.
Lemma mark_lower : forall h, is_header h -> forall cs, columns 9 h cs -> nth 0 cs [] <> s2t "Lexicon:".
Proof.
  intros h (r & ->) cs C K. inversion C as [t N E|a t cs' N C' E]; subst; cbn [nth] in K.
  - discriminate.
  - subst a. cbn [app s2t] in E. discriminate.
Qed.
Lemma load_start : forall e name pre h es, Forall one_line (pre ++ h :: es) -> Forall (fun l => ~ is_header l) pre -> is_header h ->
  (forall l p, pre = l :: p -> forall t, l <> 0xFEFF :: t) ->
  let r := load_lexicon e name (file (pre ++ h :: es) []) in
  (Forall (fun l => ~ is_entry l) pre /\ exists a c, a ++ concat es = concat (pre ++ h :: es) /\ r = start_body e name h a c (read_body e (c + 1) es [])) \/
  (~ Forall (fun l => ~ is_entry l) pre /\ exists m, r = Throw m).
Proof.
  intros e name pre h es O F H B r. destruct (pre ++ h :: es) as [|l ls] eqn:E; [destruct pre; discriminate|]. inversion O as [|? ? O1 O2]; subst.
  unfold r. rewrite load_file by (auto; intros []).
  assert (Bl : forall t, l <> 0xFEFF :: t).
  { destruct pre as [|p pre]; [|injection E as -> _; apply (B l pre eq_refl)]. injection E as -> _. intros t ->. destruct H as (q & H). discriminate. }
  rewrite (strip_plain l Bl). cbn [obind]. destruct (header_found pre h es l ls l 1 (eq_sym E) F H) as [(A & a & c & -> & D)|(A & ->)].
  - left. split; [exact A|]. exists a, c. split; [exact D|reflexivity].
  - right. split; [exact A|]. eexists. reflexivity.
Qed.
Lemma read_body_end : forall e c es x, read_body e c es [] x = obind (body e c es x) (fun x1 => Ok (concat es ++ [], x1)).
Proof. intros e c es x. unfold read_body. destruct (body e c es x); reflexivity. Qed.
Lemma load_iff : forall e name pre h es, Forall one_line (pre ++ h :: es) -> Forall (fun l => ~ is_header l) pre -> is_header h ->
  (forall l p, pre = l :: p -> forall t, l <> 0xFEFF :: t) ->
  ((exists y, load_lexicon e name (file (pre ++ h :: es) []) = Ok y) <-> accepts e pre h es).
Proof.
  intros e name pre h es O F H B. destruct (load_start e name pre h es O F H B) as [(A & a & c & D & ->)|(A & m & ->)].
  - unfold accepts, start_body. destruct (header_read h) as (cs & C & ->). split.
    + intros (y & Hy). split; [exact A|].
      destruct (teqb (nth 0 cs []) (s2t "LEXICON:") || teqb (nth 0 cs []) (s2t "Lexicon:")) eqn:T; [|discriminate].
      rewrite read_body_end in Hy. destruct (body _ _ _ _) as [x1|m|] eqn:Eb; cbn [obind] in Hy; try discriminate.
      apply body_lines in Eb. destruct Eb as (les & L & _). cbn [x_locale] in L.
      exists (as_lang (nth 2 cs (last cs []))), (nth 3 cs []). split; [|apply lines_iff; exists les; exact L].
      exists cs. split; [exact C|]. split; [|split; reflexivity]. rewrite hd_nth. apply orb_true_iff in T. destruct T as [T|T]; apply Search_proofs.teqb_eq in T; [exact T|].
      exfalso. exact (mark_lower h H cs C T).
    + intros (_ & lg & loc & (cs' & C' & Hh & -> & ->) & L). assert (cs' = cs) by (eapply columns_fun; eassumption). subst cs'.
      rewrite hd_nth in Hh. rewrite Hh. change (teqb (s2t "LEXICON:") (s2t "LEXICON:")) with true. cbn [orb]. rewrite read_body_end.
      apply lines_iff in L. destruct L as (les & L). rewrite (lines_body e es les (c + 1)); [|exact L]. cbn [obind]. eexists. reflexivity.
  - split; [intros (y & K); discriminate|]. intros (K & _). contradiction.
Qed.
Lemma run_ins_meta : forall les x, x_name (run x (map Ins les)) = x_name x /\ x_lang (run x (map Ins les)) = x_lang x /\ x_locale (run x (map Ins les)) = x_locale x.
Proof.
  induction les as [|le les IH]; intros x; [auto|]. cbn [map run fold_left step]. destruct (IH (lex_insert x le)) as (A & B & C).
  destruct (ins_meta (Some le) x) as (D1 & D2). pose proof (ins_locale (Some le) x) as D3. unfold run in *. cbn [ins1] in *. rewrite A, B, C. auto.
Qed.
Lemma present_ins : forall les le, present (map Ins les) le <-> In le les.
Proof.
  intros les le. split.
  - intros (h1 & h2 & E & _). apply (f_equal (@In lexop (Ins le))) in E.
    assert (K : In (Ins le) (map Ins les)) by (rewrite E; apply in_app_iff; right; left; reflexivity). apply in_map_iff in K. destruct K as (x & Q & K). injection Q as ->. exact K.
  - intros H. apply in_split in H. destruct H as (a & b & ->). exists (map Ins a), (map Ins b). rewrite map_app. split; [reflexivity|].
    intros K. apply in_map_iff in K. destruct K as (x & Q & _). discriminate.
Qed.
Lemma load_entries : forall e name pre h es y, Forall one_line (pre ++ h :: es) -> Forall (fun l => ~ is_header l) pre -> is_header h ->
  (forall l p, pre = l :: p -> forall t, l <> 0xFEFF :: t) -> load_lexicon e name (file (pre ++ h :: es) []) = Ok y ->
  x_name y = name /\ header_of h (x_lang y) (x_locale y) /\ x_md5 y = md5_hex (bytes_of (concat (pre ++ h :: es))) /\
  (forall w le, In le (lex_find y w) <-> le_word le = w /\ exists l, In l es /\ body_line e (x_locale y) l le) /\
  (forall w, NoDup (lex_find y w)) /\
  (forall w a b, before (lex_find y w) a b -> exists l1 l l2, es = l1 ++ l :: l2 /\ body_line e (x_locale y) l a /\
     forall l', In l' (l1 ++ [l]) -> ~ body_line e (x_locale y) l' b).
Proof.
  intros e name pre h es y O F H B Hy. destruct (load_start e name pre h es O F H B) as [(A & a & c & D & E)|(A & m & E)]; rewrite Hy in E; [|discriminate].
  symmetry in E. unfold start_body in E. destruct (header_read h) as (cs & C & Eh). rewrite Eh in E.
  destruct (teqb (nth 0 cs []) (s2t "LEXICON:") || teqb (nth 0 cs []) (s2t "Lexicon:")) eqn:T; [|discriminate].
  assert (T1 : hd [] cs = s2t "LEXICON:").
  { rewrite hd_nth. apply orb_true_iff in T. destruct T as [T|T]; apply Search_proofs.teqb_eq in T; [exact T|]. exfalso. exact (mark_lower h H cs C T). }
  rewrite read_body_end in E. destruct (body _ _ _ _) as [x1|m|] eqn:Eb; cbn [obind] in E; try discriminate.
  apply body_lines in Eb. destruct Eb as (les & L & ->). cbn [x_locale] in L. injection E as <-.
  set (x0 := mkLex name (as_lang (nth 2 cs (last cs []))) (nth 3 cs []) [] [] [] [] []) in *.
  destruct (run_ins_meta les x0) as (M1 & M2 & M3). cbn [x_name x_lang x_locale x_md5 fst snd].
  assert (Fi : forall a1 a2 a3 a4 a5 a6 a7 w, lex_find (mkLex a1 a2 a3 (x_lex (run x0 (map Ins les))) a4 a5 a6 a7) w = lex_find (run (new_lexicon []) (map Ins les)) w).
  { intros. unfold lex_find. cbn [x_lex]. rewrite (run_ins_same les x0 (new_lexicon []) eq_refl). reflexivity. }
  rewrite M3. replace (x_locale x0) with (nth 3 cs []) by reflexivity.
  split; [exact M1|]. split; [exists cs; rewrite M2; auto|]. split; [rewrite app_nil_r, D; reflexivity|].
  split; [|split].
  - intros w le. rewrite Fi. rewrite (proj1 (history _ _ _)). rewrite present_ins, (lines_in _ _ _ _ le L). reflexivity.
  - intros w. rewrite Fi. apply history.
  - intros w p q Hb. rewrite Fi in Hb. apply history in Hb. destruct Hb as (ha & hb & (h2 & E2 & _ & _) & (h3 & E3 & _ & N3) & Hl).
    assert (Sp : exists l1 l2, les = l1 ++ p :: l2 /\ ha = map Ins l1).
    { clear - E2. revert ha E2. induction les as [|z les IH]; intros ha E2; [destruct ha; discriminate|]. destruct ha as [|o ha].
      - injection E2 as -> _. exists [], les. auto.
      - injection E2 as <- E2. destruct (IH ha E2) as (l1 & l2 & -> & ->). exists (z :: l1), l2. auto. }
    destruct Sp as (l1 & l2 & El & ->). destruct (lines_split _ _ _ _ _ _ _ L El) as (m1 & l & m2 & -> & Bl & Lm). exists m1, l, m2.
    split; [reflexivity|]. split; [exact Bl|]. intros l' Hl' K.
    assert (Q : In q (l1 ++ [p])).
    { apply in_app_iff in Hl'. apply in_app_iff. destruct Hl' as [Hl'|[<-|[]]].
      - left. apply (lines_in _ _ _ _ q Lm). exists l'. auto.
      - right. left. eapply body_line_fun; eassumption. }
    apply N3. rewrite El, map_app in E3. cbn [map] in E3. assert (Lh : (List.length (map Ins (l1 ++ [p])) <= List.length hb)%nat).
    { rewrite map_length in *. rewrite app_length. simpl. lia. }
    assert (Pre : exists rest, hb = map Ins (l1 ++ [p]) ++ rest).
    { rewrite map_app. cbn [map]. exists (skipn (List.length (map Ins (l1 ++ [p]))) hb). rewrite <- (firstn_skipn (List.length (map Ins (l1 ++ [p]))) hb) at 1. f_equal.
      assert (Z := f_equal (firstn (List.length (map Ins (l1 ++ [p])))) E3).
      rewrite (firstn_app _ hb) in Z. replace (List.length (map Ins (l1 ++ [p])) - List.length hb)%nat with 0%nat in Z by lia.
      rewrite firstn_O, app_nil_r in Z. rewrite <- Z. rewrite map_app. cbn [map].
      change (map Ins l1 ++ Ins p :: map Ins l2) with (map Ins l1 ++ ([Ins p] ++ map Ins l2)). rewrite app_assoc, firstn_app, Nat.sub_diag, firstn_all, firstn_O, app_nil_r. reflexivity. }
    destruct Pre as (rest & Er). assert (Pa : exists hb', hb = map Ins hb').
    { clear - E3. assert (G : forall (a : list lexop) b L, map Ins L = a ++ b -> exists a', a = map Ins a').
      { induction a as [|o a IH]; intros b L E; [exists []; reflexivity|]. destruct L as [|z L]; [discriminate|]. injection E as <- E. destruct (IH b L E) as (a' & ->). exists (z :: a'). reflexivity. }
      apply (G hb (Ins q :: h3) (l1 ++ p :: l2)). rewrite map_app. exact E3. }
    destruct Pa as (hb' & ->). apply present_ins. apply (in_map Ins) in Q. assert (Z : In (Ins q) (map Ins hb')) by (rewrite Er; apply in_app_iff; left; exact Q).
    apply in_map_iff in Z. destruct Z as (z & Ez & Z). injection Ez as ->. exact Z.
Qed.
(** No entry of a loaded lexicon is of class BADTOKEN. *)
Lemma load_no_bad : forall e name pre h es y, Forall one_line (pre ++ h :: es) -> Forall (fun l => ~ is_header l) pre -> is_header h ->
  (forall l p, pre = l :: p -> forall t, l <> 0xFEFF :: t) -> load_lexicon e name (file (pre ++ h :: es) []) = Ok y ->
  forall w le, In le (lex_find y w) -> ~ In I_BADTOKEN (le_type le).
Proof.
  intros e name pre h es y O F H B Hy w le K. destruct (load_entries e name pre h es y O F H B Hy) as (_ & _ & _ & Q & _).
  apply Q in K. destruct K as (_ & l & _ & t & _ & _ & _ & N). exact N.
Qed.
Lemma header_missing : forall ls line acc cnt, Forall (fun l => ~ is_header l) (line :: ls) ->
  find_header line acc cnt ls = Order \/ exists l a c, find_header line acc cnt ls = AtEnd l a c.
Proof.
  induction ls as [|l ls IH]; intros line acc cnt F; inversion F as [|? ? N F']; subst; cbn [find_header];
    (destruct (has_prefix (s2t "LEXICON:") line) eqn:Q; [exfalso; apply N; apply has_prefix_iff; exact Q|]);
    (destruct (has_prefix (s2t "LEXENTRY:") line); [left; reflexivity|]).
  - right. eauto.
  - apply IH. exact F'.
Qed.
Lemma load_headless : forall e name ls, Forall one_line ls -> Forall (fun l => ~ is_header l) ls ->
  (forall l p, ls = l :: p -> forall t, l <> 0xFEFF :: t) -> exists m, load_lexicon e name (file ls []) = Throw m.
Proof.
  intros e name [|l ls] O F B; [eexists; vm_compute; reflexivity|]. inversion O as [|? ? O1 O2]; subst.
  rewrite load_file by (auto; intros []). rewrite (strip_plain l (B l ls eq_refl)). cbn [obind].
  destruct (header_missing ls l l 1 F) as [->|(l' & a & c & ->)]; eexists; reflexivity.
Qed.
