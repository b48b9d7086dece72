(** Archives that end too early. *)
From Coq Require Import String List NArith ZArith Bool Lia.
From Verif Require Import Base_model Class_model Uni_model Grammar_model Md5_model Lexicon_model Archive_model Archive_spec Search_proofs Class_proofs Archive_proofs.
Import ListNotations.
Local Open Scope N_scope.

(** ** Readers at the end of the text *)
Definition at_end {A} (o : outcome (A * (text * list cls))) : Prop := o = Throw bad_archive \/ exists a l, o = Ok (a, ([], l)).
Definition ends {A} (r : reader A) : Prop := forall l, at_end (r ([], l)).
Definition wants {A} (r : reader A) : Prop := forall l, r ([], l) = Throw bad_archive.
(** A reader of what is written, cut short. *)
Definition short {A} (r : reader A) (w : writer) : Prop := forall l p q, fst (w l) = p ++ q -> q <> [] -> at_end (r (p, l)).

Lemma wants_ends : forall A (r : reader A), wants r -> ends r.
Proof. intros A r H l. left. apply H. Qed.
Lemma ends_ret : forall A (a : A), ends (rret a).
Proof. intros A a l. right. exists a, l. reflexivity. Qed.
Lemma ends_bind : forall A B (r : reader A) (f : A -> reader B), ends r -> (forall a, ends (f a)) -> ends (rbind r f).
Proof. intros A B r f R F l. unfold rbind. destruct (R l) as [->|(a & l' & ->)]; [left; reflexivity|]. apply F. Qed.
Lemma wants_bind : forall A B (r : reader A) (f : A -> reader B), wants r -> wants (rbind r f).
Proof. intros A B r f R l. unfold rbind. rewrite R. reflexivity. Qed.
Lemma wants_then : forall A B (r : reader A) (f : A -> reader B), ends r -> (forall a, wants (f a)) -> wants (rbind r f).
Proof. intros A B r f R F l. unfold rbind. destruct (R l) as [->|(a & l' & ->)]; [reflexivity|]. apply F. Qed.
Lemma wants_num : wants (get get_num).
Proof. intros l. reflexivity. Qed.
Lemma wants_size : wants (get get_size).
Proof. intros l. reflexivity. Qed.
Lemma wants_str : wants (get get_str).
Proof. intros l. reflexivity. Qed.
Lemma wants_enum : forall A (code : A -> Z) all, wants (get (get_enum code all)).
Proof. intros A code all l. reflexivity. Qed.
Lemma ends_class : forall c, ends (get_class c).
Proof. intros c l. unfold get_class. cbn [fst snd]. destruct (seen c l); [right; exists tt, l; reflexivity|left; reflexivity]. Qed.
Lemma wants_items : forall A (f : reader A), wants (get_items f).
Proof. intros A f. unfold get_items. apply wants_bind, wants_size. Qed.
Lemma ends_all : forall A (f : reader A) n, ends f -> ends (get_all f n).
Proof.
  intros A f n F. induction n as [|n IH]; cbn [get_all]; [apply ends_ret|]. apply ends_bind; [exact F|]. intros a. apply ends_bind; [exact IH|]. intros l. apply ends_ret.
Qed.
Lemma wants_entry : wants get_entry.
Proof. unfold get_entry. apply wants_then; [apply ends_class|]. intros _. apply wants_bind, wants_str. Qed.
Lemma wants_item : wants get_item.
Proof. unfold get_item. apply wants_then; [apply ends_class|]. intros _. apply wants_bind, wants_str. Qed.

(** ** Numbers and strings *)
Lemma digits_all : forall t n, Forall (fun c => is_digit c = true) t -> snd (read_digits n t) = [].
Proof. intros t n F. revert n. induction F as [|c t C F IH]; intros n; cbn [read_digits]; [reflexivity|]. rewrite C. apply IH. Qed.
Lemma unsigned_cut : forall t, Forall (fun c => is_digit c = true) t -> get_unsigned t = Throw bad_archive \/ exists n, get_unsigned t = Ok (n, []).
Proof.
  intros t F. destruct t as [|c t]; [left; reflexivity|]. right. pose proof (digits_all (c :: t) 0 F) as D. inversion F as [|? ? C T]; subst.
  unfold get_unsigned. rewrite C. destruct (read_digits 0 (c :: t)) as [n r]. cbn [snd] in D. subst r. exists n. reflexivity.
Qed.
Lemma digit_forms : forall c, is_digit c = true -> c_isspace c = false /\ (c =? 45) = false /\ (c =? 43) = false.
Proof.
  intros c D. unfold is_digit in D. apply andb_prop in D. destruct D as [A B]. apply N.leb_le in A. apply N.leb_le in B.
  split; [|split; apply N.eqb_neq; lia]. unfold c_isspace. repeat match goal with |- context [?x =? ?y] => destruct (N.eqb_spec x y); [lia|] end.
  repeat match goal with |- context [?x <=? ?y] => destruct (N.leb_spec x y) end; try reflexivity; lia.
Qed.
Lemma num_cut : forall z p q, put_num z = p ++ q -> get_num p = Throw bad_archive \/ exists y, get_num p = Ok (y, []).
Proof.
  intros z p q E. destruct p as [|c p]; [left; reflexivity|]. unfold put_num in E. injection E as <- E.
  unfold get_num. change (drop_space (SP :: p)) with (drop_space p).
  assert (D : Forall (fun c => is_digit c = true) p \/ exists p', p = 45 :: p' /\ Forall (fun c => is_digit c = true) p').
  { assert (G : forall n, dec_text n = p ++ q -> Forall (fun c => is_digit c = true) p).
    { intros n F. pose proof (proj1 (dec_text_ok n)) as O. rewrite F in O. apply Forall_app in O. apply O. }
    destruct z as [|n|n]; [left; apply (G _ E)|left; apply (G _ E)|]. destruct p as [|c p]; [left; constructor|]. injection E as <- E. right. exists p. split; [reflexivity|].
    pose proof (proj1 (dec_text_ok (N.pos n))) as O. rewrite E in O. apply Forall_app in O. apply O. }
  destruct D as [D|(p' & -> & D)].
  - destruct p as [|c p]; [left; reflexivity|]. inversion D as [|? ? C T]; subst. destruct (digit_forms c C) as (S1 & S2 & S3).
    assert (drop_space (c :: p) = c :: p) as -> by (unfold drop_space; cbn [drop_while]; rewrite S1; reflexivity). cbn iota beta. rewrite S2, S3.
    destruct (unsigned_cut (c :: p) D) as [->|(n & ->)]; cbn [obind fst snd]; [left; reflexivity|right; eexists; reflexivity].
  - change (drop_space (45 :: p')) with (45 :: p'). cbn iota beta. rewrite N.eqb_refl.
    destruct (unsigned_cut p' D) as [->|(n & ->)]; cbn [obind fst snd]; [left; reflexivity|right; eexists; reflexivity].
Qed.
Lemma size_cut : forall z p q, put_num z = p ++ q -> get_size p = Throw bad_archive \/ exists n, get_size p = Ok (n, []).
Proof.
  intros z p q E. unfold get_size. destruct (num_cut z p q E) as [->|(y & ->)]; cbn [obind fst snd]; [left; reflexivity|].
  destruct (y <? 0)%Z; [left; reflexivity|right; eexists; reflexivity].
Qed.
Lemma str_cut : forall s p q, put_str s = p ++ q -> q <> [] -> get_str p = Throw bad_archive \/ exists v, get_str p = Ok (v, []).
Proof.
  intros s p q E Q. unfold put_str in E. apply app_eq_app in E. destruct E as (c & [[E F]|[E F]]).
  - unfold get_str. destruct (size_cut _ _ _ E) as [->|(n & ->)]; cbn [obind fst snd]; [left; reflexivity|right; eexists; reflexivity].
  - destruct c as [|b c].
    + rewrite app_nil_r in E. unfold get_str. assert (E' : put_num (Z.of_nat (List.length s)) = p ++ []) by (rewrite E, app_nil_r; reflexivity).
      destruct (size_cut _ _ _ E') as [->|(n & ->)]; cbn [obind fst snd]; [left; reflexivity|right; eexists; reflexivity].
    + injection F as <- F. subst p. unfold get_str. rewrite get_put_size by reflexivity. cbn [obind fst snd]. right. eexists.
      f_equal. f_equal. apply skipn_all2. rewrite F, app_length. lia.
Qed.

(** ** Readers *)
Lemma spaced_cut : forall w l p q, spaced w -> fst (w l) = p ++ q -> brk p.
Proof.
  intros w l p q S0 E. destruct p as [|c p]; [exact I|]. destruct (S0 l) as [Z|(t & Z)]; rewrite Z in E; [discriminate E|]. injection E as <- _. reflexivity.
Qed.
Lemma short_bind : forall A B (r : reader A) (f : A -> reader B) wa wb a, reads r wa a -> spaced wb -> short r wa -> short (f a) wb -> (forall v, ends (f v)) ->
  short (rbind r f) (Archive_model.seq wa wb).
Proof.
  intros A B r f wa wb a R SP' SA SB D l p q E Q. rewrite seq_fst in E. apply app_eq_app in E. destruct E as (c & [[E F]|[E F]]).
  - destruct c as [|b c].
    + rewrite app_nil_r in E. cbn [app] in F. unfold rbind. rewrite <- E. pose proof (R l [] I) as K. rewrite app_nil_r in K. rewrite K. cbn [obind fst snd].
      apply (SB _ [] q); [symmetry; exact F|exact Q].
    + assert (NE : b :: c <> []) by discriminate. specialize (SA l p (b :: c) E NE). unfold rbind. destruct SA as [->|(v & l' & ->)]; [left; reflexivity|]. cbn [obind fst snd]. apply D.
  - subst p. unfold rbind. rewrite R by (apply (spaced_cut wb (snd (wa l)) c q SP' F)). cbn [obind fst snd]. apply (SB _ c q F Q).
Qed.
Lemma short_last : forall A B (r : reader A) (f : A -> reader B) wa, short r wa -> (forall v, ends (f v)) -> short (rbind r f) wa.
Proof.
  intros A B r f wa SA D l p q E Q. unfold rbind. destruct (SA l p q E Q) as [->|(v & l' & ->)]; [left; reflexivity|]. cbn [obind fst snd]. apply D.
Qed.
Lemma short_num : forall z, short (get get_num) (put (put_num z)).
Proof. intros z l p q E Q. unfold get. cbn [fst snd]. destruct (num_cut z p q E) as [->|(y & ->)]; cbn [obind fst snd]; [left; reflexivity|right; eexists; eexists; reflexivity]. Qed.
Lemma short_size : forall n, short (get get_size) (put (put_num n)).
Proof. intros z l p q E Q. unfold get. cbn [fst snd]. destruct (size_cut z p q E) as [->|(y & ->)]; cbn [obind fst snd]; [left; reflexivity|right; eexists; eexists; reflexivity]. Qed.
Lemma short_str : forall s, short (get get_str) (put (put_str s)).
Proof. intros s l p q E Q. unfold get. cbn [fst snd]. destruct (str_cut s p q E Q) as [->|(y & ->)]; cbn [obind fst snd]; [left; reflexivity|right; eexists; eexists; reflexivity]. Qed.
Lemma short_class : forall c, short (get_class c) (put_class c).
Proof.
  intros c l p q E Q. unfold get_class, put_class in *. cbn [fst snd]. destruct (seen c l); [destruct p; [destruct q; [destruct (Q eq_refl)|discriminate E]|discriminate E]|].
  cbn [fst] in E. apply app_eq_app in E. destruct E as (d & [[E F]|[E F]]).
  - destruct (num_cut _ _ _ E) as [->|(y & ->)]; cbn [obind fst snd]; left; reflexivity.
  - subst p. destruct d as [|b d].
    + rewrite app_nil_r. change (get_num (put_num 0)) with (Ok (0%Z, @nil N)). cbn [obind snd]. left. reflexivity.
    + rewrite get_put_num by (injection F as <- _; reflexivity). cbn [obind snd].
      destruct (num_cut _ _ _ F) as [->|(y & ->)]; cbn [obind fst snd]; [left; reflexivity|right; eexists; eexists; reflexivity].
Qed.
Lemma short_all : forall A (r : reader A) (f : A -> writer) xs, (forall x, spaced (f x)) -> ends r -> (forall x, In x xs -> reads r (f x) x /\ short r (f x)) ->
  short (get_all r (List.length xs)) (put_all f xs).
Proof.
  intros A r f xs SPC D. induction xs as [|x xs IH]; intros H; cbn [get_all put_all List.length].
  - intros l p q E Q. destruct p; [destruct q; [destruct (Q eq_refl)|discriminate E]|discriminate E].
  - destruct (H x (or_introl eq_refl)) as [H1 H2]. eapply short_bind; [exact H1|apply spaced_all; exact SPC|exact H2| |].
    + apply short_last; [|intros v; apply ends_ret]. apply IH. intros y Y. apply H. right. exact Y.
    + intros v. apply ends_bind; [apply ends_all; exact D|intros; apply ends_ret].
Qed.
Lemma short_ext : forall A (r : reader A) w w', (forall l, fst (w l) = fst (w' l)) -> short r w -> short r w'.
Proof. intros A r w w' H S0 l p q E Q. apply (S0 l p q); [rewrite H; exact E|exact Q]. Qed.
Lemma short_items : forall A (r : reader A) (f : A -> writer) xs, (forall x, spaced (f x)) -> ends r -> (forall x, In x xs -> reads r (f x) x /\ short r (f x)) ->
  short (get_items r) (put_items f xs).
Proof.
  intros A r f xs SPC D H. unfold get_items, put_items.
  apply (short_ext _ _ (Archive_model.seq (put (put_num (Z.of_nat (List.length xs)))) (Archive_model.seq (put (put_num 0)) (put_all f xs)))).
  { intros l. rewrite !seq_fst. cbn [put fst snd]. rewrite <- app_assoc. reflexivity. }
  apply (short_bind _ _ _ _ _ _ (List.length xs)).
  - intros l rest K. unfold get, put. cbn [fst snd]. rewrite get_put_size by exact K. reflexivity.
  - apply spaced_seq; [apply spaced_num|apply spaced_all; exact SPC].
  - apply short_size.
  - apply (short_bind _ _ _ _ _ _ 0%Z); [apply reads_num|apply spaced_all; exact SPC|apply short_num|apply short_all; assumption|].
    intros v. apply ends_all. exact D.
  - intros n. apply ends_bind; [apply wants_ends, wants_num|]. intros v. apply ends_all. exact D.
Qed.

(** ** Enumerators: a number cut short is still one *)
Definition enum_cuts {A} (code : A -> Z) (all : list A) (a : A) : bool :=
  forallb (fun k => match get_enum code all (firstn k (put_num (code a))) with Ok (_, []) => true | Throw m => teqb m bad_archive | _ => false end)
    (List.seq 0 (List.length (put_num (code a)))).
Lemma short_enum : forall A (code : A -> Z) all a, enum_cuts code all a = true -> short (get (get_enum code all)) (put (put_num (code a))).
Proof.
  intros A code all a H l p q E Q. cbn [put fst] in E. assert (K : In (List.length p) (List.seq 0 (List.length (put_num (code a))))).
  { apply in_seq. rewrite E, app_length. destruct q; [destruct (Q eq_refl)|]. cbn [List.length]. lia. }
  unfold enum_cuts in H. apply (proj1 (forallb_forall _ _) H) in K. rewrite E in K. rewrite firstn_app, Nat.sub_diag, firstn_all, firstn_O, app_nil_r in K.
  unfold get. cbn [fst snd]. destruct (get_enum code all p) as [[v r]|m|]; [|apply teqb_eq in K; subst m; left; reflexivity|discriminate K].
  destruct r; [right; eexists; eexists; reflexivity|discriminate K].
Qed.
Lemma cuts_in : forall c, enum_cuts in_code all_in c = true.
Proof. intros c. destruct c; vm_compute; reflexivity. Qed.
Lemma cuts_att : forall c, enum_cuts att_code all_attach c = true.
Proof. intros c. destruct c; vm_compute; reflexivity. Qed.
Lemma cuts_lang : forall c, enum_cuts lang_num all_lang c = true.
Proof. intros c. destruct c; vm_compute; reflexivity. Qed.

(** ** Entries and items *)
Lemma short_entry : forall e, entry_sets e -> short get_entry (put_entry e).
Proof.
  intros [w s ts la] (H1 & H2). cbn [le_type le_att] in *. unfold get_entry, put_entry. cbn [le_word le_std le_type le_att].
  assert (W : forall v : text, wants (rbind (get get_str) (fun s0 : text => rbind (get_class C_types) (fun _ =>
    rbind (get_items (get (get_enum in_code all_in))) (fun ts0 => rbind (get_class C_atts) (fun _ => rbind (get_items (get (get_enum att_code all_attach)))
      (fun la0 => rret (mkLE v s0 (fold_left (fun a c => iset_insert c a) ts0 []) (fold_left (fun a c => aset_insert c a) la0 []))))))))).
  { intros v. apply wants_bind, wants_str. }
  eapply short_bind; [apply reads_class|sp|apply short_class| |intros _; apply wants_ends, wants_bind, wants_str].
  eapply short_bind; [apply reads_str|sp|apply short_str| |intros v; apply wants_ends, W].
  eapply short_bind; [apply reads_str|sp|apply short_str| |intros v; apply wants_ends, wants_then; [apply ends_class|intros _; apply wants_bind, wants_items]].
  eapply short_bind; [apply reads_class|sp|apply short_class| |intros _; apply wants_ends, wants_bind, wants_items].
  eapply short_bind; [apply (reads_items intype _ (fun c => put (put_num (in_code c)))); [intros; apply spaced_num|intros c _; apply reads_enum, enum_in]|sp| | |].
  - apply short_items; [intros; apply spaced_num|apply wants_ends, wants_enum|]. intros c _. split; [apply reads_enum, enum_in|apply short_enum, cuts_in].
  - eapply short_bind; [apply reads_class|sp|apply short_class| |intros _; apply ends_bind; [apply wants_ends, wants_items|intros; apply ends_ret]].
    apply short_last; [|intros; apply ends_ret]. apply short_items; [intros; apply spaced_num|apply wants_ends, wants_enum|].
    intros c _. split; [apply reads_enum, enum_att|apply short_enum, cuts_att].
  - intros v. apply ends_bind; [apply ends_class|]. intros _. apply ends_bind; [apply wants_ends, wants_items|intros; apply ends_ret].
Qed.
Lemma short_item : forall kv, (forall e, In e (snd kv) -> entry_sets e) -> short get_item (put_item kv).
Proof.
  intros [k l] H. cbn [snd] in H. unfold get_item, put_item. cbn [fst snd].
  eapply short_bind; [apply reads_class|sp|apply short_class| |intros _; apply wants_ends, wants_bind, wants_str].
  eapply short_bind; [apply reads_str|sp|apply short_str| |intros v; apply wants_ends, wants_then; [apply ends_class|intros _; apply wants_bind, wants_items]].
  eapply short_bind; [apply reads_class|apply spaced_items|apply short_class| |intros _; apply wants_ends, wants_bind, wants_items].
  apply short_last; [|intros; apply ends_ret]. apply short_items; [apply spaced_entry|apply wants_ends, wants_entry|].
  intros e I. split; [apply reads_entry, H, I|apply short_entry, H, I].
Qed.

(** ** The whole: only the last string may be incomplete *)
Definition tail_of (s : text) : nat := List.length s + List.length (dec_text (N.of_nat (List.length s))).
Definition lastly {B} (r : reader B) (w : writer) (s : text) (F : text -> B) : Prop := forall l,
  (tail_of s < List.length (fst (w l)))%nat /\
  forall p q, fst (w l) = p ++ q -> q <> [] ->
    if Nat.leb (List.length q) (tail_of s) then exists v l', r (p, l) = Ok (F v, ([], l')) else r (p, l) = Throw bad_archive.
Lemma dec_digit : forall c p n, dec_text n = c :: p -> is_digit c = true.
Proof. intros c p n E. pose proof (proj1 (dec_text_ok n)) as O. rewrite E in O. inversion O; assumption. Qed.
Lemma num_first : forall n : nat, put_num (Z.of_nat n) = SP :: dec_text (N.of_nat n).
Proof. intros n. unfold put_num. destruct n; reflexivity. Qed.

Lemma lastly_str : forall B s (F : text -> B), lastly (rbind (get get_str) (fun v => rret (F v))) (put (put_str s)) s F.
Proof.
  intros B s F l. cbn [put fst]. assert (PS : put_str s = SP :: dec_text (N.of_nat (List.length s)) ++ SP :: s) by (unfold put_str; rewrite num_first; reflexivity).
  assert (LN : List.length (put_str s) = S (S (tail_of s))) by (rewrite PS; cbn [List.length]; rewrite app_length; cbn [List.length]; unfold tail_of; lia).
  split; [lia|]. intros p q E Q.
  assert (LQ : (List.length p + List.length q = S (S (tail_of s)))%nat) by (rewrite <- LN, E, app_length; reflexivity).
  unfold rbind, get. cbn [fst snd]. destruct (Nat.leb_spec (List.length q) (tail_of s)) as [L|L].
  - destruct p as [|c [|d p]]; cbn [List.length] in LQ; [lia|lia|].
    destruct (str_cut s (c :: d :: p) q E Q) as [X|(v & X)]; [exfalso|rewrite X; exists v, l; reflexivity].
    rewrite PS in E. injection E as <- E. destruct (dec_text_head (N.of_nat (List.length s))) as (c & t & D). pose proof (dec_digit _ _ _ D) as C.
    rewrite D in E. injection E as <- E. destruct (digit_forms c C) as (S1 & S2 & S3).
    unfold get_str, get_size, get_num in X. change (drop_space (SP :: c :: p)) with (drop_space (c :: p)) in X.
    assert (drop_space (c :: p) = c :: p) as D2 by (unfold drop_space; cbn [drop_while]; rewrite S1; reflexivity). rewrite D2 in X. cbn iota beta in X.
    rewrite S2, S3 in X. unfold get_unsigned in X. rewrite C in X. cbn [obind fst snd] in X. destruct (Z.ltb_spec (Z.of_N (fst (read_digits 0 (c :: p)))) 0) as [Z0|Z0]; [lia|].
    cbn [obind fst snd] in X. destruct (snd (read_digits 0 (c :: p))); discriminate X.
  - destruct p as [|c [|d p]]; cbn [List.length] in LQ; [reflexivity| |lia]. rewrite PS in E. injection E as <- _. reflexivity.
Qed.
Lemma lastly_bind : forall A B (r : reader A) (f : A -> reader B) wa wb a s F, reads r wa a -> spaced wb -> short r wa -> (forall v, wants (f v)) -> lastly (f a) wb s F ->
  lastly (rbind r f) (Archive_model.seq wa wb) s F.
Proof.
  intros A B r f wa wb a s F R SP' SA D H l. destruct (H (snd (wa l))) as [H1 H2]. rewrite seq_fst, app_length. split; [lia|].
  intros p q E Q. apply app_eq_app in E. destruct E as (c & [[E G]|[E G]]).
  - destruct c as [|b c].
    + rewrite app_nil_r in E. cbn [app] in G. unfold rbind. rewrite <- E. pose proof (R l [] I) as K. rewrite app_nil_r in K. rewrite K. cbn [obind fst snd].
      apply (H2 [] q); [symmetry; exact G|exact Q].
    + assert (NE : b :: c <> []) by discriminate. specialize (SA l p (b :: c) E NE).
      assert (Nat.leb (List.length q) (tail_of s) = false) as -> by (apply Nat.leb_gt; rewrite G, app_length; lia).
      unfold rbind. destruct SA as [->|(v & l' & ->)]; [reflexivity|]. cbn [obind fst snd]. apply D.
  - subst p. unfold rbind. rewrite R by (apply (spaced_cut wb (snd (wa l)) c q SP' G)). cbn [obind fst snd]. apply (H2 c q G Q).
Qed.
Lemma lastly_load : forall x, ordered x -> lastly (load lexicon_version) (save x) (x_md5 x) (fun v => put_md5 v x).
Proof.
  intros [nm lg loc m re pre suf md] (H1 & H2). cbn [x_lex] in *. unfold load. change (lexicon_version <? lexicon_version)%Z with false. cbn iota.
  unfold save, put_md5. cbn [x_name x_lang x_locale x_lex x_regex x_pre x_suf x_md5].
  eapply lastly_bind; [apply reads_str|sp|apply short_str|intros; apply wants_bind, wants_enum|]. cbn beta.
  eapply lastly_bind; [apply reads_enum, enum_lang|sp|apply short_enum, cuts_lang|intros; apply wants_bind, wants_str|]. cbn beta.
  eapply lastly_bind; [apply reads_str|sp|apply short_str|intros; apply wants_then; [apply ends_class|intros _; apply wants_bind, wants_items]|]. cbn beta.
  eapply lastly_bind; [apply reads_class|sp|apply short_class|intros; apply wants_bind, wants_items|]. cbn beta.
  eapply lastly_bind; [apply (reads_items _ _ put_item); [apply spaced_item|intros kv I; apply reads_item; intros e E; exact (H2 kv e I E)]|sp| |intros; apply wants_bind, wants_str|]. cbn beta.
  { apply short_items; [apply spaced_item|apply wants_ends, wants_item|]. intros kv I.
    split; [apply reads_item; intros e E; exact (H2 kv e I E)|apply short_item; intros e E; exact (H2 kv e I E)]. }
  eapply lastly_bind; [apply reads_str|sp|apply short_str|intros; apply wants_bind, wants_str|]. cbn beta.
  eapply lastly_bind; [apply reads_str|sp|apply short_str|intros; apply wants_bind, wants_str|]. cbn beta.
  eapply lastly_bind; [apply reads_str|sp|apply short_str|intros; apply wants_bind, wants_str|]. cbn beta.
  rewrite (map_rebuild m []) by (apply keys_lt; exact H1). apply lastly_str.
Qed.

(** ** The archive *)
Definition front : text := s2t "22 " ++ signature ++ put_num library_version ++ put_num 0 ++ put_num lexicon_version.
Lemma front_cuts : forallb (fun k => match load_archive (firstn k front) with Throw m => negb (teqb m recompile) | _ => false end) (List.seq 0 (List.length front)) = true.
Proof. vm_compute. reflexivity. Qed.
Lemma save_front : forall x, save_archive lexicon_version x = front ++ fst (save x []).
Proof. intros x. unfold save_archive, front. rewrite <- !app_assoc. reflexivity. Qed.
Lemma load_front : forall t, brk t -> load_archive (front ++ t) = obind (load lexicon_version (t, [])) (fun r => Ok (fst r)).
Proof.
  intros t B. unfold load_archive, front. rewrite <- !app_assoc. rewrite get_signature. cbn [obind fst snd]. rewrite teqb_refl. cbn [negb].
  rewrite get_put_num by reflexivity. cbn [obind fst snd]. change (library_version <? library_version)%Z with false. cbn iota.
  rewrite get_put_num by reflexivity. cbn [obind fst snd]. rewrite get_put_num by exact B. reflexivity.
Qed.
Lemma save_spaced : forall x, spaced (save x).
Proof. intros x. unfold save. sp. Qed.
Lemma archive_cut : forall x p q, ordered x -> save_archive lexicon_version x = p ++ q -> q <> [] ->
  if Nat.leb (List.length q) (tail_of (x_md5 x)) then exists v, load_archive p = Ok (put_md5 v x) else exists m, load_archive p = Throw m /\ m <> recompile.
Proof.
  intros x p q O E Q. rewrite save_front in E. destruct (lastly_load x O []) as [H1 H2]. apply app_eq_app in E. destruct E as (c & [[E G]|[E G]]).
  - assert (Nat.leb (List.length q) (tail_of (x_md5 x)) = false) as -> by (apply Nat.leb_gt; rewrite G, app_length; lia).
    destruct c as [|b c].
    + rewrite app_nil_r in E. exists bad_archive. split; [|discriminate]. rewrite <- E, <- (app_nil_r front). rewrite load_front by exact I. reflexivity.
    + assert (K : In (List.length p) (List.seq 0 (List.length front))) by (apply in_seq; rewrite E, app_length; cbn [List.length]; lia).
      apply (proj1 (forallb_forall _ _) front_cuts) in K. rewrite E in K. rewrite firstn_app, Nat.sub_diag, firstn_all, firstn_O, app_nil_r in K.
      destruct (load_archive p) as [|m|]; [discriminate K| |discriminate K]. exists m. split; [reflexivity|]. intros ->. rewrite teqb_refl in K. discriminate K.
  - subst p. rewrite load_front by (apply (spaced_cut (save x) [] c q (save_spaced x) G)). specialize (H2 c q G Q).
    destruct (Nat.leb (List.length q) (tail_of (x_md5 x))).
    + destruct H2 as (v & l' & H3). exists v. match goal with |- obind ?o _ = _ => replace o with (@Ok (lexicon * (text * list cls)) (put_md5 v x, ([], l'))) by (symmetry; exact H3) end. reflexivity.
    + exists bad_archive. split; [|discriminate]. match goal with |- obind ?o _ = _ => replace o with (@Throw (lexicon * (text * list cls)) bad_archive) by (symmetry; exact H2) end. reflexivity.
Qed.
