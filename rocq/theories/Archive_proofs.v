(** Reading back an archive. *)
From Coq Require Import String List NArith ZArith Bool Lia Sorting.Sorted.
From Verif Require Import Base_model Class_model Uni_model Grammar_model Lexicon_model Search_proofs Class_proofs Trie_proofs LexMap_proofs Archive_model Archive_spec Lexicon_spec Tokenizer_model Tokenizer_spec TokScan_proofs LexSame_proofs LexText_spec LexLoad_proofs TextOrder_spec TextOrder_proofs.
Import ListNotations.
Local Open Scope N_scope.

(** ** Numbers *)
Definition brk (t : text) : Prop := match t with [] => True | c :: _ => is_digit c = false end.
Definition val (t : text) : N := fold_left (fun n c => 10 * n + (c - 48)) t 0.
Lemma read_all : forall t n rest, Forall (fun c => is_digit c = true) t -> brk rest ->
  read_digits n (t ++ rest) = (fold_left (fun n c => 10 * n + (c - 48)) t n, rest).
Proof.
  induction t as [|c t IH]; intros n rest D B; cbn [app fold_left].
  - destruct rest as [|c rest]; [reflexivity|]. cbn [read_digits]. simpl in B. rewrite B. reflexivity.
  - inversion D as [|? ? D1 D2]; subst. cbn [read_digits]. rewrite D1. apply IH; assumption.
Qed.
Lemma dec_ok : forall f n, n < 2 ^ N.of_nat (S f) -> Forall (fun c => is_digit c = true) (dec_digits (S f) n) /\ val (dec_digits (S f) n) = n.
Proof.
  assert (D1 : forall n, is_digit (48 + n mod 10) = true).
  { intros n. assert (n mod 10 < 10) by (apply N.mod_lt; discriminate). revert H. generalize (n mod 10). intros m H. unfold is_digit. apply andb_true_iff. split; apply N.leb_le; lia. }
  assert (V1 : forall t n, val (t ++ [48 + n mod 10]) = 10 * val t + n mod 10).
  { intros t n. unfold val. rewrite fold_left_app. cbn [fold_left]. generalize (n mod 10). intros m. lia. }
  induction f as [|f IH]; intros n H.
  - change (2 ^ N.of_nat 1) with 2 in H. cbn [dec_digits]. assert (n <? 10 = true) as -> by (apply N.ltb_lt; lia). split; [repeat constructor; apply D1|].
    rewrite V1. unfold val. cbn [fold_left]. rewrite N.mod_small by lia. lia.
  - change (dec_digits (S (S f)) n) with ((if n <? 10 then [] else dec_digits (S f) (n / 10)) ++ [48 + n mod 10]). rewrite V1.
    destruct (n <? 10) eqn:E.
    + apply N.ltb_lt in E. split; [repeat constructor; apply D1|]. unfold val. cbn [fold_left]. rewrite N.mod_small by lia. lia.
    + destruct (IH (n / 10)) as (D & V).
      { rewrite Nat2N.inj_succ, N.pow_succ_r' in H. apply N.div_lt_upper_bound; [discriminate|]. lia. }
      split; [apply Forall_app; split; [exact D|repeat constructor; apply D1]|]. rewrite V. symmetry. apply N.div_mod'.
Qed.
Lemma dec_text_ok : forall n, Forall (fun c => is_digit c = true) (dec_text n) /\ val (dec_text n) = n.
Proof.
  intros n. unfold dec_text. apply dec_ok. rewrite Nat2N.inj_succ, N2Nat.id. destruct (N.eq_dec n 0) as [->|H]; [reflexivity|]. apply N.log2_spec. lia.
Qed.
Lemma dec_text_head : forall n, exists c t, dec_text n = c :: t.
Proof. intros n. unfold dec_text. cbn [dec_digits]. destruct (_ ++ _) as [|c t] eqn:E; [|eauto]. apply app_eq_nil in E. destruct E as (_ & E). discriminate. Qed.
Lemma get_dec : forall n rest, brk rest -> get_unsigned (dec_text n ++ rest) = Ok (n, rest).
Proof.
  intros n rest B. destruct (dec_text_ok n) as (D & V). destruct (dec_text_head n) as (c & t & E). unfold get_unsigned.
  pose proof (read_all (dec_text n) 0 rest D B) as R. rewrite E in *. cbn [app] in *. apply Forall_inv in D. rewrite D, R. unfold val in V. rewrite V. reflexivity.
Qed.
Lemma drop_space_digit : forall c t, is_digit c = true -> drop_space (c :: t) = c :: t.
Proof.
  intros c t H. cbn [drop_space]. unfold is_digit in H. apply andb_true_iff in H. destruct H as (H1 & H2). apply N.leb_le in H1, H2.
  unfold c_isspace. destruct (c =? 32) eqn:E1; [apply N.eqb_eq in E1; lia|]. destruct (c <=? 13) eqn:E2; [apply N.leb_le in E2; lia|]. rewrite andb_false_r. reflexivity.
Qed.
Lemma get_put_num : forall z rest, brk rest -> get_num (put_num z ++ rest) = Ok (z, rest).
Proof.
  intros z rest B. unfold get_num, put_num. cbn [app]. change (drop_space (SP :: ?t)) with (drop_space t).
  assert (P : forall n, get_num (dec_text n ++ rest) = Ok (Z.of_N n, rest)).
  { intros n. pose proof (get_dec n rest B) as G. destruct (dec_text_ok n) as (D & _). destruct (dec_text_head n) as (c & t & E).
    unfold get_num. rewrite E in *. cbn [app] in *. apply Forall_inv in D. rewrite drop_space_digit by assumption.
    destruct (c =? 45) eqn:E1; [apply N.eqb_eq in E1; subst; discriminate|]. destruct (c =? 43) eqn:E2; [apply N.eqb_eq in E2; subst; discriminate|]. rewrite G. reflexivity. }
  destruct z as [|p|p].
  - apply P.
  - apply P.
  - change (drop_space ((45 :: dec_text (N.pos p)) ++ rest)) with (45 :: (dec_text (N.pos p) ++ rest)). cbn iota beta. rewrite N.eqb_refl.
    rewrite get_dec by exact B. reflexivity.
Qed.
Lemma get_put_size : forall n rest, brk rest -> get_size (put_num (Z.of_nat n) ++ rest) = Ok (n, rest).
Proof.
  intros n rest B. unfold get_size. rewrite get_put_num by exact B. cbn [obind fst snd].
  destruct (Z.of_nat n <? 0)%Z eqn:E; [apply Z.ltb_lt in E; lia|]. rewrite Nat2Z.id. reflexivity.
Qed.
Lemma get_put_str : forall s rest, get_str (put_str s ++ rest) = Ok (s, rest).
Proof.
  intros s rest. unfold get_str, put_str. rewrite <- app_assoc. rewrite get_put_size by reflexivity. cbn [obind fst snd app].
  rewrite app_length. replace (List.length s - (List.length s + List.length rest))%nat with O by lia. cbn [repeat].
  rewrite firstn_app, Nat.sub_diag, firstn_all, firstn_O, !app_nil_r, skipn_app, Nat.sub_diag, skipn_all. reflexivity.
Qed.

(** ** Readers and writers *)
Definition spaced (w : writer) : Prop := forall l, fst (w l) = [] \/ exists t, fst (w l) = SP :: t.
Definition reads {A} (r : reader A) (w : writer) (a : A) : Prop :=
  forall l rest, brk rest -> r (fst (w l) ++ rest, l) = Ok (a, (rest, snd (w l))).
Lemma spaced_brk : forall w l rest, spaced w -> brk rest -> brk (fst (w l) ++ rest).
Proof. intros w l rest H B. destruct (H l) as [->|(t & ->)]; [exact B|reflexivity]. Qed.
Lemma seq_fst : forall a b l, fst (seq a b l) = fst (a l) ++ fst (b (snd (a l))).
Proof. intros a b l. unfold seq. destruct (a l) as (t & l1). cbn [fst snd]. destruct (b l1). reflexivity. Qed.
Lemma seq_snd : forall a b l, snd (seq a b l) = snd (b (snd (a l))).
Proof. intros a b l. unfold seq. destruct (a l) as (t & l1). cbn [fst snd]. destruct (b l1). reflexivity. Qed.
Lemma spaced_seq : forall a b, spaced a -> spaced b -> spaced (seq a b).
Proof.
  intros a b A B l. rewrite seq_fst. destruct (A l) as [->|(t & ->)]; [apply B|]. right. eexists. reflexivity.
Qed.
Lemma spaced_num : forall z, spaced (put (put_num z)).
Proof. intros z l. right. eexists. reflexivity. Qed.
Lemma spaced_str : forall s, spaced (put (put_str s)).
Proof. intros s l. right. eexists. reflexivity. Qed.
Lemma spaced_class : forall c, spaced (put_class c).
Proof. intros c l. unfold put_class. destruct (seen c l); [left; reflexivity|right; eexists; reflexivity]. Qed.
Lemma spaced_all : forall A (f : A -> writer) xs, (forall x, spaced (f x)) -> spaced (put_all f xs).
Proof. intros A f xs H. induction xs as [|x xs IH]; [intros l; left; reflexivity|]. cbn [put_all]. apply spaced_seq; auto. Qed.
Lemma spaced_items : forall A (f : A -> writer) xs, spaced (put_items f xs).
Proof. intros A f xs l. right. unfold put_items. rewrite seq_fst. eexists. reflexivity. Qed.
Lemma spaced_entry : forall e, spaced (put_entry e).
Proof. intros e. unfold put_entry. repeat (apply spaced_seq; auto using spaced_class, spaced_str, spaced_items). Qed.
Lemma spaced_item : forall kv, spaced (put_item kv).
Proof. intros e. unfold put_item. repeat (apply spaced_seq; auto using spaced_class, spaced_str, spaced_items). Qed.

Lemma reads_bind : forall A B (r : reader A) (f : A -> reader B) wa wb a b, reads r wa a -> spaced wb -> reads (f a) wb b ->
  reads (rbind r f) (seq wa wb) b.
Proof.
  intros A B r f wa wb a b R SP' Q l rest K. rewrite seq_fst, seq_snd, <- app_assoc. unfold rbind.
  rewrite R by (apply spaced_brk; assumption). cbn [obind fst snd]. apply Q. exact K.
Qed.
Lemma reads_last : forall A B (r : reader A) (f : A -> reader B) wa a b, reads r wa a -> f a = rret b -> reads (rbind r f) wa b.
Proof. intros A B r f wa a b R Q l rest K. unfold rbind. rewrite R by exact K. cbn [obind fst snd]. rewrite Q. reflexivity. Qed.
Lemma reads_class : forall c, reads (get_class c) (put_class c) tt.
Proof.
  intros c l rest K. unfold get_class, put_class. cbn [fst snd]. destruct (seen c l); [reflexivity|]. cbn [fst snd]. rewrite <- app_assoc.
  rewrite get_put_num by reflexivity. cbn [obind snd]. rewrite get_put_num by exact K. reflexivity.
Qed.
Lemma reads_num : forall z, reads (get get_num) (put (put_num z)) z.
Proof. intros z l rest K. unfold get, put. cbn [fst snd]. rewrite get_put_num by exact K. reflexivity. Qed.
Lemma reads_str : forall s, reads (get get_str) (put (put_str s)) s.
Proof. intros s l rest K. unfold get, put. cbn [fst snd]. rewrite get_put_str. reflexivity. Qed.
Lemma reads_enum : forall A (code : A -> Z) all a, find (fun b => Z.eqb (code b) (code a)) all = Some a ->
  reads (get (get_enum code all)) (put (put_num (code a))) a.
Proof.
  intros A code all a F l rest K. unfold get, put, get_enum. cbn [fst snd]. rewrite get_put_num by exact K. cbn [obind fst snd].
  unfold enum_of. rewrite F. reflexivity.
Qed.
Lemma reads_all : forall A (r : reader A) (f : A -> writer) xs, (forall x, spaced (f x)) -> (forall x, In x xs -> reads r (f x) x) ->
  reads (get_all r (List.length xs)) (put_all f xs) xs.
Proof.
  intros A r f xs SPC. induction xs as [|x xs IH]; intros H; cbn [get_all put_all List.length].
  - intros l rest K. reflexivity.
  - eapply reads_bind; [apply H; left; reflexivity|apply spaced_all; exact SPC|]. eapply reads_last; [apply IH; intros y Y; apply H; right; exact Y|reflexivity].
Qed.
Lemma reads_items : forall A (r : reader A) (f : A -> writer) xs, (forall x, spaced (f x)) -> (forall x, In x xs -> reads r (f x) x) ->
  reads (get_items r) (put_items f xs) xs.
Proof.
  intros A r f xs SPC H l rest K. unfold get_items, put_items. rewrite seq_fst, seq_snd. unfold put. cbn [fst snd].
  rewrite <- !app_assoc. unfold rbind at 1, get at 1. cbn [fst snd]. rewrite get_put_size by reflexivity. cbn [obind fst snd].
  unfold rbind at 1, get at 1. cbn [fst snd]. rewrite get_put_num by (apply spaced_brk; [apply spaced_all; exact SPC|exact K]). cbn [obind fst snd].
  apply reads_all; assumption.
Qed.

(** ** The members *)
Lemma enum_in : forall c, find (fun b => Z.eqb (in_code b) (in_code c)) all_in = Some c.
Proof. intros c. destruct c; reflexivity. Qed.
Lemma enum_att : forall c, find (fun b => Z.eqb (att_code b) (att_code c)) all_attach = Some c.
Proof. intros c. destruct c; reflexivity. Qed.
Lemma enum_lang : forall c, find (fun b => Z.eqb (lang_num b) (lang_num c)) all_lang = Some c.
Proof. intros c. destruct c; vm_compute; reflexivity. Qed.
Lemma iset_snoc : forall s c, Forall (fun b => (in_code b < in_code c)%Z) s -> iset_insert c s = s ++ [c].
Proof.
  induction s as [|b s IH]; intros c H; [reflexivity|]. inversion H as [|? ? H1 H2]; subst. cbn [iset_insert app].
  destruct (in_code c <? in_code b)%Z eqn:E; [apply Z.ltb_lt in E; lia|]. apply Z.ltb_lt in H1. rewrite H1, IH by exact H2. reflexivity.
Qed.
Lemma iset_rebuild : forall s acc, increasing (fun a b => (in_code a < in_code b)%Z) (acc ++ s) ->
  fold_left (fun a c => iset_insert c a) s acc = acc ++ s.
Proof.
  induction s as [|c s IH]; intros acc H; cbn [fold_left]; [symmetry; apply app_nil_r|]. rewrite iset_snoc.
  - rewrite IH; rewrite <- app_assoc; [reflexivity|exact H].
  - clear IH. induction acc as [|b acc IH]; [constructor|]. cbn [app] in H. inversion H as [|? ? H1 H2]; subst. constructor; [|apply IH; exact H1].
    rewrite Forall_forall in H2. apply H2, in_or_app. right. left. reflexivity.
Qed.
Lemma aset_snoc : forall s c, Forall (fun b => (att_code b < att_code c)%Z) s -> aset_insert c s = s ++ [c].
Proof.
  induction s as [|b s IH]; intros c H; [reflexivity|]. inversion H as [|? ? H1 H2]; subst. cbn [aset_insert app].
  destruct (att_code c <? att_code b)%Z eqn:E; [apply Z.ltb_lt in E; lia|]. apply Z.ltb_lt in H1. rewrite H1, IH by exact H2. reflexivity.
Qed.
Lemma aset_rebuild : forall s acc, increasing (fun a b => (att_code a < att_code b)%Z) (acc ++ s) ->
  fold_left (fun a c => aset_insert c a) s acc = acc ++ s.
Proof.
  induction s as [|c s IH]; intros acc H; cbn [fold_left]; [symmetry; apply app_nil_r|]. rewrite aset_snoc.
  - rewrite IH; rewrite <- app_assoc; [reflexivity|exact H].
  - clear IH. induction acc as [|b acc IH]; [constructor|]. cbn [app] in H. inversion H as [|? ? H1 H2]; subst. constructor; [|apply IH; exact H1].
    rewrite Forall_forall in H2. apply H2, in_or_app. right. left. reflexivity.
Qed.
Lemma map_snoc : forall m k (v : list lexentry), Forall (fun p => tltb (fst p) k = true) m -> map_add m (k, v) = m ++ [(k, v)].
Proof.
  intros m k v H. unfold map_add. cbn [fst snd].
  assert (map_get k m = None) as ->.
  { induction H as [|[k1 v1] m H1 H2 IH]; [reflexivity|]. cbn [map_get]. destruct (teqb k k1) eqn:E; [|exact IH].
    apply teqb_eq in E. subst. cbn [fst] in H1. rewrite tltb_irrefl in H1. discriminate. }
  induction H as [|[k1 v1] m H1 H2 IH]; [reflexivity|]. cbn [map_put app]. cbn [fst] in H1. rewrite IH.
  destruct (tltb k k1) eqn:E; [|rewrite H1; reflexivity]. assert (tltb k k = true) by (eapply tltb_trans; eassumption). rewrite tltb_irrefl in H. discriminate.
Qed.
Lemma map_rebuild : forall s acc, increasing (fun a b => tltb (fst a) (fst b) = true) (acc ++ s) -> fold_left map_add s acc = acc ++ s.
Proof.
  induction s as [|[k v] s IH]; intros acc H; cbn [fold_left]; [symmetry; apply app_nil_r|]. rewrite map_snoc.
  - rewrite IH; rewrite <- app_assoc; [reflexivity|exact H].
  - clear IH. induction acc as [|b acc IH]; [constructor|]. cbn [app] in H. inversion H as [|? ? H1 H2]; subst. constructor; [|apply IH; exact H1].
    rewrite Forall_forall in H2. apply (H2 (k, v)), in_or_app. right. left. reflexivity.
Qed.
Ltac sp := repeat first [apply spaced_class | apply spaced_str | apply spaced_items | apply spaced_num | apply spaced_seq].
Lemma reads_entry : forall e, entry_sets e -> reads get_entry (put_entry e) e.
Proof.
  intros [w s ts la] (H1 & H2). cbn [le_type le_att] in *. unfold get_entry, put_entry. cbn [le_word le_std le_type le_att].
  eapply reads_bind; [apply reads_class|sp|]. cbn beta.
  eapply reads_bind; [apply reads_str|sp|]. cbn beta.
  eapply reads_bind; [apply reads_str|sp|]. cbn beta.
  eapply reads_bind; [apply reads_class|sp|]. cbn beta.
  eapply reads_bind; [apply (reads_items intype _ (fun c => put (put_num (in_code c)))); [intros; apply spaced_num|intros c _; apply reads_enum, enum_in]|sp|]. cbn beta.
  eapply reads_bind; [apply reads_class|sp|]. cbn beta.
  eapply reads_last; [apply (reads_items attach _ (fun c => put (put_num (att_code c)))); [intros; apply spaced_num|intros c _; apply reads_enum, enum_att]|]. cbn beta.
  rewrite (iset_rebuild ts []) by exact H1. rewrite (aset_rebuild la []) by exact H2. reflexivity.
Qed.
Lemma reads_item : forall kv, (forall e, In e (snd kv) -> entry_sets e) -> reads get_item (put_item kv) kv.
Proof.
  intros [k l] H. cbn [snd] in H. unfold get_item, put_item. cbn [fst snd].
  eapply reads_bind; [apply reads_class|sp|]. cbn beta.
  eapply reads_bind; [apply reads_str|sp|]. cbn beta.
  eapply reads_bind; [apply reads_class|apply spaced_items|]. cbn beta.
  eapply reads_last; [apply (reads_items lexentry _ put_entry); [apply spaced_entry|intros e I; apply reads_entry, H, I]|reflexivity].
Qed.
Lemma keys_lt : forall A (l : list (text * A)), StronglySorted (fun a b => tltb (fst a) (fst b) = true) l <-> StronglySorted (fun a b => text_lt (fst a) (fst b)) l.
Proof. intros A l. apply Trie_proofs.sorted_ext. intros a b. apply tltb_lt. Qed.
Lemma reads_lexicon : forall x, ordered x -> reads (load lexicon_version) (save x) x.
Proof.
  intros [nm lg loc m re pre suf md] (H1 & H2). cbn [x_lex] in *. unfold load. change (lexicon_version <? lexicon_version)%Z with false. cbn iota.
  unfold save. cbn [x_name x_lang x_locale x_lex x_regex x_pre x_suf x_md5].
  eapply reads_bind; [apply reads_str|sp|]. cbn beta.
  eapply reads_bind; [apply reads_enum, enum_lang|sp|]. cbn beta.
  eapply reads_bind; [apply reads_str|sp|]. cbn beta.
  eapply reads_bind; [apply reads_class|sp|]. cbn beta.
  eapply reads_bind; [apply (reads_items _ _ put_item); [apply spaced_item|intros kv I; apply reads_item; intros e E; exact (H2 kv e I E)]|sp|]. cbn beta.
  eapply reads_bind; [apply reads_str|sp|]. cbn beta.
  eapply reads_bind; [apply reads_str|sp|]. cbn beta.
  eapply reads_bind; [apply reads_str|sp|]. cbn beta.
  eapply reads_last; [apply reads_str|]. cbn beta. rewrite (map_rebuild m []) by (apply keys_lt; exact H1). reflexivity.
Qed.
Lemma get_signature : forall t, get_str (s2t "22 " ++ signature ++ t) = Ok (signature, t).
Proof.
  intros t. unfold get_str. change (get_size (s2t "22 " ++ signature ++ t)) with (Ok (22%nat, SP :: (signature ++ t))). cbn [obind fst snd].
  rewrite app_length. change (List.length signature) with 22%nat. replace (22 - (22 + List.length t))%nat with O by lia. reflexivity.
Qed.
Lemma load_save : forall x version, ordered x -> load_archive (save_archive version x) =
  if (version <? lexicon_version)%Z then Throw recompile
  else if (lexicon_version <? version)%Z then Throw (s2t "class version") else Ok x.
Proof.
  intros x v H. unfold load_archive, save_archive. rewrite get_signature. cbn [obind fst snd]. rewrite teqb_refl. cbn [negb].
  rewrite get_put_num by reflexivity. cbn [obind fst snd]. change (library_version <? library_version)%Z with false. cbn iota.
  rewrite get_put_num by reflexivity. cbn [obind fst snd]. rewrite get_put_num.
  2:{ rewrite <- (app_nil_r (fst (save x []))). apply (spaced_brk (save x)); [|exact I]. unfold save. sp. }
  cbn [obind fst snd]. destruct (v <? lexicon_version)%Z eqn:E1; [unfold load; rewrite E1; reflexivity|].
  destruct (lexicon_version <? v)%Z eqn:E2; [unfold load; rewrite E1, E2; reflexivity|].
  assert (v = lexicon_version) as -> by (apply Z.ltb_ge in E1, E2; lia).
  pose proof (reads_lexicon x H [] [] I) as R. rewrite app_nil_r in R. change (@nil N) with (@nil N) in R.
  match goal with |- obind ?a _ = _ => replace a with (Ok (x, (@nil N, snd (save x [])))) by (symmetry; exact R) end. reflexivity.
Qed.

(** ** Lexicons that are loaded *)
Lemma insert_ordered : forall x e, ordered x -> entry_sets e -> ordered (lex_insert x e).
Proof.
  intros x e (H1 & H2) H. unfold lex_insert. destruct (existsb _ _); [split; assumption|]. split; cbn [x_lex set_lex].
  - apply keys_lt, map_put_sorted, keys_lt. exact H1.
  - intros kv le I J. apply map_put_in in I. destruct I as [->|I]; [|exact (H2 kv le I J)]. cbn [snd] in J. apply in_app_or in J.
    destruct J as [J|[<-|[]]]; [|exact H]. unfold lex_find in J. destruct (map_get (le_word e) (x_lex x)) eqn:E; [|destruct J].
    apply map_get_in in E. exact (H2 _ le E J).
Qed.
Lemma line_sets : forall t, entry_sets (lexentry_of_line t).
Proof.
  intros t. unfold lexentry_of_line. repeat match goal with |- context [getline ?a ?b ?c] => destruct (getline a b c) end.
  unfold lexentry_of_fields. repeat match goal with |- context [if ?b then _ else _] => destruct b end;
  repeat match goal with |- context [getline ?a ?b ?c] => destruct (getline a b c) end; split; cbn [le_type le_att]; first [apply as_type_set | apply as_attach_set].
Qed.
Lemma read_ordered : forall fuel e is line acc cnt x r, ordered x -> read_entries fuel e is line acc cnt x = Ok r -> ordered (snd r).
Proof.
  induction fuel as [|f IH]; intros e is line acc cnt x r O H; [discriminate|]. cbn [read_entries] in H. destruct (s_fail is); [injection H as <-; exact O|].
  destruct (getline LF is line) as (is' & raw). destruct (entry_line e (x_locale x) (cnt + 1) raw) as [q|m|] eqn:E; cbn [obind] in H; [|discriminate|discriminate].
  eapply IH; [|exact H]. unfold entry_line in E. destruct (squeeze raw); [injection E as <-; exact O|]. destruct (_ || _); [|discriminate].
  destruct (le_in_class _ _); [discriminate|]. injection E as <-. cbn [fst]. apply insert_ordered; [exact O|apply line_sets].
Qed.
Lemma load_ordered : forall e name src x, load_lexicon e name src = Ok x -> ordered x.
Proof.
  intros e name src x H. unfold load_lexicon in H. destruct (getline LF (open_stream src) []) as (is & raw).
  destruct (lex_strip_bom raw) as [line|m|]; cbn [obind] in H; [|discriminate|discriminate].
  destruct (skip_header _ _ _ _ _) as [[[[is' hl] acc] cnt]|m|]; cbn [obind] in H; [|discriminate|discriminate].
  destruct (header_fields hl) as [[t1 t3] loc]. destruct (_ || _); [|discriminate].
  destruct (read_entries _ _ _ _ _ _ _) as [r|m|] eqn:E; cbn [obind] in H; [|discriminate|discriminate]. injection H as <-.
  apply read_ordered in E; [|split; [constructor|intros kv le []]]. exact E.
Qed.
Lemma warm_same : forall x, let y := snd (lex_suf (snd (lex_pre (snd (lex_regex x))))) in same_content x y.
Proof.
  intros x. unfold lex_suf, lex_pre, lex_regex, same_content.
  destruct (x_regex x); cbn [snd fst x_pre]; destruct (x_pre x); cbn [snd fst x_suf]; destruct (x_suf x); cbn; auto.
Qed.
Lemma same_ordered : forall x y, same_content x y -> ordered x -> ordered y.
Proof. intros x y (_ & _ & _ & E & _) (H1 & H2). unfold ordered. rewrite <- E. split; assumption. Qed.
Lemma archive_round : forall x, ordered x -> load_archive (save_archive lexicon_version x) = Ok x.
Proof. intros x H. rewrite load_save by exact H. reflexivity. Qed.
Lemma archive_old : forall e x version, ordered x -> (version < 2)%Z ->
  load_archive (save_archive version x) = Throw (s2t "Re-compile-lexicon") /\ get_lexicon e (save_archive version x) = Throw (s2t "Re-compile-lexicon").
Proof.
  intros e x v H L. assert (Q : load_archive (save_archive v x) = Throw recompile).
  { rewrite load_save by exact H. unfold lexicon_version. apply Z.ltb_lt in L. rewrite L. reflexivity. }
  split; [exact Q|]. unfold get_lexicon. rewrite Q. rewrite teqb_refl. reflexivity.
Qed.
Lemma compile_load : forall e e' src a, serialize_lexicon e src = Ok a ->
  exists x y, load_lexicon e query_lex src = Ok x /\ get_lexicon e' a = Ok y /\ same_content x y /\
    x_regex y = fst (lex_regex x) /\ x_pre y = fst (lex_pre x) /\ x_suf y = fst (lex_suf x).
Proof.
  intros e e' src a H. unfold serialize_lexicon in H. destruct (load_lexicon e query_lex src) as [x|m|] eqn:L; cbn [obind] in H; [|discriminate|discriminate].
  injection H as <-. exists x, (snd (lex_suf (snd (lex_pre (snd (lex_regex x)))))). split; [reflexivity|]. pose proof (warm_same x) as S'. cbn zeta in S'.
  split.
  - unfold get_lexicon. rewrite archive_round; [reflexivity|]. eapply same_ordered; [exact S'|]. eapply load_ordered. exact L.
  - split; [exact S'|]. unfold lex_suf, lex_pre, lex_regex.
    destruct (x_regex x) eqn:E1; cbn [snd fst x_pre]; destruct (x_pre x) eqn:E2; cbn [snd fst x_suf]; destruct (x_suf x) eqn:E3; cbn [snd fst x_regex x_pre x_suf x_lex]; auto.
Qed.
(** A lexicon without members: [load_onto] is [load_lexicon]. *)
Lemma onto_new : forall e name src, load_onto e (new_lexicon name) src = load_lexicon e name src.
Proof.
  intros e name src. unfold load_onto, load_lexicon, header_fields. destruct (getline LF (open_stream src) []) as [is raw].
  destruct (lex_strip_bom raw) as [line|m|]; cbn [obind]; [|reflexivity|reflexivity].
  destruct (skip_header _ _ _ _ _) as [[[[is' hl] acc] cnt]|m|]; cbn [obind]; [|reflexivity|reflexivity].
  destruct (getline TAB (open_stream hl) []) as [s1 t1]. destruct (getline TAB s1 t1) as [s2 t2]. destruct (getline TAB s2 t2) as [s3 t3].
  change (x_locale (new_lexicon name)) with (@nil N). destruct (getline TAB s3 []) as [s4 loc]. reflexivity.
Qed.
(** ** Texts that do not begin as an archive *)
Lemma space_split : forall t, exists b, t = b ++ drop_space t /\ Forall (fun k => c_isspace k = true) b.
Proof.
  induction t as [|c t (b & E & F)]; [exists []; split; [reflexivity|constructor]|]. cbn [drop_space]. destruct (c_isspace c) eqn:S0.
  - exists (c :: b). split; [cbn [app]; rewrite <- E; reflexivity|constructor; assumption].
  - exists []. split; [reflexivity|constructor].
Qed.
Lemma digit_split : forall t n, exists d, t = d ++ snd (read_digits n t) /\ Forall (fun k => 48 <= k <= 57) d /\ fold_left (fun n k => 10 * n + (k - 48)) d n = fst (read_digits n t).
Proof.
  induction t as [|c t IH]; intros n; cbn [read_digits]; [exists []; split; [reflexivity|]; split; [constructor|reflexivity]|]. destruct (is_digit c) eqn:D.
  - destruct (IH (10 * n + (c - 48))) as (d & E & F & V). exists (c :: d). split; [cbn [app]; rewrite <- E; reflexivity|]. split; [|cbn [fold_left]; exact V]. constructor; [|exact F].
    unfold is_digit in D. apply andb_prop in D. destruct D as [A B]. apply N.leb_le in A. apply N.leb_le in B. split; assumption.
  - exists []. split; [reflexivity|]. split; [constructor|reflexivity].
Qed.
Lemma sig_nonzero : ~ In 0 signature.
Proof. intros H. vm_compute in H. repeat (destruct H as [H|H]; [discriminate H|]). destruct H. Qed.
Lemma padded_sig : forall (a : text) k, a ++ repeat 0 k = signature -> k = O.
Proof.
  intros a k E. destruct k as [|k]; [reflexivity|]. exfalso. apply sig_nonzero. rewrite <- E. apply in_or_app. right. left. reflexivity.
Qed.
Lemma str_throws : forall t, (exists r, get_str t = Ok r) \/ get_str t = Throw bad_archive.
Proof.
  intros t. unfold get_str, get_size, get_num, get_unsigned. destruct (drop_space t) as [|c u]; [right; reflexivity|]. destruct (c =? 45); [|destruct (c =? 43)].
  - destruct u as [|d u]; [right; reflexivity|]. destruct (is_digit d); [|right; reflexivity]. cbn [obind fst snd]. destruct (_ <? 0)%Z; [right; reflexivity|].
    cbn [obind fst snd]. left. destruct (snd (read_digits 0 (d :: u))); eexists; reflexivity.
  - destruct u as [|d u]; [right; reflexivity|]. destruct (is_digit d); [|right; reflexivity]. cbn [obind fst snd]. destruct (_ <? 0)%Z; [right; reflexivity|].
    cbn [obind fst snd]. left. destruct (snd (read_digits 0 (d :: u))); eexists; reflexivity.
  - destruct (is_digit c); [|right; reflexivity]. cbn [obind fst snd]. destruct (_ <? 0)%Z; [right; reflexivity|].
    cbn [obind fst snd]. left. destruct (snd (read_digits 0 (c :: u))); eexists; reflexivity.
Qed.
(** The part behind the sign. *)
Lemma sig_digits : forall b p u r, Forall (fun k => c_isspace k = true) b -> p = [] \/ p = [43] ->
  obind (obind (get_unsigned u) (fun r => Ok (Z.of_N (fst r), snd r))) (fun r => if (fst r <? 0)%Z then Throw bad_archive else Ok (Z.to_nat (fst r), snd r)) = Ok r ->
  forall k v, snd r = k :: v -> firstn (fst r) v ++ repeat 0 (fst r - List.length v) = signature -> begins_archive (b ++ p ++ u).
Proof.
  intros b p u r B P E k v R F. unfold get_unsigned in E. destruct u as [|c u]; [discriminate E|]. destruct (is_digit c); [|discriminate E]. cbn [obind fst snd] in E.
  destruct (digit_split (c :: u) 0) as (d & D1 & D2 & D3). destruct (Z.ltb_spec (Z.of_N (fst (read_digits 0 (c :: u)))) 0) as [Z0|Z0]; [discriminate E|]. clear Z0.
  apply (f_equal (fun o => match o with Ok x => x | _ => r end)) in E. cbn iota beta in E. subst r. cbn [fst snd] in *.
  pose proof (padded_sig _ _ F) as K. rewrite K in F. cbn [repeat] in F. rewrite app_nil_r in F. rewrite R in D1.
  assert (V : fst (read_digits 0 (c :: u)) = 22).
  { pose proof (f_equal (@List.length N) F) as L. rewrite firstn_length in L. change (List.length signature) with 22%nat in L. lia. }
  exists b, p, d, k, (skipn 22 v). rewrite V in *. change (s2t "serialization::archive") with signature. rewrite <- F. change (Z.to_nat (Z.of_N 22)) with 22%nat.
  rewrite firstn_skipn. split; [rewrite D1; reflexivity|]. split; [exact B|]. split; [exact P|]. split; [exact D2|exact D3].
Qed.
Lemma sig_begins : forall t s r, get_str t = Ok (s, r) -> s = signature -> begins_archive t.
Proof.
  intros t s r E ->. unfold get_str, get_size, get_num in E. destruct (space_split t) as (b & B1 & B2). destruct (drop_space t) as [|c u]; [discriminate E|].
  destruct (N.eqb_spec c 45) as [->|Q]; [|destruct (N.eqb_spec c 43) as [->|Q']].
  - unfold get_unsigned in E. destruct u as [|d u]; [discriminate E|]. destruct (is_digit d); [|discriminate E]. cbn [obind fst snd] in E.
    destruct (Z.ltb_spec (- Z.of_N (fst (read_digits 0 (d :: u)))) 0) as [Z0|Z0]; [discriminate E|]. cbn [obind fst snd] in E.
    assert (Z1 : Z.to_nat (- Z.of_N (fst (read_digits 0 (d :: u)))) = O) by lia. rewrite Z1 in E. cbn [repeat firstn skipn app Nat.sub] in E.
    destruct (snd (read_digits 0 (d :: u))); discriminate E.
  - rewrite B1. change (b ++ 43 :: u) with (b ++ [43] ++ u).
    match type of E with obind ?o _ = _ => destruct o as [[n w]|m|] eqn:G; cbn [obind fst snd] in E; [|discriminate E|discriminate E] end.
    pose proof (f_equal (fun o => match o with Ok x => fst x | _ => [] end) E) as F. destruct w as [|k v]; cbn [fst] in F.
    + pose proof (padded_sig [] n F) as ->. discriminate F.
    + exact (sig_digits b [43] u (n, k :: v) B2 (or_intror eq_refl) G k v eq_refl F).
  - rewrite B1. change (b ++ c :: u) with (b ++ [] ++ (c :: u)).
    match type of E with obind ?o _ = _ => destruct o as [[n w]|m|] eqn:G; cbn [obind fst snd] in E; [|discriminate E|discriminate E] end.
    pose proof (f_equal (fun o => match o with Ok x => fst x | _ => [] end) E) as F. destruct w as [|k v]; cbn [fst] in F.
    + pose proof (padded_sig [] n F) as ->. discriminate F.
    + exact (sig_digits b [] (c :: u) (n, k :: v) B2 (or_introl eq_refl) G k v eq_refl F).
Qed.
Lemma not_archive : forall e t, ~ begins_archive t -> get_lexicon e t = load_lexicon e query_lex t.
Proof.
  intros e t H. unfold get_lexicon, load_archive, archive_left. destruct (str_throws t) as [([s r] & Q)|Q]; rewrite Q; cbn [obind fst snd].
  - destruct (teqb s signature) eqn:T; [apply teqb_eq in T; destruct (H (sig_begins t s r Q T))|]. cbn [negb].
    change (teqb (s2t "invalid signature") recompile) with false. cbn iota. apply onto_new.
  - change (teqb bad_archive recompile) with false. cbn iota. apply onto_new.
Qed.

Lemma first_char : forall c t, c_isspace c = false -> is_digit c = false -> c <> 43 -> ~ begins_archive (c :: t).
Proof.
  intros c t S0 D0 P0 (b & p & d & k & r & E & B & P & D & V). destruct b as [|x b].
  - destruct P as [-> | ->].
    + destruct d as [|x d]; [discriminate V|]. cbn [app] in E. injection E as <- _. inversion D as [|? ? [D1 D2] D3]; subst. apply N.leb_le in D1, D2. unfold is_digit in D0. rewrite D1, D2 in D0. discriminate D0.
    + cbn [app] in E. injection E as -> _. exact (P0 eq_refl).
  - cbn [app] in E. injection E as <- _. inversion B as [|? ? B1 B2]; subst. rewrite B1 in S0. discriminate S0.
Qed.
Lemma empty_source : ~ begins_archive [].
Proof. intros (b & p & d & k & r & E & _). destruct b; [|discriminate E]. destruct p; [|discriminate E]. destruct d; discriminate E. Qed.
Lemma warm_cache : forall x, cache_ok x -> cache_ok (snd (lex_suf (snd (lex_pre (snd (lex_regex x)))))).
Proof.
  intros x H. apply (step_cache _ Suf), (step_cache _ Pre), (step_cache _ Regex). exact H.
Qed.
Lemma compile_same : forall e e' src a, serialize_lexicon e src = Ok a ->
  exists x y, load_lexicon e query_lex src = Ok x /\ get_lexicon e' a = Ok y /\ same_content x y /\
    (forall d f str, get_tokens d (mkTz x f) str = get_tokens d (mkTz y f) str) /\
    (forall u ks, get_alt_tokens u x ks = get_alt_tokens u y ks) /\
    (forall u k c, classify u x k c = classify u y k c) /\ (forall k, standardize_word x k = standardize_word y k).
Proof.
  intros e e' src a H. pose proof H as H'. unfold serialize_lexicon in H'. destruct (load_lexicon e query_lex src) as [x|m|] eqn:L; cbn [obind] in H'; [|discriminate|discriminate].
  injection H' as <-. exists x, (snd (lex_suf (snd (lex_pre (snd (lex_regex x)))))). split; [reflexivity|]. pose proof (warm_same x) as S'. cbn zeta in S'.
  split; [unfold get_lexicon; rewrite archive_round; [reflexivity|]; eapply same_ordered; [exact S'|]; eapply load_ordered; exact L|].
  split; [exact S'|]. assert (C : cache_ok x) by (apply built_ok; eapply built_load; exact L). pose proof (warm_cache x C) as C'.
  destruct S' as (_ & _ & E2 & E1 & _). assert (P3 := same_caches _ _ E1 C C'). split; [|split; [|split]].
  - intros d f str. apply same_tokens; assumption.
  - intros u ks. apply same_alts; assumption.
  - intros u k c. apply same_classify; assumption.
  - intros k. apply same_standardize; assumption.
Qed.

Lemma ex_compile : exists a x, serialize_lexicon ascii_env (file ex_src []) = Ok a /\ load_archive a = Ok x /\
  lex_find x (s2t "ST") = [ex_st1; ex_st2] /\ x_regex x <> [] /\ x_suf x <> [].
Proof.
  eexists. eexists. split; [vm_compute; reflexivity|]. split; [vm_compute; reflexivity|].
  split; [vm_compute; reflexivity|]. split; vm_compute; discriminate.
Qed.
