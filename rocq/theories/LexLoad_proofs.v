(** Reading and printing lexicon texts (C29-C33). *)
From Coq Require Import String List NArith Bool Lia.
From Verif Require Import Base_model Class_model Class_spec Class_proofs Uni_model Token_model Grammar_model Search_proofs
  Utf8_model Md5_model Regex_model Trie_proofs Lexicon_model Lexicon_spec LexText_spec LexMap_proofs.
Import ListNotations.
Local Open Scope N_scope.

(** ** Entries *)
Lemma lexentry_round : forall e, no_tab (le_word e) -> no_tab (le_std e) -> is_inset (le_type e) -> is_attset (le_att e) ->
  lexentry_of_line (lexentry_str e) = e.
Proof.
  intros e H1 H2 H3 H4.
  change (lexentry_str e) with (s2t "LEXENTRY:" ++ TAB :: le_word e ++ TAB :: le_std e ++ TAB :: iset_str (le_type e) ++ TAB :: aset_str (le_att e)).
  unfold lexentry_of_line. rewrite getline_field by (vm_compute; intros K; repeat (destruct K as [K|K]; [discriminate|]); exact K).
  rewrite teqb_refl. rewrite getline_field by exact H1. rewrite getline_field by exact H2.
  rewrite getline_field by apply iset_str_no_tab.
  destruct (getline_last TAB (aset_str (le_att e)) [] (aset_str_no_tab _)) as (s & -> & _).
  rewrite iset_round by exact H3. rewrite aset_round by exact H4. destruct e; reflexivity.
Qed.

(** ** Lines *)
Lemma file_cons : forall l ls r, file (l :: ls) r = l ++ 10 :: file ls r.
Proof. intros l ls r. unfold file. cbn [map concat]. rewrite <- !app_assoc. reflexivity. Qed.
Lemma file_snoc : forall ls r, file (ls ++ [r]) [] = file ls (r ++ [10]).
Proof. intros ls r. unfold file. rewrite map_app, concat_app. cbn [map concat]. rewrite !app_nil_r. reflexivity. Qed.
Lemma file_length : forall ls r, (List.length ls <= List.length (file ls r))%nat.
Proof.
  induction ls as [|l ls IH]; intros r; [simpl; lia|]. rewrite file_cons, app_length. cbn [List.length]. specialize (IH r). lia.
Qed.
Lemma getline_file : forall l ls r old, one_line l -> getline LF (open_stream (file (l :: ls) r)) old = (open_stream (file ls r), l).
Proof. intros l ls r old H. rewrite file_cons. apply getline_field. exact H. Qed.
Lemma getline_none : forall old, getline LF (open_stream []) old = (mkStream [] true true, []).
Proof. reflexivity. Qed.
Lemma getline_tail : forall r old, one_line r -> r <> [] -> getline LF (open_stream r) old = (mkStream [] true false, r).
Proof.
  intros r old H N. unfold getline. cbn [open_stream s_eof s_fail s_rest orb]. rewrite span_to_none by exact H. destruct r; [congruence|reflexivity].
Qed.
Lemma has_prefix_iff : forall w t, has_prefix w t = true <-> begins w t.
Proof.
  unfold has_prefix, begins. induction w as [|c w IH]; intros t; cbn [starts_with].
  - split; [intros _; exists t; reflexivity|reflexivity].
  - destruct t as [|d t]; [split; [discriminate|intros (r & H); discriminate]|]. destruct (N.eqb_spec c d) as [->|N].
    + rewrite IH. split; intros (r & H); exists r; [rewrite H; reflexivity|injection H as ->; reflexivity].
    + split; [discriminate|]. intros (r & H). injection H as -> _. congruence.
Qed.

(** ** The body *)
Definition ins1 (q : option lexentry) (x : lexicon) : lexicon := match q with Some le => lex_insert x le | None => x end.
Fixpoint body (e : env) (cnt : N) (ls : list text) (x : lexicon) : outcome lexicon :=
  match ls with
  | [] => Ok x
  | l :: ls' => obind (entry_line e (x_locale x) (cnt + 1) l) (fun q => body e (cnt + 1) ls' (ins1 (fst q) x))
  end.
Definition tail_line (e : env) (cnt : N) (r : text) (x : lexicon) : outcome (text * lexicon) :=
  match r with
  | [] => Ok ([], x)
  | _ => obind (entry_line e (x_locale x) (cnt + 1) r) (fun q =>
         obind (entry_line e (x_locale x) (cnt + 2) (snd q)) (fun q2 => Ok (r ++ snd q, ins1 (fst q2) (ins1 (fst q) x))))
  end.
Lemma ins_locale : forall q x, x_locale (ins1 q x) = x_locale x.
Proof. intros [le|] x; [|reflexivity]. unfold ins1, lex_insert. destruct (existsb _ _); reflexivity. Qed.
Lemma ins_meta : forall q x, x_name (ins1 q x) = x_name x /\ x_lang (ins1 q x) = x_lang x.
Proof. intros [le|] x; [|split; reflexivity]. unfold ins1, lex_insert. destruct (existsb _ _); split; reflexivity. Qed.
Lemma read_file : forall e ls r fuel line acc cnt x, (List.length ls + 3 <= fuel)%nat -> Forall one_line ls -> one_line r ->
  read_entries fuel e (open_stream (file ls r)) line acc cnt x =
  obind (body e cnt ls x) (fun x1 => obind (tail_line e (cnt + N.of_nat (List.length ls)) r x1) (fun q =>
    Ok (acc ++ concat ls ++ fst q, snd q))).
Proof.
  intros e. induction ls as [|l ls IH]; intros r fuel line acc cnt x Hf F Hr; (destruct fuel as [|fuel]; [simpl in Hf; lia|]); cbn [read_entries].
  - cbn [open_stream s_fail]. cbn [body obind concat app List.length]. rewrite N.add_0_r. change (file [] r) with r. destruct r as [|c r].
    + change (getline LF (open_stream []) line) with (mkStream [] true true, @nil N). cbn [tail_line obind]. unfold entry_line. cbn [squeeze obind snd fst].
      destruct fuel as [|fuel]; [simpl in Hf; lia|]. reflexivity.
    + rewrite getline_tail by (auto; discriminate). unfold tail_line.
      destruct (entry_line e (x_locale x) (cnt + 1) (c :: r)) as [q|m|]; cbn [obind]; [|reflexivity|reflexivity].
      fold (ins1 (fst q) x).
      destruct fuel as [|fuel]; [simpl in Hf; lia|]. cbn [read_entries s_fail]. unfold getline. cbn [s_eof s_fail orb s_rest].
      rewrite ins_locale. replace (cnt + 1 + 1) with (cnt + 2) by lia.
      destruct (entry_line e (x_locale x) (cnt + 2) (snd q)) as [q2|m|]; cbn [obind]; [|reflexivity|reflexivity].
      destruct fuel as [|fuel]; [simpl in Hf; lia|]. cbn [read_entries s_fail fst snd]. rewrite <- app_assoc. reflexivity.
  - inversion F as [|? ? Hl F']; subst. cbn [open_stream s_fail].
    change (mkStream (file (l :: ls) r) false false) with (open_stream (file (l :: ls) r)).
    rewrite getline_file by exact Hl. cbn [body].
    destruct (entry_line e (x_locale x) (cnt + 1) l) as [q|m|]; cbn [obind]; [|reflexivity|reflexivity].
    fold (ins1 (fst q) x). rewrite IH; [|simpl in Hf; lia|exact F'|exact Hr].
    replace (cnt + 1 + N.of_nat (List.length ls)) with (cnt + N.of_nat (List.length (l :: ls))) by (cbn [List.length]; lia).
    destruct (body e (cnt + 1) ls (ins1 (fst q) x)) as [x1|m|]; cbn [obind]; [|reflexivity|reflexivity].
    destruct (tail_line _ _ _ _) as [q1|m|]; cbn [obind]; [|reflexivity|reflexivity]. cbn [concat]. rewrite <- !app_assoc. reflexivity.
Qed.

(** ** The header *)
Inductive found := Found (ls : list text) (line acc : text) (cnt : N) | Order | AtEnd (line acc : text) (cnt : N).
Fixpoint find_header (line acc : text) (cnt : N) (ls : list text) : found :=
  if has_prefix (s2t "LEXICON:") line then Found ls line acc cnt
  else if has_prefix (s2t "LEXENTRY:") line then Order
  else match ls with
       | [] => AtEnd line acc cnt
       | l :: ls' => find_header l (acc ++ l) (cnt + 1) ls'
       end.
Definition at_end (r acc : text) (cnt : N) : outcome (stream * text * text * N) :=
  match r with
  | [] => Throw (s2t "Lexicon-Invalid-File-Format")
  | _ => if has_prefix (s2t "LEXICON:") r then Ok (mkStream [] true false, r, acc ++ r, cnt + 1)
         else if has_prefix (s2t "LEXENTRY:") r then Throw (s2t "Lexicon-LexEntry-Before-Lexicon")
         else Throw (s2t "Lexicon-Invalid-File-Format")
  end.
Lemma skip_file : forall ls r fuel line acc cnt, (List.length ls + 3 <= fuel)%nat -> Forall one_line ls -> one_line r ->
  skip_header fuel (open_stream (file ls r)) line acc cnt =
  match find_header line acc cnt ls with
  | Found ls' l a c => Ok (open_stream (file ls' r), l, a, c)
  | Order => Throw (s2t "Lexicon-LexEntry-Before-Lexicon")
  | AtEnd _ a c => at_end r a c
  end.
Proof.
  induction ls as [|l ls IH]; intros r fuel line acc cnt Hf F Hr; (destruct fuel as [|fuel]; [simpl in Hf; lia|]); cbn [skip_header find_header];
    cbn [open_stream s_fail]; destruct (has_prefix (s2t "LEXICON:") line); try reflexivity; destruct (has_prefix (s2t "LEXENTRY:") line); try reflexivity.
  - change (file [] r) with r. change (mkStream r false false) with (open_stream r). destruct fuel as [|fuel]; [simpl in Hf; lia|]. destruct r as [|c r].
    + reflexivity.
    + rewrite getline_tail by (auto; discriminate). cbn [skip_header s_fail]. unfold at_end.
      destruct (has_prefix (s2t "LEXICON:") (c :: r)); [reflexivity|]. destruct (has_prefix (s2t "LEXENTRY:") (c :: r)); [reflexivity|].
      destruct fuel as [|fuel]; [simpl in Hf; lia|]. reflexivity.
  - inversion F; subst. change (mkStream (file (l :: ls) r) false false) with (open_stream (file (l :: ls) r)).
    rewrite getline_file by assumption. apply IH; [simpl in Hf; lia|assumption|assumption].
Qed.
Lemma find_suffix : forall ls line acc cnt ls' l a c, find_header line acc cnt ls = Found ls' l a c ->
  exists pre, line :: ls = pre ++ l :: ls'.
Proof.
  induction ls as [|l0 ls IH]; intros line acc cnt ls' l a c H; cbn [find_header] in H;
    (destruct (has_prefix (s2t "LEXICON:") line); [injection H as <- <- <- <-; exists []; reflexivity|]);
    (destruct (has_prefix (s2t "LEXENTRY:") line); [discriminate|]); [discriminate|].
  apply IH in H. destruct H as (pre & H). exists (line :: pre). simpl. f_equal. exact H.
Qed.

(** ** The whole text *)
Definition start_body (e : env) (name : text) (hline acc : text) (cnt : N) (rd : lexicon -> outcome (text * lexicon)) : outcome lexicon :=
  let '(t1, t3, loc) := header_fields hline in
  if teqb t1 (s2t "LEXICON:") || teqb t1 (s2t "Lexicon:") then
    obind (rd (mkLex name (as_lang t3) loc [] [] [] [] [])) (fun r =>
      let y := snd r in
      Ok (mkLex (x_name y) (x_lang y) (x_locale y) (x_lex y) (x_regex y) (x_pre y) (x_suf y) (md5_hex (bytes_of (acc ++ fst r)))))
  else Throw (s2t "Lexicon-Invalid-Data-Format: " ++ dec_text (cnt + 1) ++ s2t ": " ++ hline).
Definition read_body (e : env) (cnt : N) (ls : list text) (r : text) (x : lexicon) : outcome (text * lexicon) :=
  obind (body e cnt ls x) (fun x1 => obind (tail_line e (cnt + N.of_nat (List.length ls)) r x1) (fun q => Ok (concat ls ++ fst q, snd q))).
(** A header on a last line without line feed: the failing getline leaves it in place and it is read as an entry. *)
Definition lone_header (e : env) (cnt : N) (line : text) (x : lexicon) : outcome (text * lexicon) :=
  obind (entry_line e (x_locale x) (cnt + 1) line) (fun q => Ok (line, ins1 (fst q) x)).
Lemma load_file : forall e name l ls r, one_line l -> Forall one_line ls -> one_line r ->
  load_lexicon e name (file (l :: ls) r) =
  obind (lex_strip_bom l) (fun line =>
    match find_header line l 1 ls with
    | Found ls' h a c => start_body e name h a c (read_body e (c + 1) ls' r)
    | Order => Throw (s2t "Lexicon-LexEntry-Before-Lexicon")
    | AtEnd _ a c => obind (at_end r a c) (fun h => start_body e name r (a ++ r) (c + 1) (lone_header e (c + 1 + 1) r))
    end).
Proof.
  intros e name l ls r H1 H2 H3. unfold load_lexicon. pose proof (file_length (l :: ls) r) as FL. cbn [List.length] in FL.
  set (fuel := (List.length (file (l :: ls) r) + 3)%nat).
  rewrite getline_file by exact H1. destruct (lex_strip_bom l) as [line|m|]; cbn [obind]; [|reflexivity|reflexivity].
  rewrite skip_file by (try assumption; unfold fuel; lia).
  destruct (find_header line l 1 ls) as [ls' h a c| |h a c] eqn:E; cbn [obind]; [|reflexivity|].
  - destruct (find_suffix _ _ _ _ _ _ _ _ E) as (pre & P).
    assert (L : (List.length ls' <= List.length ls)%nat).
    { apply (f_equal (@List.length text)) in P. rewrite app_length in P. cbn [List.length] in P. lia. }
    assert (F : Forall one_line ls').
    { destruct pre as [|p pre]; injection P as -> P; [rewrite <- P; exact H2|]. rewrite P in H2. apply Forall_app in H2. destruct H2 as (_ & H2). inversion H2; assumption. }
    unfold start_body. destruct (header_fields h) as [[t1 t3] loc]. destruct (_ || _); [|reflexivity].
    rewrite read_file by (try assumption; unfold fuel; lia). unfold read_body.
    destruct (body _ _ _ _) as [x1|m|]; cbn [obind]; [|reflexivity|reflexivity].
    destruct (tail_line _ _ _ _) as [q|m|]; cbn [obind fst snd]; reflexivity.
  - unfold at_end. destruct r as [|r0 r]; [reflexivity|]. destruct (has_prefix _ _); [|destruct (has_prefix _ _); reflexivity].
    cbn [obind]. unfold start_body. destruct (header_fields (r0 :: r)) as [[t1 t3] loc]. destruct (_ || _); [|reflexivity].
    assert (Q : exists f, fuel = S (S f)) by (exists (List.length (file (l :: ls) (r0 :: r)) + 1)%nat; unfold fuel; lia). destruct Q as (f & ->).
    cbn [read_entries s_fail]. unfold getline at 1. cbn [s_eof s_fail orb s_rest x_locale]. unfold lone_header.
    cbn [x_locale]. destruct (entry_line e loc (c + 1 + 1 + 1) (r0 :: r)) as [q|m|]; cbn [obind]; [|reflexivity|reflexivity].
    cbn [read_entries s_fail obind fst snd]. reflexivity.
Qed.

(** ** Printing *)
Lemma squeeze_id : forall t, single_blanks t -> squeeze t = t.
Proof.
  induction t as [|c t IH]; intros H; [reflexivity|]. cbn [squeeze].
  assert (Ht : single_blanks t) by (intros a b E; apply (H (c :: a) b); rewrite E; reflexivity).
  destruct t as [|d t]; [reflexivity|]. rewrite (IH Ht). destruct ((c =? SP) && (d =? SP)) eqn:E; [|reflexivity].
  apply andb_true_iff in E. destruct E as (E1 & E2). apply N.eqb_eq in E1. apply N.eqb_eq in E2. subst. exfalso. apply (H [] t). reflexivity.
Qed.
Lemma single_app : forall a c b, single_blanks a -> single_blanks b -> c <> 32 -> single_blanks (a ++ c :: b).
Proof.
  induction a as [|x a IH]; intros c b Ha Hb Hc p q E.
  - destruct p as [|y p]; cbn [app] in E; injection E as -> E; [congruence|]. apply (Hb p q). exact E.
  - assert (Ha' : single_blanks a) by (intros p' q' E'; apply (Ha (x :: p') q'); rewrite E'; reflexivity).
    destruct p as [|y p]; cbn [app] in E; injection E as -> E.
    + destruct a as [|y a]; cbn [app] in E; injection E as -> E; [congruence|]. apply (Ha [] a). reflexivity.
    + apply (IH c b Ha' Hb Hc p q). exact E.
Qed.
Lemma no_blank_single : forall t, ~ In 32 t -> single_blanks t.
Proof. intros t H a b E. apply H. rewrite E. apply in_or_app. right. left. reflexivity. Qed.
Lemma join_no : forall (x : N) l, x <> COMMA_CH -> Forall (fun t => ~ In x t) l -> ~ In x (join [COMMA_CH] l).
Proof.
  intros x l N. induction l as [|a l IH]; intros H; [intros []|]. inversion H; subst. destruct l as [|b l]; [assumption|].
  change (join [COMMA_CH] (a :: b :: l)) with (a ++ [COMMA_CH] ++ join [COMMA_CH] (b :: l)). intros K.
  apply in_app_or in K. destruct K as [K|K]; [contradiction|]. apply in_app_or in K. destruct K as [[K|[]]|K]; [congruence|]. exact (IH H3 K).
Qed.
Lemma in_str_none : forall c x, (x = 10 \/ x = 13 \/ x = 32) -> ~ In x (in_str c).
Proof.
  intros c x H K. assert (F : existsb (fun x => (x =? 10) || (x =? 13) || (x =? 32)) (in_str c) = false) by (destruct c; vm_compute; reflexivity).
  assert (T : existsb (fun x => (x =? 10) || (x =? 13) || (x =? 32)) (in_str c) = true); [|congruence].
  apply existsb_exists. exists x. split; [exact K|]. destruct H as [->|[->| ->]]; reflexivity.
Qed.
Lemma att_str_none : forall c x, (x = 10 \/ x = 13 \/ x = 32) -> ~ In x (att_str c).
Proof.
  intros c x H K. assert (F : existsb (fun x => (x =? 10) || (x =? 13) || (x =? 32)) (att_str c) = false) by (destruct c; vm_compute; reflexivity).
  assert (T : existsb (fun x => (x =? 10) || (x =? 13) || (x =? 32)) (att_str c) = true); [|congruence].
  apply existsb_exists. exists x. split; [exact K|]. destruct H as [->|[->| ->]]; reflexivity.
Qed.
Lemma iset_str_none : forall s x, (x = 10 \/ x = 13 \/ x = 32) -> ~ In x (iset_str s).
Proof.
  intros s x H. apply join_no; [destruct H as [->|[->| ->]]; discriminate|]. apply Forall_forall. intros t Ht. apply in_map_iff in Ht.
  destruct Ht as (c & <- & _). apply in_str_none. exact H.
Qed.
Lemma aset_str_none : forall s x, (x = 10 \/ x = 13 \/ x = 32) -> ~ In x (aset_str s).
Proof.
  intros s x H. apply join_no; [destruct H as [->|[->| ->]]; discriminate|]. apply Forall_forall. intros t Ht. apply in_map_iff in Ht.
  destruct Ht as (c & <- & _). apply att_str_none. exact H.
Qed.
Lemma not_in_app : forall (x : N) a c b, ~ In x a -> x <> c -> ~ In x b -> ~ In x (a ++ c :: b).
Proof. intros x a c b H1 H2 H3 K. apply in_app_or in K. destruct K as [K|[K|K]]; [contradiction|congruence|contradiction]. Qed.
Lemma printed_line : forall e loc le, printable e loc le -> one_line (lexentry_str le) /\ single_blanks (lexentry_str le).
Proof.
  intros e loc le (H1 & H2 & H3 & H4 & H5 & H6 & _).
  change (lexentry_str le) with (s2t "LEXENTRY:" ++ TAB :: le_word le ++ TAB :: le_std le ++ TAB :: iset_str (le_type le) ++ TAB :: aset_str (le_att le)).
  split.
  - unfold one_line. repeat (apply not_in_app; [|discriminate|]); try assumption.
    + vm_compute. intros K. repeat (destruct K as [K|K]; [discriminate|]). exact K.
    + apply iset_str_none. auto.
    + apply aset_str_none. auto.
  - repeat (apply single_app; [| |discriminate]); try assumption; apply no_blank_single.
    + vm_compute. intros K. repeat (destruct K as [K|K]; [discriminate|]). exact K.
    + apply iset_str_none. auto.
    + apply aset_str_none. auto.
Qed.
Lemma printed_entry : forall e loc cnt le, printable e loc le -> entry_line e loc cnt (lexentry_str le) = Ok (Some le, lexentry_str le).
Proof.
  intros e loc cnt le P. destruct (printed_line _ _ _ P) as (_ & S). destruct P as (H1 & H2 & _ & _ & _ & _ & H7 & H8 & H9 & (S1 & S2)).
  unfold entry_line. rewrite (squeeze_id _ S).
  assert (Q : has_prefix (s2t "LEXENTRY:") (lexentry_str le) = true) by (apply has_prefix_iff; eexists; reflexivity).
  rewrite Q. cbn [orb]. rewrite S1. replace (match loc with [] => lexentry_str le | _ :: _ => e_upper e loc (lexentry_str le) end) with (lexentry_str le)
    by (destruct loc; [reflexivity|symmetry; apply S2; discriminate]).
  rewrite (lexentry_round le H1 H2 H7 H8).
  assert (B : le_in_class le I_BADTOKEN = false).
  { unfold le_in_class. destruct (iset_mem I_BADTOKEN (le_type le)) eqn:E; [|reflexivity]. apply iset_mem_in in E. contradiction. }
  rewrite B. unfold lexentry_str at 1. reflexivity.
Qed.
Lemma body_printed : forall e es cnt x, Forall (printable e (x_locale x)) es -> body e cnt (map lexentry_str es) x = Ok (run x (map Ins es)).
Proof.
  intros e. induction es as [|le es IH]; intros cnt x F; [reflexivity|]. inversion F as [|? ? P F']; subst. cbn [map body].
  rewrite printed_entry by exact P. cbn [obind fst snd ins1]. rewrite IH; [reflexivity|]. exact (eq_ind_r (fun l => Forall (printable e l) es) F' (ins_locale (Some le) x)).
Qed.
Lemma insert_same : forall x y e, x_lex x = x_lex y -> x_lex (lex_insert x e) = x_lex (lex_insert y e).
Proof. intros x y e H. unfold lex_insert, lex_find. rewrite H. destruct (existsb _ _); [exact H|reflexivity]. Qed.
Lemma run_ins_same : forall es x y, x_lex x = x_lex y -> x_lex (run x (map Ins es)) = x_lex (run y (map Ins es)).
Proof. induction es as [|e es IH]; intros x y H; [exact H|]. cbn [map run fold_left step]. apply IH, insert_same, H. Qed.
Lemma run_ins_meta : forall es x, x_name (run x (map Ins es)) = x_name x /\ x_lang (run x (map Ins es)) = x_lang x /\ x_locale (run x (map Ins es)) = x_locale x.
Proof.
  induction es as [|e es IH]; intros x; [repeat split; reflexivity|]. cbn [map run fold_left step]. destruct (IH (lex_insert x e)) as (I1 & I2 & I3).
  unfold run in *. rewrite I1, I2, I3. pose proof (ins_locale (Some e) x). pose proof (ins_meta (Some e) x). simpl in *. tauto.
Qed.
Lemma lexicon_lines : forall x, lexicon_str x =
  file ((s2t "LEXICON:" ++ TAB :: x_name x ++ TAB :: s2t (lang_code (x_lang x)) ++ TAB :: x_locale x ++ TAB :: dec_text (N.of_nat (List.length (x_lex x))))
    :: map lexentry_str (concat (map snd (x_lex x)))) [].
Proof.
  intros x. rewrite file_cons. unfold lexicon_str. rewrite <- !app_assoc. cbn [app]. do 1 f_equal.
  rewrite <- ?app_assoc. cbn [app]. repeat (f_equal; rewrite <- ?app_assoc; cbn [app]).
  unfold file. rewrite app_nil_r. induction (x_lex x) as [|kv l IH]; [reflexivity|]. cbn [map concat]. rewrite IH, map_app, map_app, concat_app. f_equal.
  rewrite map_map. reflexivity.
Qed.
Lemma dec_text_none : forall n x, (x = 9 \/ x = 10 \/ x = 13) -> ~ In x (dec_text n).
Proof.
  intros n x Hx. unfold dec_text. generalize (S (N.to_nat (N.log2 n))) as f. intros f. revert n.
  induction f as [|f IH]; intros n; cbn [dec_digits]; [intros []|]. intros K. apply in_app_or in K. destruct K as [K|[K|[]]].
  - destruct (n <? 10); [destruct K|exact (IH _ K)].
  - clear - K Hx. generalize dependent (n mod 10). intros m K. lia.
Qed.
Lemma lang_code_none : forall l x, (x = 9 \/ x = 10 \/ x = 13) -> ~ In x (s2t (lang_code l)).
Proof.
  intros l x H K. assert (F : existsb (fun x => (x =? 9) || (x =? 10) || (x =? 13)) (s2t (lang_code l)) = false) by (destruct l; vm_compute; reflexivity).
  assert (T : existsb (fun x => (x =? 9) || (x =? 10) || (x =? 13)) (s2t (lang_code l)) = true); [|congruence].
  apply existsb_exists. exists x. split; [exact K|]. destruct H as [->|[->| ->]]; reflexivity.
Qed.
Lemma header_parts : forall n lg loc c, no_tab n -> no_tab lg -> no_tab loc ->
  header_fields (s2t "LEXICON:" ++ TAB :: n ++ TAB :: lg ++ TAB :: loc ++ TAB :: c) = (s2t "LEXICON:", lg, loc).
Proof.
  intros n lg loc c H1 H2 H3. unfold header_fields.
  rewrite getline_field by (vm_compute; intros K; repeat (destruct K as [K|K]; [discriminate|]); exact K).
  rewrite getline_field by exact H1. rewrite getline_field by exact H2. rewrite getline_field by exact H3. reflexivity.
Qed.
Lemma in_map_find : forall x le, lex_wf (x_lex x) -> In le (concat (map snd (x_lex x))) -> In le (lex_find x (le_word le)).
Proof.
  intros x le W H. pose proof (filter_words (x_lex x) (le_word le) W) as F. unfold lex_find. rewrite <- F.
  apply filter_In. split; [exact H|apply teqb_refl].
Qed.
Lemma print_load : forall e name n h x, x_lex x = x_lex (run (new_lexicon n) h) ->
  no_tab (x_name x) -> one_line (x_name x) -> no_tab (x_locale x) -> one_line (x_locale x) ->
  (forall w le, In le (lex_find x w) -> printable e (x_locale x) le) ->
  exists y, load_lexicon e name (lexicon_str x) = Ok y /\ x_lang y = x_lang x /\ x_locale y = x_locale x /\
    forall w, lex_find y w = lex_find x w.
Proof.
  intros e name n h x R N1 N2 N3 N4 P. assert (W : lex_wf (x_lex x)) by (rewrite R; apply run_wf, new_wf).
  set (es := concat (map snd (x_lex x))).
  assert (F : Forall (printable e (x_locale x)) es) by (apply Forall_forall; intros le Hle; eapply P; apply in_map_find; eassumption).
  rewrite lexicon_lines. fold es. set (hd := _ ++ TAB :: _).
  assert (T : ~ In 9 (s2t (lang_code (x_lang x)))) by (apply lang_code_none; auto).
  assert (O1 : one_line hd).
  { unfold hd, one_line. repeat (apply not_in_app; [|discriminate|]); try assumption.
    - vm_compute. intros K. repeat (destruct K as [K|K]; [discriminate|]). exact K.
    - apply lang_code_none; auto.
    - apply dec_text_none; auto. }
  assert (O2 : Forall one_line (map lexentry_str es)).
  { apply Forall_map. eapply Forall_impl; [|exact F]. intros le Hle. apply (printed_line _ _ _ Hle). }
  rewrite load_file; [|exact O1|exact O2|intros []].
  assert (B : lex_strip_bom hd = Ok hd) by reflexivity. rewrite B. cbn [obind].
  assert (HP : has_prefix (s2t "LEXICON:") hd = true) by (apply has_prefix_iff; eexists; reflexivity).
  assert (FH : find_header hd hd 1 (map lexentry_str es) = Found (map lexentry_str es) hd hd 1) by (destruct (map lexentry_str es); cbn [find_header]; rewrite HP; reflexivity).
  rewrite FH. unfold start_body, hd. rewrite header_parts by assumption. rewrite teqb_refl. cbn [orb]. unfold read_body.
  rewrite lang_code_ok. set (x0 := mkLex name (x_lang x) (x_locale x) [] [] [] [] []).
  rewrite (body_printed e es _ x0) by exact F. cbn [obind tail_line fst snd].
  destruct (run_ins_meta es x0) as (_ & M2 & M3). eexists. split; [reflexivity|]. cbn [x_lang x_locale].
  split; [exact M2|]. split; [exact M3|]. intros w. unfold lex_find at 1. cbn [x_lex].
  rewrite (run_ins_same es x0 (new_lexicon n)) by reflexivity.
  change (lex_find (run (new_lexicon n) (ins_all es)) w = lex_find x w).
  rewrite (ins_all_find es n w) by (apply NoDup_concat_words; exact W). apply filter_words. exact W.
Qed.

(** ** The last line *)
Lemma find_header_snoc : forall ls line acc cnt r, find_header line acc cnt (ls ++ [r]) =
  match find_header line acc cnt ls with
  | Found ls' h a c => Found (ls' ++ [r]) h a c
  | Order => Order
  | AtEnd _ a c => find_header r (a ++ r) (c + 1) []
  end.
Proof.
  induction ls as [|l ls IH]; intros line acc cnt r; cbn [find_header app]; (destruct (has_prefix (s2t "LEXICON:") line); [reflexivity|]);
    (destruct (has_prefix (s2t "LEXENTRY:") line); [reflexivity|]); [reflexivity|apply IH].
Qed.
Lemma body_snoc : forall e ls cnt r x, body e cnt (ls ++ [r]) x =
  obind (body e cnt ls x) (fun x1 => body e (cnt + N.of_nat (List.length ls)) [r] x1).
Proof.
  intros e. induction ls as [|l ls IH]; intros cnt r x.
  - cbn [app body obind List.length N.of_nat]. rewrite N.add_0_r. reflexivity.
  - cbn [app body]. destruct (entry_line e (x_locale x) (cnt + 1) l) as [q|m|]; cbn [obind]; [|reflexivity|reflexivity].
    rewrite IH. replace (cnt + 1 + N.of_nat (List.length ls)) with (cnt + N.of_nat (List.length (l :: ls))) by (cbn [List.length]; lia). reflexivity.
Qed.
Lemma body_locale : forall e ls cnt x y, body e cnt ls x = Ok y -> x_locale y = x_locale x.
Proof.
  intros e. induction ls as [|l ls IH]; intros cnt x y H; cbn [body] in H; [injection H as <-; reflexivity|].
  destruct (entry_line _ _ _ _) as [q|m|]; cbn [obind] in H; try discriminate. rewrite (IH _ _ _ H). apply ins_locale.
Qed.
Lemma body_wf : forall e ls cnt x y, body e cnt ls x = Ok y -> lex_wf (x_lex x) -> lex_wf (x_lex y).
Proof.
  intros e. induction ls as [|l ls IH]; intros cnt x y H W; cbn [body] in H; [injection H as <-; exact W|].
  destruct (entry_line _ _ _ _) as [q|m|]; cbn [obind] in H; try discriminate. apply (IH _ _ _ H).
  destruct (fst q); [apply insert_wf|]; exact W.
Qed.
Lemma insert_again : forall x e, lex_wf (x_lex x) -> lex_insert (lex_insert x e) e = lex_insert x e.
Proof.
  intros x e W. unfold lex_insert at 1. assert (I : In e (lex_find (lex_insert x e) (le_word e))).
  { rewrite find_insert by exact W. rewrite teqb_refl. destruct (in_dec _ _ _); [assumption|apply in_or_app; right; left; reflexivity]. }
  apply le_mem in I. rewrite I. reflexivity.
Qed.
Lemma squeeze_single : forall t, single_blanks (squeeze t).
Proof.
  induction t as [|c t IH]; intros a b E; [destruct a; discriminate|]. cbn [squeeze] in E. destruct t as [|d t].
  - destruct a as [|? a]; [discriminate|]. injection E as _ E. destruct a; discriminate.
  - destruct ((c =? SP) && (d =? SP)) eqn:Q; [exact (IH a b E)|]. destruct a as [|y a]; cbn [app] in E; [|injection E as _ E; exact (IH a b E)].
    injection E as -> E. change (32 =? SP) with true in Q. cbn [andb] in Q.
    destruct (N.eqb_spec d SP) as [->|Nd]; [discriminate|]. cbn [squeeze] in E. destruct t as [|f t]; [injection E as ->; apply Nd; reflexivity|].
    destruct ((d =? SP) && (f =? SP)) eqn:Q2; [apply andb_true_iff in Q2; destruct Q2 as (Q2 & _); apply N.eqb_eq in Q2; contradiction|].
    injection E as -> _. apply Nd. reflexivity.
Qed.
Lemma squeeze_nil : forall t, squeeze t = [] -> t = [].
Proof.
  induction t as [|c t IH]; [reflexivity|]. cbn [squeeze]. destruct t as [|d t]; [discriminate|]. destruct (_ && _); [|discriminate].
  intros H. apply IH in H. discriminate.
Qed.
Lemma mark_iff : forall t, has_prefix (s2t "LEXENTRY:") t || has_prefix (s2t "LexEntry:") t = true <-> entry_mark t.
Proof. intros t. rewrite orb_true_iff, !has_prefix_iff. reflexivity. Qed.
Lemma begins_ne : forall w t, w <> [] -> begins w t -> t <> [].
Proof. intros w t N (r & ->). destruct w; [congruence|discriminate]. Qed.
Lemma mark_ne : forall t, entry_mark t -> t <> [].
Proof. intros t [H|H]; revert H; apply begins_ne; discriminate. Qed.
(** What an accepted line gives. *)
Lemma entry_ok : forall e loc cnt raw q, entry_line e loc cnt raw = Ok q ->
  (raw = [] /\ q = (None, [])) \/
  (entry_mark (squeeze raw) /\ let n := norm e loc (squeeze raw) in ~ In I_BADTOKEN (le_type (lexentry_of_line n)) /\ q = (Some (lexentry_of_line n), n)).
Proof.
  intros e loc cnt raw q. unfold entry_line. destruct (squeeze raw) as [|c l] eqn:S.
  - intros H. injection H as <-. left. split; [apply squeeze_nil; exact S|reflexivity].
  - destruct (_ || _) eqn:M; [|discriminate]. apply mark_iff in M. cbv zeta.
    change (match loc with [] => e_nfc e (c :: l) | _ :: _ => e_upper e loc (e_nfc e (c :: l)) end) with (norm e loc (c :: l)).
    destruct (le_in_class _ _) eqn:B; [discriminate|]. intros H. injection H as <-. right. split; [exact M|]. split; [|reflexivity].
    intros K. apply iset_mem_in in K. unfold le_in_class in B. congruence.
Qed.
Lemma entry_intro : forall e loc cnt raw, entry_mark (squeeze raw) -> let n := norm e loc (squeeze raw) in
  ~ In I_BADTOKEN (le_type (lexentry_of_line n)) -> entry_line e loc cnt raw = Ok (Some (lexentry_of_line n), n).
Proof.
  intros e loc cnt raw M n B. unfold entry_line. destruct (squeeze raw) as [|c l] eqn:S; [exfalso; exact (mark_ne _ M eq_refl)|].
  apply mark_iff in M. rewrite M. cbv zeta.
  change (match loc with [] => e_nfc e (c :: l) | _ :: _ => e_upper e loc (e_nfc e (c :: l)) end) with (norm e loc (c :: l)).
  fold n. destruct (le_in_class (lexentry_of_line n) I_BADTOKEN) eqn:Q; [|reflexivity]. apply iset_mem_in in Q. contradiction.
Qed.
Lemma tail_again : forall e cnt r x, steady e (x_locale x) -> lex_wf (x_lex x) ->
  obind (tail_line e cnt r x) (fun q => Ok (snd q)) = body e cnt [r] x.
Proof.
  intros e cnt r x S W. destruct r as [|c r]; [reflexivity|]. cbn [tail_line body].
  destruct (entry_line e (x_locale x) (cnt + 1) (c :: r)) as [q|m|] eqn:E; cbn [obind]; [|reflexivity|reflexivity].
  apply entry_ok in E. destruct E as [(E & _)|(M & B & ->)]; [discriminate|]. cbn [fst snd].
  destruct (S _ (squeeze_single (c :: r)) M) as (S1 & S2 & S3). set (n := norm e (x_locale x) (squeeze (c :: r))) in *.
  assert (Q : squeeze n = n) by (apply squeeze_id; exact S1).
  pose proof (entry_intro e (x_locale x) (cnt + 2) n) as I. cbv zeta in I. rewrite Q, S3 in I. rewrite (I S2 B). cbn [obind fst snd ins1].
  rewrite insert_again by exact W. reflexivity.
Qed.
Lemma same_refl : forall x y, x_name x = x_name y -> x_lang x = x_lang y -> x_locale x = x_locale y -> x_lex x = x_lex y -> same_lexicon x y.
Proof. intros x y H1 H2 H3 H4. repeat split; try assumption. intros w. unfold lex_find. rewrite H4. reflexivity. Qed.
Lemma result_refl : forall a, same_result a a.
Proof. intros [x|m|]; cbn; auto. apply same_refl; reflexivity. Qed.
Lemma start_same : forall e name h acc acc' c rd rd',
  (forall x, lex_wf (x_lex x) -> obind (rd x) (fun q => Ok (snd q)) = obind (rd' x) (fun q => Ok (snd q))) ->
  same_result (start_body e name h acc c rd) (start_body e name h acc' c rd').
Proof.
  intros e name h acc acc' c rd rd' H. unfold start_body. destruct (header_fields h) as [[t1 t3] loc]. destruct (_ || _); [|reflexivity].
  assert (W : lex_wf (x_lex (mkLex name (as_lang t3) loc [] [] [] [] []))) by (split; constructor).
  specialize (H _ W). destruct (rd _) as [q|m|], (rd' _) as [q'|m'|]; cbn [obind] in *; try discriminate; try exact I.
  - injection H as H. cbn. rewrite H. apply same_refl; reflexivity.
  - injection H as ->. reflexivity.
Qed.
Lemma start_throw : forall e name h acc c rd, (forall x, exists m, rd x = Throw m) -> exists m, start_body e name h acc c rd = Throw m.
Proof.
  intros e name h acc c rd H. unfold start_body. destruct (header_fields h) as [[t1 t3] loc]. destruct (_ || _); [|eexists; reflexivity].
  destruct (H (mkLex name (as_lang t3) loc [] [] [] [] [])) as (m & ->). eexists. reflexivity.
Qed.
Lemma start_locale : forall e name h acc acc' c rd rd',
  (forall x, lex_wf (x_lex x) -> x_locale x = snd (header_fields h) -> obind (rd x) (fun q => Ok (snd q)) = obind (rd' x) (fun q => Ok (snd q))) ->
  same_result (start_body e name h acc c rd) (start_body e name h acc' c rd').
Proof.
  intros e name h acc acc' c rd rd' H. unfold start_body. destruct (header_fields h) as [[t1 t3] loc]. destruct (_ || _); [|reflexivity].
  assert (W : lex_wf (x_lex (mkLex name (as_lang t3) loc [] [] [] [] []))) by (split; constructor).
  specialize (H _ W eq_refl). destruct (rd _) as [q|m|], (rd' _) as [q'|m'|]; cbn [obind] in *; try discriminate; try exact I.
  - injection H as H. cbn. rewrite H. apply same_refl; reflexivity.
  - injection H as ->. reflexivity.
Qed.
Lemma strip_ok : forall l line, lex_strip_bom l = Ok line -> (is_header l \/ (forall t, l <> 0xFEFF :: t)) -> line = l.
Proof.
  intros l line H Q. assert (N : forall t, l <> 0xFEFF :: t).
  { destruct Q as [(t & ->)|Q]; [discriminate|exact Q]. }
  destruct l as [|c l]; cbn [lex_strip_bom] in H; [congruence|]. destruct (N.eqb_spec c BOM) as [->|Nc]; [exfalso; apply (N l); reflexivity|congruence].
Qed.
Lemma find_header_some : forall ls line acc cnt, (exists h, In h (line :: ls) /\ is_header h) ->
  forall l a c, find_header line acc cnt ls <> AtEnd l a c.
Proof.
  induction ls as [|l ls IH]; intros line acc cnt (h & Hin & Hh) l1 a c; cbn [find_header]; destruct (has_prefix (s2t "LEXICON:") line) eqn:E; try discriminate.
  - destruct Hin as [->|[]]. apply has_prefix_iff in Hh. congruence.
  - destruct (has_prefix (s2t "LEXENTRY:") line); [discriminate|]. apply IH. exists h. split; [|exact Hh].
    destruct Hin as [->|Hin]; [|exact Hin]. apply has_prefix_iff in Hh. congruence.
Qed.
Lemma read_tail : forall e cnt ls r x, steady e (x_locale x) -> lex_wf (x_lex x) ->
  obind (read_body e cnt ls r x) (fun q => Ok (snd q)) = obind (read_body e cnt (ls ++ [r]) [] x) (fun q => Ok (snd q)).
Proof.
  intros e cnt ls r x S W. unfold read_body. rewrite body_snoc. destruct (body e cnt ls x) as [x1|m|] eqn:E; cbn [obind]; [|reflexivity|reflexivity].
  assert (W1 := body_wf _ _ _ _ _ E W). assert (L1 := body_locale _ _ _ _ _ E). rewrite <- L1 in S.
  rewrite <- (tail_again e _ r x1 S W1). destruct (tail_line _ _ r x1) as [q|m|]; reflexivity.
Qed.
Lemma squeeze_app : forall a c b, c <> 32 -> squeeze (a ++ c :: b) = squeeze a ++ squeeze (c :: b).
Proof.
  induction a as [|x a IH]; intros c b N; [reflexivity|]. cbn [app]. destruct a as [|y a].
  - cbn [app]. change (squeeze (x :: c :: b)) with (if (x =? SP) && (c =? SP) then squeeze (c :: b) else x :: squeeze (c :: b)).
    replace (c =? SP) with false by (symmetry; apply N.eqb_neq; exact N). rewrite andb_false_r. reflexivity.
  - cbn [app]. change (squeeze (x :: y :: a ++ c :: b)) with (if (x =? SP) && (y =? SP) then squeeze (y :: a ++ c :: b) else x :: squeeze (y :: a ++ c :: b)).
    change (squeeze (x :: y :: a)) with (if (x =? SP) && (y =? SP) then squeeze (y :: a) else x :: squeeze (y :: a)).
    change (y :: a ++ c :: b) with ((y :: a) ++ c :: b). rewrite (IH c b N). destruct (_ && _); reflexivity.
Qed.
Lemma lone_throws : forall e cnt r x, is_header r -> exists m, lone_header e cnt r x = Throw m.
Proof.
  intros e cnt r x (t & ->). unfold lone_header, entry_line.
  assert (Q : squeeze (s2t "LEXICON:" ++ t) = s2t "LEXICON" ++ squeeze (58 :: t)) by (change (s2t "LEXICON:" ++ t) with (s2t "LEXICON" ++ 58 :: t); apply squeeze_app; discriminate).
  rewrite Q. eexists. reflexivity.
Qed.
Lemma no_newline : forall e name ls r, (forall loc, steady e loc) -> Forall one_line ls -> one_line r -> r <> [] ->
  ((exists h, In h ls /\ is_header h) \/ (~ is_header r /\ forall t, r <> 0xFEFF :: t)) ->
  same_result (load_lexicon e name (file ls r)) (load_lexicon e name (file ls (r ++ [10]))).
Proof.
  intros e name ls r S F Hr N H. rewrite <- file_snoc. destruct ls as [|l ls].
  - destruct H as [(h & [] & _)|(H & B)]. unfold file at 1. cbn [map concat app].
    change (file [r] []) with (file (r :: []) []). rewrite load_file; [|exact Hr|constructor|intros []].
    unfold load_lexicon. rewrite getline_tail by assumption.
    destruct (lex_strip_bom r) as [line|m|] eqn:Q; cbn [obind]; [|reflexivity|reflexivity].
    rewrite (strip_ok r line Q (or_intror B)) in *. cbn [find_header].
    assert (HP : has_prefix (s2t "LEXICON:") r = false).
    { destruct (has_prefix (s2t "LEXICON:") r) eqn:E; [|reflexivity]. apply has_prefix_iff in E. contradiction. }
    destruct (List.length r + 3)%nat as [|[|f]] eqn:Ef; [lia|lia|]. cbn [skip_header s_fail]. rewrite HP.
    destruct (has_prefix (s2t "LEXENTRY:") r); [reflexivity|]. reflexivity.
  - inversion F as [|? ? F1 F2]; subst. change ((l :: ls) ++ [r]) with (l :: (ls ++ [r])).
    rewrite !load_file; try assumption; [|apply Forall_app; split; [assumption|constructor; [assumption|constructor]]|intros []].
    destruct (lex_strip_bom l) as [line|m|] eqn:Q; cbn [obind]; [|reflexivity|reflexivity].
    rewrite find_header_snoc. destruct (find_header line l 1 ls) as [ls' h a c| |h a c] eqn:E.
    + apply start_same. intros x W. apply read_tail; [apply S|exact W].
    + apply result_refl.
    + destruct H as [(h0 & H0 & Hh)|(H & _)].
      * exfalso. apply (find_header_some ls line l 1) with (l := h) (a := a) (c := c); [|exact E].
        exists h0. split; [|exact Hh]. destruct H0 as [->|H0]; [left|right; exact H0].
        apply (strip_ok _ _ Q). left. exact Hh.
      * assert (HP : has_prefix (s2t "LEXICON:") r = false).
        { destruct (has_prefix (s2t "LEXICON:") r) eqn:E1; [|reflexivity]. apply has_prefix_iff in E1. contradiction. }
        cbn [find_header]. rewrite HP. unfold at_end. rewrite HP. destruct r as [|r0 r]; [congruence|].
        destruct (has_prefix (s2t "LEXENTRY:") (r0 :: r)); cbn [obind]; apply result_refl.
Qed.
Lemma newline_refuted : exists t, (exists x, load_lexicon ascii_env [] (t ++ [10]) = Ok x) /\ exists m, load_lexicon ascii_env [] t = Throw m.
Proof.
  exists (s2t "LEXICON:" ++ [9] ++ s2t "x" ++ [9] ++ s2t "ENG" ++ [9] ++ s2t "en"). split; eexists; vm_compute; reflexivity.
Qed.

(** ** Byte order mark *)
Lemma find_header_acc : forall ls line acc acc' cnt,
  match find_header line acc cnt ls, find_header line acc' cnt ls with
  | Found a b _ d, Found a' b' _ d' => a = a' /\ b = b' /\ d = d'
  | Order, Order => True
  | AtEnd b _ d, AtEnd b' _ d' => d = d'
  | _, _ => False
  end.
Proof.
  induction ls as [|l ls IH]; intros line acc acc' cnt; cbn [find_header]; (destruct (has_prefix (s2t "LEXICON:") line); [auto|]);
    (destruct (has_prefix (s2t "LEXENTRY:") line); [auto|]); auto. apply IH.
Qed.
Lemma plain_next : forall line acc cnt l ls, ~ is_header line -> ~ is_entry line -> find_header line acc cnt (l :: ls) = find_header l (acc ++ l) (cnt + 1) ls.
Proof.
  intros line acc cnt l ls H1 H2. cbn [find_header]. unfold is_header, is_entry in *. rewrite <- has_prefix_iff in H1, H2.
  destruct (has_prefix (s2t "LEXICON:") line); [congruence|]. destruct (has_prefix (s2t "LEXENTRY:") line); [congruence|]. reflexivity.
Qed.
Lemma plain_end : forall line acc cnt, ~ is_header line -> ~ is_entry line -> find_header line acc cnt [] = AtEnd line acc cnt.
Proof.
  intros line acc cnt H1 H2. cbn [find_header]. unfold is_header, is_entry in *. rewrite <- has_prefix_iff in H1, H2.
  destruct (has_prefix (s2t "LEXICON:") line); [congruence|]. destruct (has_prefix (s2t "LEXENTRY:") line); [congruence|]. reflexivity.
Qed.
Lemma bom_ignored : forall e name d l ls r, d < 128 -> Forall one_line ((d :: l) :: ls) -> one_line r ->
  ~ is_header (d :: l) -> ~ is_entry (d :: l) -> ~ is_header l -> ~ is_entry l ->
  same_result (load_lexicon e name (0xFEFF :: file ((d :: l) :: ls) r)) (load_lexicon e name (file ((d :: l) :: ls) r)).
Proof.
  intros e name d l ls r Hd F Hr N1 N2 N3 N4. inversion F as [|? ? F1 F2]; subst.
  replace (0xFEFF :: file ((d :: l) :: ls) r) with (file ((0xFEFF :: d :: l) :: ls) r) by (rewrite !file_cons; reflexivity).
  assert (F1' : one_line (0xFEFF :: d :: l)) by (intros [K|K]; [discriminate|contradiction]).
  rewrite !load_file by assumption.
  assert (B1 : lex_strip_bom (0xFEFF :: d :: l) = Ok l).
  { cbn [lex_strip_bom]. change (0xFEFF =? BOM) with true. cbn. unfold utf8_len.
    replace (d <? 0x80) with true by (symmetry; apply N.ltb_lt; exact Hd). reflexivity. }
  assert (B2 : lex_strip_bom (d :: l) = Ok (d :: l)).
  { cbn [lex_strip_bom]. destruct (N.eqb_spec d BOM) as [->|_]; [exfalso; clear - Hd; unfold BOM in Hd; lia|reflexivity]. }
  rewrite B1, B2. cbn [obind].
  assert (M : match find_header l (0xFEFF :: d :: l) 1 ls, find_header (d :: l) (d :: l) 1 ls with
    | Found a b _ c, Found a' b' _ c' => a = a' /\ b = b' /\ c = c' | Order, Order => True | AtEnd b _ c, AtEnd b' _ c' => c = c' | _, _ => False end).
  { destruct ls as [|l1 ls]; [rewrite !plain_end by assumption; reflexivity|]. rewrite !plain_next by assumption. apply find_header_acc. }
  destruct (find_header l _ _ _) as [ls1 h1 a1 c1| |h1 a1 c1], (find_header (d :: l) _ _ _) as [ls2 h2 a2 c2| |h2 a2 c2]; try contradiction.
  - destruct M as (-> & -> & ->). apply start_same. reflexivity.
  - reflexivity.
  - subst c2. unfold at_end. destruct r as [|r0 r]; [reflexivity|]. destruct (has_prefix _ _); cbn [obind].
    + apply start_same. reflexivity.
    + destruct (has_prefix _ _); reflexivity.
Qed.
Lemma bom_refuted : exists t, (exists x, load_lexicon ascii_env [] t = Ok x) /\ exists m, load_lexicon ascii_env [] (0xFEFF :: t) = Throw m.
Proof.
  exists (s2t "LEXICON:" ++ [9] ++ s2t "x" ++ [9] ++ s2t "ENG" ++ [9] ++ s2t "en" ++ [10]). split; eexists; vm_compute; reflexivity.
Qed.

(** ** CR LF *)
Lemma crlf_file : forall ls r, crlf ls r = file (map (fun l => l ++ [13]) ls) r.
Proof.
  intros ls r. unfold crlf, file. f_equal. rewrite map_map. f_equal. apply map_ext. intros l. rewrite <- app_assoc. reflexivity.
Qed.
Lemma prefix_cr : forall w l, ~ In 13 w -> has_prefix w (l ++ [13]) = has_prefix w l.
Proof.
  unfold has_prefix. induction w as [|c w IH]; intros l H; [reflexivity|]. cbn [starts_with]. destruct l as [|d l]; cbn [app].
  - destruct (N.eqb_spec c 13) as [->|_]; [exfalso; apply H; left; reflexivity|reflexivity].
  - destruct (c =? d); [|reflexivity]. apply IH. intros K. apply H. right. exact K.
Qed.
Lemma no_cr : forall s, existsb (N.eqb 13) (s2t s) = false -> ~ In 13 (s2t s).
Proof. intros s H K. assert (existsb (N.eqb 13) (s2t s) = true) by (apply existsb_exists; exists 13; split; [exact K|reflexivity]). congruence. Qed.
Lemma find_header_cr : forall ls line acc acc' cnt,
  match find_header line acc cnt ls with
  | Found a b _ d => exists c', find_header (line ++ [13]) acc' cnt (map (fun l => l ++ [13]) ls) = Found (map (fun l => l ++ [13]) a) (b ++ [13]) c' d
  | Order => True
  | AtEnd b _ d => exists b' c', find_header (line ++ [13]) acc' cnt (map (fun l => l ++ [13]) ls) = AtEnd b' c' d
  end.
Proof.
  induction ls as [|l ls IH]; intros line acc acc' cnt; cbn [find_header map]; rewrite !prefix_cr by (apply no_cr; reflexivity);
    (destruct (has_prefix (s2t "LEXICON:") line); [eexists; reflexivity|]); (destruct (has_prefix (s2t "LEXENTRY:") line); [auto|]).
  - eexists. eexists. reflexivity.
  - apply IH.
Qed.
Lemma tab_split : forall t n, (S n <= tabs t)%nat -> exists a r, t = a ++ TAB :: r /\ no_tab a /\ (n <= tabs r)%nat.
Proof.
  unfold tabs. induction t as [|c t IH]; intros n H; cbn [count_occ] in H; [lia|]. destruct (N.eq_dec c 9) as [->|Nc].
  - exists [], t. split; [reflexivity|]. split; [intros []|lia].
  - destruct (IH n H) as (a & r & -> & Ha & Hr). exists (c :: a), r. split; [reflexivity|]. split; [|exact Hr]. intros [K|K]; [congruence|contradiction].
Qed.
Lemma header_cr : forall t, (4 <= tabs t)%nat -> header_fields (t ++ [13]) = header_fields t.
Proof.
  intros t H. destruct (tab_split t 3 H) as (a & t1 & -> & Ha & H1). destruct (tab_split t1 2 H1) as (b & t2 & -> & Hb & H2).
  destruct (tab_split t2 1 H2) as (c & t3 & -> & Hc & H3). destruct (tab_split t3 0 H3) as (d & t4 & -> & Hd & _).
  unfold header_fields. repeat (rewrite <- app_assoc; cbn [app]).
  repeat (rewrite !getline_field by assumption). reflexivity.
Qed.
Lemma entry_cr : forall t, (5 <= tabs t)%nat -> lexentry_of_line (t ++ [13]) = lexentry_of_line t.
Proof.
  intros t H. destruct (tab_split t 4 H) as (a & t1 & -> & Ha & H1). destruct (tab_split t1 3 H1) as (b & t2 & -> & Hb & H2).
  destruct (tab_split t2 2 H2) as (c & t3 & -> & Hc & H3). destruct (tab_split t3 1 H3) as (d & t4 & -> & Hd & H4).
  destruct (tab_split t4 0 H4) as (f & t5 & -> & Hf & _).
  unfold lexentry_of_line. repeat (rewrite <- app_assoc; cbn [app]). rewrite !getline_field by assumption.
  destruct (teqb a (s2t "LEXENTRY:")); repeat (rewrite !getline_field by assumption); reflexivity.
Qed.
Lemma squeeze_tabs : forall t, tabs (squeeze t) = tabs t.
Proof.
  unfold tabs. induction t as [|c t IH]; [reflexivity|]. cbn [squeeze]. destruct t as [|d t]; [reflexivity|].
  destruct ((c =? SP) && (d =? SP)) eqn:E.
  - rewrite IH. apply andb_true_iff in E. destruct E as (E & _). apply N.eqb_eq in E. subst c. cbn [count_occ]. reflexivity.
  - cbn [count_occ]. cbn [count_occ] in IH. rewrite IH. reflexivity.
Qed.
Lemma entry_line_cr : forall e loc cnt raw q, keeps_ends e loc -> (5 <= tabs raw)%nat -> entry_line e loc cnt raw = Ok q ->
  exists q', entry_line e loc cnt (raw ++ [13]) = Ok q' /\ fst q' = fst q.
Proof.
  intros e loc cnt raw q K T H. apply entry_ok in H. destruct H as [(-> & _)|(M & B & ->)]; [unfold tabs in T; simpl in T; lia|].
  destruct (K (squeeze raw)) as (K1 & K2).
  assert (Q : squeeze (raw ++ [13]) = squeeze raw ++ [13]) by (apply squeeze_app; discriminate).
  assert (E : lexentry_of_line (norm e loc (squeeze (raw ++ [13]))) = lexentry_of_line (norm e loc (squeeze raw))).
  { rewrite Q, K2. apply entry_cr. rewrite K1, squeeze_tabs. exact T. }
  eexists. split; [apply entry_intro|].
  - apply mark_iff. rewrite Q. rewrite !prefix_cr by (apply no_cr; reflexivity). apply mark_iff. exact M.
  - rewrite E. exact B.
  - cbn [fst]. rewrite E. reflexivity.
Qed.
Lemma body_cr : forall e ls cnt x y, keeps_ends e (x_locale x) -> Forall (fun l => (5 <= tabs l)%nat) ls -> body e cnt ls x = Ok y ->
  body e cnt (map (fun l => l ++ [13]) ls) x = Ok y.
Proof.
  intros e. induction ls as [|l ls IH]; intros cnt x y K F H; [exact H|]. inversion F as [|? ? F1 F2]; subst. cbn [map body] in *.
  destruct (entry_line e (x_locale x) (cnt + 1) l) as [q|m|] eqn:E; cbn [obind] in H; try discriminate.
  destruct (entry_line_cr _ _ _ _ _ K F1 E) as (q' & -> & Q). cbn [obind]. rewrite Q. apply IH; [rewrite ins_locale; exact K|exact F2|exact H].
Qed.
Lemma crlf_same : forall e name pre h es r y, (forall loc, keeps_ends e loc) -> Forall one_line (pre ++ h :: es) -> one_line r ->
  is_header h -> Forall (fun l => ~ is_header l) pre -> (forall l p, pre = l :: p -> forall t, l <> 0xFEFF :: t) ->
  (4 <= tabs h)%nat -> Forall (fun l => (5 <= tabs l)%nat) es ->
  load_lexicon e name (file (pre ++ h :: es) r) = Ok y ->
  exists z, load_lexicon e name (crlf (pre ++ h :: es) r) = Ok z /\ same_lexicon y z.
Proof.
  intros e name pre h es r y K F Hr Hh Fp NB Th Te H. rewrite crlf_file.
  assert (Q : exists l ls, pre ++ h :: es = l :: ls /\ lex_strip_bom l = Ok l /\ lex_strip_bom (l ++ [13]) = Ok (l ++ [13])).
  { destruct pre as [|p pre]; eexists; eexists; (split; [reflexivity|]).
    - destruct Hh as (t & ->). split; reflexivity.
    - pose proof (NB p pre eq_refl) as NB1. destruct p as [|c p]; [split; reflexivity|]. cbn [app lex_strip_bom].
      destruct (N.eqb_spec c BOM) as [->|_]; [exfalso; apply (NB1 p); reflexivity|split; reflexivity]. }
  destruct Q as (l & ls & Q & B1 & B2). rewrite Q in *. cbn [map].
  assert (F' : Forall one_line ((l ++ [13]) :: map (fun l => l ++ [13]) ls)).
  { change (Forall one_line (map (fun l => l ++ [13]) (l :: ls))). apply Forall_map. eapply Forall_impl; [|exact F]. intros a Ha X.
    apply in_app_or in X. destruct X as [X|[X|[]]]; [contradiction|discriminate]. }
  inversion F as [|? ? F1 F2]; subst. inversion F' as [|? ? F1' F2']; subst.
  rewrite load_file in H by assumption. rewrite load_file by assumption. rewrite B1 in H. rewrite B2. cbn [obind] in *.
  assert (G : forall pre' l0 ls0 acc cnt, pre' ++ h :: es = l0 :: ls0 -> Forall (fun l => ~ is_header l) pre' ->
    match find_header l0 acc cnt ls0 with Found a b _ _ => a = es /\ b = h | Order => True | AtEnd _ _ _ => False end).
  { clear - Hh. apply has_prefix_iff in Hh. induction pre' as [|p pre' IH]; intros l0 ls0 acc cnt E Fp; cbn [app] in E; injection E as <- <-.
    - destruct es; cbn [find_header]; rewrite Hh; split; reflexivity.
    - inversion Fp as [|? ? N Fp']; subst. unfold is_header in N. rewrite <- has_prefix_iff in N.
      destruct (pre' ++ h :: es) as [|l1 ls1] eqn:E1; [destruct pre'; discriminate|]. cbn [find_header].
      destruct (has_prefix (s2t "LEXICON:") p); [congruence|]. destruct (has_prefix (s2t "LEXENTRY:") p); [exact I|]. apply IH; [reflexivity|exact Fp']. }
  specialize (G pre l ls l 1 Q Fp). pose proof (find_header_cr ls l l (l ++ [13]) 1) as C.
  destruct (find_header l l 1 ls) as [a b ac c| |b ac c]; [|discriminate|contradiction]. destruct G as (-> & ->). destruct C as (ac' & ->).
  unfold start_body in *. rewrite header_cr by exact Th. destruct (header_fields h) as [[t1 t3] loc]. destruct (_ || _); [|discriminate].
  unfold read_body in *. rewrite map_length. set (x0 := mkLex name (as_lang t3) loc [] [] [] [] []) in *.
  destruct (body e (c + 1) es x0) as [x1|m|] eqn:E; cbn [obind] in H; try discriminate.
  rewrite (body_cr e es _ x0 x1) by (auto; apply K). cbn [obind].
  destruct (tail_line _ _ r x1) as [q|m|]; cbn [obind] in *; try discriminate. injection H as <-. eexists. split; [reflexivity|]. apply same_refl; reflexivity.
Qed.
Lemma crlf_refuted : exists ls, Forall one_line ls /\
  (exists x e, load_lexicon ascii_env [] (file ls []) = Ok x /\ lex_find x (s2t "GASSE") = [e] /\ le_att e = [ATT_SUF]) /\
  (exists y e, load_lexicon ascii_env [] (crlf ls []) = Ok y /\ lex_find y (s2t "GASSE") = [e] /\ le_att e = []).
Proof.
  exists [s2t "LEXICON:" ++ [9] ++ s2t "x" ++ [9] ++ s2t "GER" ++ [9] ++ s2t "de" ++ [9] ++ s2t "1";
          s2t "LEXENTRY:" ++ [9] ++ s2t "GASSE" ++ [9] ++ s2t "G" ++ [9] ++ s2t "TYPE" ++ [9] ++ s2t "ATT_SUF"].
  split; [repeat constructor; vm_compute; intros K; repeat (destruct K as [K|K]; [discriminate|]); exact K|].
  split; eexists; eexists; (split; [vm_compute; reflexivity|split; vm_compute; reflexivity]).
Qed.
(** Without attachments the type column is the last one, and the file is rejected. *)
Lemma crlf_rejected : exists ls, Forall one_line ls /\
  (exists x, load_lexicon ascii_env [] (file ls []) = Ok x) /\ (exists m, load_lexicon ascii_env [] (crlf ls []) = Throw m).
Proof.
  exists [s2t "LEXICON:" ++ [9] ++ s2t "x" ++ [9] ++ s2t "ENG" ++ [9] ++ s2t "en" ++ [9] ++ s2t "1";
          s2t "LEXENTRY:" ++ [9] ++ s2t "ST" ++ [9] ++ s2t "STREET" ++ [9] ++ s2t "TYPE"].
  split; [repeat constructor; vm_compute; intros K; repeat (destruct K as [K|K]; [discriminate|]); exact K|].
  split; eexists; vm_compute; reflexivity.
Qed.

(** ** The ASCII environment meets the hypotheses *)
Lemma a_up_blank : forall c, a_up c = 32 <-> c = 32.
Proof.
  intros c. unfold a_up, a_lower. destruct (_ && _) eqn:E; [|reflexivity]. apply andb_true_iff in E. destruct E as (E1 & E2).
  apply N.leb_le in E1. apply N.leb_le in E2. lia.
Qed.
Lemma a_up_tab : forall c, a_up c = 9 <-> c = 9.
Proof.
  intros c. unfold a_up, a_lower. destruct (_ && _) eqn:E; [|reflexivity]. apply andb_true_iff in E. destruct E as (E1 & E2).
  apply N.leb_le in E1. apply N.leb_le in E2. lia.
Qed.
Lemma a_up_twice : forall c, a_up (a_up c) = a_up c.
Proof.
  intros c. unfold a_up at 2 3. destruct (a_lower c) eqn:E; [|unfold a_up; rewrite E; reflexivity].
  unfold a_up. destruct (a_lower (c - 32)) eqn:E2; [|reflexivity]. unfold a_lower in *. rewrite andb_true_iff, !N.leb_le in *. lia.
Qed.
Lemma up_begins : forall w w' t, map a_up w = w' -> begins w t -> begins w' (map a_up t).
Proof. intros w w' t <- (r & ->). exists (map a_up r). apply map_app. Qed.
Lemma map_split2 : forall t a b, map a_up t = a ++ 32 :: 32 :: b -> exists a' b', t = a' ++ 32 :: 32 :: b'.
Proof.
  intros t a b H. apply map_eq_app in H. destruct H as (p & q & -> & _ & H). apply map_eq_cons in H. destruct H as (x & q1 & -> & Hx & H).
  apply map_eq_cons in H. destruct H as (y & q2 & -> & Hy & _). apply (proj1 (a_up_blank _)) in Hx. apply (proj1 (a_up_blank _)) in Hy. subst. exists p, q2. reflexivity.
Qed.
Lemma ascii_steady : forall loc, steady ascii_env loc.
Proof.
  intros loc t S M. destruct loc as [|c loc]; cbn [norm ascii_env e_nfc e_upper]; [auto|]. split; [|split].
  - intros a b E. apply map_split2 in E. destruct E as (a' & b' & E). exact (S a' b' E).
  - left. destruct M as [M|M]; revert M; apply up_begins; vm_compute; reflexivity.
  - rewrite map_map. apply map_ext. apply a_up_twice.
Qed.
Lemma ascii_ends : forall loc, keeps_ends ascii_env loc.
Proof.
  intros loc t. destruct loc as [|c loc]; cbn [norm ascii_env e_nfc e_upper]; [auto|]. split.
  - unfold tabs. induction t as [|d t IH]; [reflexivity|]. cbn [map count_occ]. pose proof (a_up_tab d) as T.
    destruct (N.eq_dec (a_up d) 9), (N.eq_dec d 9); try tauto. f_equal. exact IH.
  - rewrite map_app. reflexivity.
Qed.

(** ** A lexicon for the examples *)
Definition ex_src : list text :=
  [ s2t "A street type lexicon";
    s2t "LEXICON:" ++ [9] ++ s2t "demo" ++ [9] ++ s2t "ENG" ++ [9] ++ s2t "en_US" ++ [9] ++ s2t "3";
    s2t "LEXENTRY:" ++ [9] ++ s2t "st" ++ [9] ++ s2t "Street" ++ [9] ++ s2t "TYPE" ++ [9] ++ s2t "DET_SUF" ++ [9];
    s2t "LEXENTRY:" ++ [9] ++ s2t "ST" ++ [9] ++ s2t "SAINT" ++ [9] ++ s2t "WORD,STOPWORD" ++ [9] ++ [9];
    s2t "LexEntry:" ++ [9] ++ s2t "PO  BOX" ++ [9] ++ s2t "PO BOX" ++ [9] ++ s2t "BOXH" ++ [9] ++ [9] ].
Definition ex_st1 : lexentry := mkLE (s2t "ST") (s2t "STREET") [I_TYPE] [DET_SUF].
Definition ex_st2 : lexentry := mkLE (s2t "ST") (s2t "SAINT") [I_WORD; I_STOPWORD] [].
Definition ex_box : lexentry := mkLE (s2t "PO BOX") (s2t "PO BOX") [I_BOXH] [].
Definition ex_lex : lexicon := run (new_lexicon (s2t "demo")) [Ins ex_st1; Ins ex_box; Ins ex_st2].
Lemma ex_one_line : Forall one_line ex_src.
Proof. repeat constructor; vm_compute; intros K; repeat (destruct K as [K|K]; [discriminate|]); exact K. Qed.
Lemma ex_loads : exists x, load_lexicon ascii_env (s2t "demo") (file ex_src []) = Ok x /\
  lex_find x (s2t "ST") = [ex_st1; ex_st2] /\ lex_find x (s2t "PO BOX") = [ex_box] /\ x_locale x = s2t "en_US".
Proof. eexists. split; [vm_compute; reflexivity|]. repeat split; vm_compute; reflexivity. Qed.
Lemma ex_crlf : exists y z, load_lexicon ascii_env (s2t "demo") (file ex_src []) = Ok y /\
  load_lexicon ascii_env (s2t "demo") (crlf ex_src []) = Ok z /\ same_lexicon y z.
Proof.
  destruct ex_loads as (y & H & _). exists y.
  destruct (crlf_same ascii_env (s2t "demo") [nth 0 ex_src []] (nth 1 ex_src []) (skipn 2 ex_src) [] y) as (z & Z); try exact H.
  - apply ascii_ends.
  - exact ex_one_line.
  - intros [].
  - eexists. reflexivity.
  - constructor; [|constructor]. intros (t & K). discriminate.
  - intros l p E t. injection E as <- _. discriminate.
  - vm_compute. lia.
  - repeat constructor; vm_compute; lia.
  - exists z. tauto.
Qed.
Lemma no2 : forall t, (fix f (l : text) : bool := match l with a :: ((b :: _) as l') => ((a =? 32) && (b =? 32)) || f l' | _ => false end) t = false -> single_blanks t.
Proof.
  intros t H a b E. subst t. induction a as [|x a IH]; [cbn in H; discriminate|]. apply IH. cbn [app] in H.
  destruct (a ++ 32 :: 32 :: b) as [|y l] eqn:E; [destruct a; discriminate|]. apply orb_false_iff in H. exact (proj2 H).
Qed.
Lemma ex_printable : forall w le, In le (lex_find ex_lex w) -> printable ascii_env (s2t "en_US") le.
Proof.
  intros w le H. assert (K : In le [ex_st1; ex_box; ex_st2]).
  { apply (history [Ins ex_st1; Ins ex_box; Ins ex_st2] (s2t "demo") w) in H. destruct H as (_ & h1 & h2 & E & _).
    assert (I : In (Ins le) [Ins ex_st1; Ins ex_box; Ins ex_st2]) by (rewrite E; apply in_or_app; right; left; reflexivity).
    cbn [In] in *. destruct I as [I|[I|[I|[]]]]; injection I as ->; tauto. }
  cbn [In] in K. destruct K as [<-|[<-|[<-|[]]]]; unfold printable; cbn [ex_st1 ex_st2 ex_box le_word le_std le_type le_att];
    do 4 (split; [vm_compute; intros K; repeat (destruct K as [K|K]; [discriminate|]); exact K|]);
    do 2 (split; [apply no2; reflexivity|]); (split; [repeat constructor|]); (split; [repeat constructor|]);
    (split; [intros K; repeat (destruct K as [K|K]; [discriminate|]); exact K|]); (split; [reflexivity|intros _; vm_compute; reflexivity]).
Qed.
