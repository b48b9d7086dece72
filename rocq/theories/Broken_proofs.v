From Coq Require Import String List NArith ZArith Bool Lia.
From Verif Require Import Base_model Class_model Uni_model Token_model Rule_model Search_model Grammar_model Regex_model Trie_model Md5_model Lexicon_model Tokenizer_model Wrapper_model Archive_model CString_spec Archive_spec LexText_spec Broken_spec
  Search_proofs Class_proofs LexMap_proofs LexLoad_proofs Archive_proofs WrapperTop_proofs CString_proofs CStringAll_proofs Cut_proofs.
Import ListNotations.
Local Open Scope N_scope.

(** ** The length of the digest *)
Lemma hex_length : forall l, List.length (md5_hex l) = 32%nat.
Proof.
  intros l. unfold md5_hex, md_finalize. assert (F : m_final (md_update (md_init (repeat 0 64) (repeat 0 16)) l) = false).
  { unfold md_update. cbn zeta. destruct (Nat.leb _ _); [|reflexivity]. destruct (md_blocks _ _ _). reflexivity. }
  rewrite F. cbn zeta. generalize (m_state (md_update (md_update (md_update (md_init (repeat 0 64) (repeat 0 16)) l)
    (firstn (N.to_nat (if m_lo (md_update (md_init (repeat 0 64) (repeat 0 16)) l) / 8 mod 64 <? 56
      then 56 - m_lo (md_update (md_init (repeat 0 64) (repeat 0 16)) l) / 8 mod 64
      else 120 - m_lo (md_update (md_init (repeat 0 64) (repeat 0 16)) l) / 8 mod 64)) md_padding))
    (md_encode [m_lo (md_update (md_init (repeat 0 64) (repeat 0 16)) l); m_hi (md_update (md_init (repeat 0 64) (repeat 0 16)) l)]))).
  intros [a b c d]. reflexivity.
Qed.
Lemma load_digest : forall e name src x, load_lexicon e name src = Ok x -> List.length (x_md5 x) = 32%nat.
Proof.
  intros e name src x H. unfold load_lexicon in H. destruct (getline LF (open_stream src) []) as [is raw].
  destruct (lex_strip_bom raw) as [line|m|]; cbn [obind] in H; [|discriminate H|discriminate H].
  destruct (skip_header _ _ _ _ _) as [[[[is' hl] acc] cnt]|m|]; cbn [obind] in H; [|discriminate H|discriminate H].
  destruct (header_fields hl) as [[t1 t3] loc]. destruct (_ || _); [|discriminate H].
  destruct (read_entries _ _ _ _ _ _ _) as [r|m|]; cbn [obind] in H; [|discriminate H|discriminate H]. injection H as <-. cbn [x_md5]. apply hex_length.
Qed.
Definition warm (x : lexicon) : lexicon := snd (lex_suf (snd (lex_pre (snd (lex_regex x))))).
Lemma warm_digest : forall x, x_md5 (warm x) = x_md5 x.
Proof. intros x. pose proof (warm_same x) as H. cbn zeta in H. destruct H as (_ & _ & _ & _ & H). symmetry. exact H. Qed.
Lemma serialized : forall e src a, serialize_lexicon e src = Ok a ->
  exists x, load_lexicon e query_lex src = Ok x /\ a = save_archive lexicon_version (warm x) /\ ordered (warm x) /\ tail_of (x_md5 (warm x)) = 34%nat.
Proof.
  intros e src a H. unfold serialize_lexicon in H. destruct (load_lexicon e query_lex src) as [x|m|] eqn:L; cbn [obind] in H; [|discriminate H|discriminate H].
  injection H as <-. exists x. split; [reflexivity|]. split; [reflexivity|]. split.
  - eapply same_ordered; [exact (warm_same x)|]. eapply load_ordered. exact L.
  - unfold tail_of. rewrite warm_digest, (load_digest _ _ _ _ L). reflexivity.
Qed.

(** ** No line feed in a compiled lexicon *)
Lemma lf_print : printable no_lf.
Proof. intros c A B. unfold no_lf. lia. Qed.
Lemma span_no_lf : forall t, Forall no_lf (fst (span_to LF t)).
Proof.
  induction t as [|c t IH]; cbn [span_to]; [constructor|]. destruct (N.eqb_spec c LF) as [->|Q]; [constructor|]. destruct (span_to LF t) as [a r]. constructor; [exact Q|exact IH].
Qed.
Lemma line_no_lf : forall s old, Forall no_lf old -> Forall no_lf (snd (getline LF s old)).
Proof.
  intros s old H. unfold getline. destruct (s_eof s || s_fail s); [exact H|]. pose proof (span_no_lf (s_rest s)) as A. destruct (span_to LF (s_rest s)) as [a [r|]]; exact A.
Qed.
Lemma skip_no_lf : forall f is line acc n h, first_ok no_lf line -> skip_header f is line acc n = Ok h -> let '(_, hl, _, _) := h in Forall no_lf hl.
Proof.
  induction f as [|f IH]; intros is line acc n h L E; [discriminate E|]. cbn [skip_header] in E. destruct (s_fail is); [discriminate E|].
  destruct (has_prefix (s2t "LEXICON:") line) eqn:H.
  - injection E as <-. destruct L as [L|[t ->]]; [exact L|]. discriminate H.
  - destruct (has_prefix (s2t "LEXENTRY:") line); [discriminate E|].
    assert (G : first_ok no_lf (snd (getline LF is line))).
    { unfold getline. destruct (s_eof is || s_fail is); [exact L|]. left. pose proof (span_no_lf (s_rest is)) as A. destruct (span_to LF (s_rest is)) as [a [r|]]; exact A. }
    destruct (getline LF is line) as [is' line']. exact (IH _ _ _ _ _ G E).
Qed.
Lemma entries_no_lf : forall e, keeps no_lf e -> forall f is line acc n x r, Forall no_lf line -> x_ok no_lf x -> read_entries f e is line acc n x = Ok r -> x_ok no_lf (snd r).
Proof.
  intros e K. induction f as [|f IH]; intros is line acc n x r L X E; [discriminate E|]. cbn [read_entries] in E. destruct (s_fail is); [injection E as <-; exact X|].
  pose proof (line_no_lf is line L) as A. destruct (getline LF is line) as [is' raw]. cbn [snd] in A.
  pose proof (entry_ok no_lf lf_print e K (x_locale x) (n + 1) raw A) as Q. destruct (entry_line e (x_locale x) (n + 1) raw) as [[o l']|m|]; cbn [obind] in E; [|discriminate E|discriminate E].
  cbn [result_of fst snd] in *. apply (IH _ _ _ _ _ _ (proj2 Q)) in E; [exact E|]. destruct o; [apply insert_ok; [exact X|exact (proj1 Q)]|exact X].
Qed.
Lemma load_no_lf : forall e name src x, keeps no_lf e -> Forall no_lf name -> load_lexicon e name src = Ok x -> x_ok no_lf x.
Proof.
  intros e name src x K N0 H. unfold load_lexicon in H. pose proof (line_no_lf (open_stream src) [] (Forall_nil _)) as A.
  destruct (getline LF (open_stream src) []) as [is raw]. cbn [snd] in A. pose proof (bom_ok no_lf lf_print raw A) as B.
  destruct (lex_strip_bom raw) as [line|m|]; cbn [obind result_of] in *; [|discriminate H|discriminate H].
  destruct (skip_header _ _ _ _ _) as [[[[is' hl] acc] cnt]|m|] eqn:SK; cbn [obind] in H; [|discriminate H|discriminate H].
  pose proof (skip_no_lf _ _ _ _ _ _ B SK) as C. cbn beta iota in C. pose proof (fields_ok no_lf hl C) as F. destruct (header_fields hl) as [[t1 t3] loc]. cbn [snd] in F.
  destruct (_ || _); [|discriminate H].
  destruct (read_entries _ _ _ _ _ _ _) as [r|m|] eqn:RE; cbn [obind] in H; [|discriminate H|discriminate H]. injection H as <-.
  apply entries_no_lf in RE; [|exact K|exact C|repeat split; cbn; try constructor; assumption].
  destruct RE as (E1 & E2 & E3 & E4 & E5 & E6 & _). unfold x_ok. cbn [x_lex x_name x_locale x_regex x_pre x_suf x_md5]. repeat split; try assumption. apply ok_md5. exact lf_print.
Qed.
Lemma compiled_no_lf : forall e src a, keeps no_lf e -> serialize_lexicon e src = Ok a -> Forall no_lf a.
Proof.
  intros e src a K H. destruct (serialized e src a H) as (x & L & -> & _ & _). apply save_ok; [exact lf_print|].
  apply suf_ok, pre_ok, regex_ok; try exact lf_print. eapply load_no_lf; [exact K| |exact L]. apply ok_ascii; [exact lf_print|vm_compute; reflexivity].
Qed.

(** ** One line that is no header *)
Definition bad_file : text := s2t "Lexicon-Invalid-File-Format".
Lemma one_line_onto : forall e x p, Forall no_lf p -> match p with [] => True | c :: _ => is_digit c = true end -> load_onto e x p = Throw bad_file.
Proof.
  intros e x p L D. unfold load_onto. destruct p as [|c p].
  - change (getline LF (open_stream []) []) with (mkStream [] true true, @nil N). cbn [lex_strip_bom obind]. reflexivity.
  - assert (O : one_line (c :: p)) by (intros I0; exact (proj1 (Forall_forall _ _) L 10 I0 eq_refl)).
    rewrite getline_tail; [|exact O|discriminate]. assert (E : lex_strip_bom (c :: p) = Ok (c :: p)).
    { cbn [lex_strip_bom]. destruct (N.eqb_spec c BOM) as [->|Q]; [discriminate D|reflexivity]. }
    rewrite E. cbn [obind]. replace (List.length (c :: p) + 3)%nat with (S (S (List.length p + 2)))%nat by (cbn [List.length]; lia).
    assert (H : forall w, has_prefix (76 :: w) (c :: p) = false).
    { intros w. unfold has_prefix. cbn [starts_with]. destruct (N.eqb_spec 76 c) as [<-|Q]; [discriminate D|reflexivity]. }
    assert (S0 : skip_header (S (S (List.length p + 2))) (mkStream [] true false) (c :: p) (c :: p) 1 = Throw bad_file).
    { cbn [skip_header s_fail]. change (s2t "LEXICON:") with (76 :: s2t "EXICON:"). change (s2t "LEXENTRY:") with (76 :: s2t "EXENTRY:"). rewrite !H.
      unfold getline. cbn [s_eof s_fail orb s_rest]. cbn [skip_header s_fail]. reflexivity. }
    rewrite S0. reflexivity.
Qed.
Lemma archive_first : forall x p q, save_archive lexicon_version x = p ++ q -> match p with [] => True | c :: _ => is_digit c = true end.
Proof. intros x p q E. destruct p as [|c p]; [exact I|]. unfold save_archive in E. injection E as <- _. reflexivity. Qed.

Lemma cut_refused : forall e d src a p q, keeps no_lf e -> serialize_lexicon e src = Ok a -> a = p ++ q -> (34 < List.length q)%nat ->
  get_lexicon d p = Throw (s2t "Lexicon-Invalid-File-Format").
Proof.
  intros e d src a p q K S0 E L. pose proof (compiled_no_lf e src a K S0) as NL. destruct (serialized e src a S0) as (x & _ & A & O & T). rewrite A in E.
  assert (Q : q <> []) by (intros ->; cbn in L; lia). pose proof (archive_cut (warm x) p q O E Q) as C. rewrite T in C.
  destruct (Nat.leb_spec (List.length q) 34) as [Z|_]; [lia|]. destruct C as (m & C1 & C2). unfold get_lexicon. rewrite C1.
  destruct (teqb m recompile) eqn:R; [apply teqb_eq in R; contradiction|]. apply one_line_onto.
  - rewrite A, E in NL. apply Forall_app in NL. apply NL.
  - exact (archive_first _ _ _ E).
Qed.
Lemma cut_accepted : forall e d src a p q, serialize_lexicon e src = Ok a -> a = p ++ q -> (List.length q <= 34)%nat ->
  exists y z, get_lexicon d a = Ok y /\ get_lexicon d p = Ok z /\ same_but_digest y z.
Proof.
  intros e d src a p q S0 E L. destruct (serialized e src a S0) as (x & _ & A & O & T). exists (warm x).
  assert (Y : get_lexicon d a = Ok (warm x)) by (unfold get_lexicon; rewrite A, archive_round by exact O; reflexivity).
  destruct q as [|c q].
  - rewrite app_nil_r in E. subst p. exists (warm x). split; [exact Y|]. split; [exact Y|]. repeat split.
  - rewrite A in E. pose proof (archive_cut (warm x) p (c :: q) O E ltac:(discriminate)) as C. rewrite T in C.
    destruct (Nat.leb_spec (List.length (c :: q)) 34) as [_|Z]; [|lia]. destruct C as (v & C). exists (put_md5 v (warm x)).
    split; [exact Y|]. split; [unfold get_lexicon; rewrite C; reflexivity|]. repeat split.
Qed.

(** ** The same answers *)
Lemma same_answers : forall e g y z locale filt address, same_but_digest y z ->
  standardize_addr e g z locale filt address = standardize_addr e g y locale filt address /\
  parse_addr e z locale filt address = parse_addr e y locale filt address /\
  forall sort, match_addr e sort g z locale filt address = match_addr e sort g y locale filt address.
Proof.
  intros e g y z locale filt address (_ & _ & L & W & R & P & S0).
  assert (P3 : fst (lex_regex z) = fst (lex_regex y) /\ fst (lex_pre z) = fst (lex_pre y) /\ fst (lex_suf z) = fst (lex_suf y)).
  { unfold lex_regex, lex_pre, lex_suf. rewrite <- R, <- P, <- S0, <- W. destruct (x_regex y), (x_pre y), (x_suf y); auto. }
  assert (M := same_phrases e z y locale filt address (eq_sym W) (eq_sym L) P3). unfold standardize_addr, parse_addr, match_addr. rewrite M. split; [|split; reflexivity].
  destruct (make_phrases e y locale filt address) as [ph| |]; [|reflexivity|reflexivity]. cbn [obind].
  destruct (search_best g ph) as [b| |]; [|reflexivity|reflexivity]. cbn [obind]. rewrite (same_collect z y _ _ (eq_sym W)). reflexivity.
Qed.
Lemma cut_answers : forall e d atof src a p q address gr locale filt, serialize_lexicon e src = Ok a -> a = p ++ q -> (List.length q <= 34)%nat ->
  std_standardize d atof address gr p locale filt = std_standardize d atof address gr a locale filt /\
  std_parse_address d address p locale filt = std_parse_address d address a locale filt /\
  forall sort, std_match_address d atof sort address gr p locale filt = std_match_address d atof sort address gr a locale filt.
Proof.
  intros e d atof src a p q address gr locale filt S0 E L. destruct (cut_accepted e d src a p q S0 E L) as (y & z & Y & Z & SD).
  unfold std_standardize, std_parse_address, std_match_address. rewrite Y, Z. cbn [obind].
  split; [|split].
  - destruct (get_grammar d atof gr) as [g| |]; cbn [obind]; [|reflexivity|reflexivity]. apply same_answers. exact SD.
  - apply (same_answers d (mkGrammar [] [] []) y z). exact SD.
  - intros sort. destruct (get_grammar d atof gr) as [g| |]; cbn [obind]; [|reflexivity|reflexivity]. apply same_answers. exact SD.
Qed.

(** ** What an archive leaves *)
Definition put_all_entries (items : list (text * list lexentry)) (x : lexicon) : lexicon := fold_left (fun y kv => put_entries kv y) items x.
Lemma fills_all : forall n x st items st', get_all get_item n st = Ok (items, st') -> fill_all (fill get_item put_entries) n x st = (put_all_entries items x, Some st').
Proof.
  induction n as [|n IH]; intros x st items st' E; cbn [get_all fill_all] in *.
  - unfold rret in E. injection E as <- <-. reflexivity.
  - unfold rbind in E. unfold fill_then, fill. destruct (get_item st) as [[kv st1]|m|]; cbn [obind fst snd] in E; [|discriminate E|discriminate E].
    destruct (get_all get_item n st1) as [[l st2]|m|] eqn:G; cbn [obind fst snd] in E; [|discriminate E|discriminate E]. unfold rret in E. injection E as <- <-.
    change (fun y st0 => match get_item st0 with Ok (a, st'') => (put_entries a y, Some st'') | _ => (y, None) end) with (fill get_item put_entries).
    rewrite (IH (put_entries kv x) _ _ _ G). reflexivity.
Qed.
Lemma fills_items : forall x st items st', get_items get_item st = Ok (items, st') -> fill_items (fill get_item put_entries) x st = (put_all_entries items x, Some st').
Proof.
  intros x st items st' E. unfold get_items, rbind in E. unfold fill_items. destruct (get get_size st) as [[n st1]|m|]; cbn [obind fst snd] in E; [|discriminate E|discriminate E].
  unfold fill_then, fill at 1. destruct (get get_num st1) as [[v st2]|m|]; cbn [obind fst snd] in E; [|discriminate E|discriminate E]. apply fills_all. exact E.
Qed.
Lemma put_all_is : forall items nm lg loc m re pre suf md, put_all_entries items (mkLex nm lg loc m re pre suf md) = mkLex nm lg loc (fold_left map_add items m) re pre suf md.
Proof. intros items. induction items as [|kv items IH]; intros; [reflexivity|]. unfold put_all_entries in *. cbn [fold_left]. unfold put_entries at 2. cbn [x_name x_lang x_locale x_lex x_regex x_pre x_suf x_md5]. apply IH. Qed.
Lemma fills_members : forall st x st', load lexicon_version st = Ok (x, st') -> fill_members (new_lexicon []) st = (x, Some st').
Proof.
  intros st x st' E. unfold load in E. change (lexicon_version <? lexicon_version)%Z with false in E. cbn iota in E. unfold rbind in E. unfold fill_members.
  assert (T : forall A (r : reader A) f (b : filler) y s a s1, r s = Ok (a, s1) -> fill_then (fill r f) b y s = b (f a y) s1) by (intros A r f b y s a s1 H; unfold fill_then, fill; rewrite H; reflexivity).
  destruct (get get_str st) as [[nm s1]|m|] eqn:E1; cbn [obind fst snd] in E; [|discriminate E|discriminate E]. rewrite (T _ _ _ _ _ _ _ _ E1).
  destruct (get (get_enum lang_num all_lang) s1) as [[lg s2]|m|] eqn:E2; cbn [obind fst snd] in E; [|discriminate E|discriminate E]. rewrite (T _ _ _ _ _ _ _ _ E2).
  destruct (get get_str s2) as [[loc s3]|m|] eqn:E3; cbn [obind fst snd] in E; [|discriminate E|discriminate E]. rewrite (T _ _ _ _ _ _ _ _ E3).
  destruct (get_class C_map s3) as [[u s4]|m|] eqn:E4; cbn [obind fst snd] in E; [|discriminate E|discriminate E]. rewrite (T _ _ _ _ _ _ _ _ E4).
  destruct (get_items get_item s4) as [[items s5]|m|] eqn:E5; cbn [obind fst snd] in E; [|discriminate E|discriminate E].
  unfold fill_then at 1. rewrite (fills_items _ _ _ _ E5).
  destruct (get get_str s5) as [[re s6]|m|] eqn:E6; cbn [obind fst snd] in E; [|discriminate E|discriminate E]. rewrite (T _ _ _ _ _ _ _ _ E6).
  destruct (get get_str s6) as [[pre s7]|m|] eqn:E7; cbn [obind fst snd] in E; [|discriminate E|discriminate E]. rewrite (T _ _ _ _ _ _ _ _ E7).
  destruct (get get_str s7) as [[suf s8]|m|] eqn:E8; cbn [obind fst snd] in E; [|discriminate E|discriminate E]. rewrite (T _ _ _ _ _ _ _ _ E8).
  destruct (get get_str s8) as [[md s9]|m|] eqn:E9; cbn [obind fst snd] in E; [|discriminate E|discriminate E]. unfold fill. rewrite E9.
  unfold rret in E. injection E as <- <-. unfold put_name, put_lang, put_locale. cbn [x_name x_lang x_locale x_lex x_regex x_pre x_suf x_md5 new_lexicon].
  unfold new_lexicon. cbn [x_name x_lang x_locale x_lex x_regex x_pre x_suf x_md5]. rewrite put_all_is. reflexivity.
Qed.
Lemma left_whole : forall t x, load_archive t = Ok x -> archive_left t = x.
Proof.
  intros t x E. unfold load_archive in E. unfold archive_left. destruct (get_str t) as [s|m|]; cbn [obind] in E; [|discriminate E|discriminate E].
  destruct (negb (teqb (fst s) signature)); [discriminate E|]. destruct (get_num (snd s)) as [v|m|]; cbn [obind] in E; [|discriminate E|discriminate E].
  destruct (library_version <? fst v)%Z; [discriminate E|]. destruct (get_num (snd v)) as [tr|m|]; cbn [obind] in E; [|discriminate E|discriminate E].
  destruct (get_num (snd tr)) as [cv|m|]; cbn [obind] in E; [|discriminate E|discriminate E].
  destruct (Z.eqb_spec (fst cv) lexicon_version) as [V|V].
  - rewrite V in E. destruct (load lexicon_version (snd cv, [])) as [[y st]|m|] eqn:L; cbn [obind fst] in E; [|discriminate E|discriminate E].
    apply fills_members in L. cbn zeta. rewrite L. injection E as <-. reflexivity.
  - exfalso. unfold load in E. destruct (Z.ltb_spec (fst cv) lexicon_version) as [A|A]; [discriminate E|]. destruct (Z.ltb_spec lexicon_version (fst cv)) as [B|B]; [discriminate E|]. lia.
Qed.

(** ** A source read into what an archive left *)
Lemma joined_snoc : forall new old n, joined old (new ++ [n]) = if existsb (fun o => le_eqb o n) (joined old new) then joined old new else joined old new ++ [n].
Proof. induction new as [|m new IH]; intros old n; cbn [app joined]; [reflexivity|apply IH]. Qed.
Lemma joined_keeps : forall new old e, In e old \/ In e new -> In e (joined old new).
Proof.
  induction new as [|m new IH]; intros old e H; cbn [joined]; [destruct H as [H|[]]; exact H|]. apply IH. destruct (existsb (fun o => le_eqb o m) old) eqn:X.
  - destruct H as [H|[<-|H]]; [left; exact H|left; apply le_mem; exact X|right; exact H].
  - destruct H as [H|[<-|H]]; [left; apply in_or_app; left; exact H|left; apply in_or_app; right; left; reflexivity|right; exact H].
Qed.
Definition both (k x y : lexicon) : Prop := forall w, lex_find x w = joined (lex_find k w) (lex_find y w).
Lemma insert_find : forall x e w, sorted_keys (x_lex x) -> lex_find (lex_insert x e) w =
  if teqb w (le_word e) then (if existsb (fun y => le_eqb y e) (lex_find x w) then lex_find x w else lex_find x w ++ [e]) else lex_find x w.
Proof.
  intros x e w H1. unfold lex_insert. destruct (existsb _ _) eqn:E.
  - destruct (teqb w (le_word e)) eqn:Ew; [|reflexivity]. apply teqb_eq in Ew. subst w. rewrite E. reflexivity.
  - unfold lex_find at 1. cbn [x_lex set_lex]. rewrite map_get_put by exact H1. destruct (teqb w (le_word e)) eqn:Ew; [|reflexivity]. apply teqb_eq in Ew. subst w. rewrite E. reflexivity.
Qed.
Lemma insert_sorted : forall x e, sorted_keys (x_lex x) -> sorted_keys (x_lex (lex_insert x e)).
Proof. intros x e H. unfold lex_insert. destruct (existsb _ _); [exact H|]. cbn [x_lex set_lex]. apply map_put_sorted. exact H. Qed.
Lemma both_insert : forall k x y e, sorted_keys (x_lex x) -> sorted_keys (x_lex y) -> both k x y -> both k (lex_insert x e) (lex_insert y e).
Proof.
  intros k x y e WX WY B w. rewrite (insert_find x e w WX), (insert_find y e w WY), !(B w). destruct (teqb w (le_word e)) eqn:T; [|reflexivity].
  destruct (existsb (fun z => le_eqb z e) (lex_find y w)) eqn:X.
  - apply le_mem in X. assert (J : In e (joined (lex_find k w) (lex_find y w))) by (apply joined_keeps; right; exact X). apply le_mem in J. rewrite J. reflexivity.
  - rewrite joined_snoc. reflexivity.
Qed.
Lemma insert_members : forall x e, x_name (lex_insert x e) = x_name x /\ x_lang (lex_insert x e) = x_lang x /\ x_locale (lex_insert x e) = x_locale x.
Proof. intros x e. unfold lex_insert. destruct (existsb _ _); repeat split. Qed.
Definition beside (k x y : lexicon) : Prop := sorted_keys (x_lex x) /\ sorted_keys (x_lex y) /\ both k x y /\ x_name x = x_name y /\ x_lang x = x_lang y /\ x_locale x = x_locale y.
Lemma beside_insert : forall k x y e, beside k x y -> beside k (lex_insert x e) (lex_insert y e).
Proof.
  intros k x y e (A & B & C & D & E & F). destruct (insert_members x e) as (X1 & X2 & X3). destruct (insert_members y e) as (Y1 & Y2 & Y3).
  repeat split; [apply insert_sorted; exact A|apply insert_sorted; exact B|apply both_insert; assumption|congruence|congruence|congruence].
Qed.
Lemma beside_entries : forall e k f is line acc n x y, beside k x y ->
  match read_entries f e is line acc n y with
  | Ok (t, y') => exists x', read_entries f e is line acc n x = Ok (t, x') /\ beside k x' y'
  | Throw m => read_entries f e is line acc n x = Throw m
  | UB => read_entries f e is line acc n x = UB
  end.
Proof.
  intros e k. induction f as [|f IH]; intros is line acc n x y B; [reflexivity|]. cbn [read_entries]. destruct (s_fail is); [exists x; split; [reflexivity|exact B]|].
  destruct (getline LF is line) as [is' raw]. pose proof B as (_ & _ & _ & _ & _ & L). rewrite L. destruct (entry_line e (x_locale y) (n + 1) raw) as [[o l']|m|]; cbn [obind fst snd]; [|reflexivity|reflexivity].
  apply IH. destruct o; [apply beside_insert; exact B|exact B].
Qed.
Lemma left_sorted : forall t, sorted_keys (x_lex (archive_left t)).
Proof.
  assert (Z : sorted_keys (x_lex (new_lexicon []))) by constructor.
  assert (G : forall n x st, sorted_keys (x_lex x) -> sorted_keys (x_lex (fst (fill_all (fill get_item put_entries) n x st)))).
  { induction n as [|n IH]; intros x st H; cbn [fill_all]; [exact H|]. unfold fill_then, fill at 1. destruct (get_item st) as [[kv st']|m|]; [|exact H|exact H]. apply IH.
    unfold put_entries. cbn [x_lex]. unfold map_add. destruct (map_get (fst kv) (x_lex x)); [exact H|apply map_put_sorted; exact H]. }
  assert (I0 : forall x st, sorted_keys (x_lex x) -> sorted_keys (x_lex (fst (fill_items (fill get_item put_entries) x st)))).
  { intros x st H. unfold fill_items. destruct (get get_size st) as [[n st']|m|]; [|exact H|exact H]. unfold fill_then, fill at 1. destruct (get get_num st') as [[v st'']|m|]; [|exact H|exact H]. apply G. exact H. }
  assert (K : forall A (r : reader A) f (b : filler), (forall a x, x_lex (f a x) = x_lex x) -> (forall x st, sorted_keys (x_lex x) -> sorted_keys (x_lex (fst (b x st)))) ->
    forall x st, sorted_keys (x_lex x) -> sorted_keys (x_lex (fst (fill_then (fill r f) b x st)))).
  { intros A r f b F B x st H. unfold fill_then, fill. destruct (r st) as [[a st']|m|]; [|exact H|exact H]. apply B. rewrite F. exact H. }
  assert (M : forall x st, sorted_keys (x_lex x) -> sorted_keys (x_lex (fst (fill_members x st)))).
  { unfold fill_members. do 4 (apply K; [reflexivity|]). intros x st H. unfold fill_then at 1. specialize (I0 x st H).
    destruct (fill_items (fill get_item put_entries) x st) as [x' [st'|]]; [|exact I0]. cbn [fst] in I0. revert x' st' I0.
    do 3 (apply K; [reflexivity|]). intros x' st' H'. unfold fill. destruct (get get_str st') as [[a st'']|m|]; exact H'. }
  intros t. unfold archive_left. cbn zeta.
  repeat match goal with |- context [match ?o with Ok _ => _ | Throw _ => _ | UB => _ end] => destruct o; [|exact Z|exact Z] | |- context [if ?b then _ else _] => destruct b; try exact Z end.
  apply M. exact Z.
Qed.
Lemma kept_entries : forall e t m y, load_archive t = Throw m -> m <> recompile -> load_lexicon e query_lex t = Ok y -> x_locale (archive_left t) = [] \/ x_locale y <> [] ->
  exists z, get_lexicon e t = Ok z /\ x_name z = x_name y /\ x_lang z = x_lang y /\ x_locale z = x_locale y /\ x_md5 z = x_md5 y /\
    forall w, lex_find z w = joined (lex_find (archive_left t) w) (lex_find y w).
Proof.
  intros e t m y LA NR LY LC. unfold get_lexicon. rewrite LA. destruct (teqb m recompile) eqn:R; [apply teqb_eq in R; contradiction|].
  pose proof (left_sorted t) as SK. generalize dependent (archive_left t). intros k LC SK.
  unfold load_onto. unfold load_lexicon, header_fields in LY. destruct (getline LF (open_stream t) []) as [is raw].
  destruct (lex_strip_bom raw) as [line|m'|]; cbn [obind] in *; [|discriminate LY|discriminate LY].
  destruct (skip_header _ _ _ _ _) as [[[[is' hl] acc] cnt]|m'|]; cbn [obind] in *; [|discriminate LY|discriminate LY].
  destruct (getline TAB (open_stream hl) []) as [s1 t1]. destruct (getline TAB s1 t1) as [s2 t2]. destruct (getline TAB s2 t2) as [s3 t3].
  change (x_locale (put_name query_lex k)) with (x_locale k).
  assert (GL : forall o, getline TAB s3 o = getline TAB s3 [] \/ getline TAB s3 o = (fst (getline TAB s3 []), o) /\ snd (getline TAB s3 []) = []).
  { intros o. unfold getline. destruct (s_eof s3 || s_fail s3); [right; split; reflexivity|left; reflexivity]. }
  assert (ML : forall (f : nat) (is0 : stream) (ln ac : text) (n : N) (x : lexicon) r, read_entries f e is0 ln ac n x = Ok r -> x_locale (snd r) = x_locale x).
  { induction f as [|f IH]; intros is0 ln ac n x r E; [discriminate E|]. cbn [read_entries] in E. destruct (s_fail is0); [injection E as <-; reflexivity|].
    destruct (getline LF is0 ln) as [is1 raw1]. destruct (entry_line e (x_locale x) (n + 1) raw1) as [[o l']|m'|]; cbn [obind fst snd] in E; [|discriminate E|discriminate E].
    apply IH in E. rewrite E. destruct o; [apply insert_members|reflexivity]. }
  assert (EQ : snd (getline TAB s3 (x_locale k)) = snd (getline TAB s3 [])).
  { destruct (GL (x_locale k)) as [->|[G1 G2]]; [reflexivity|]. rewrite G1. cbn [snd]. rewrite G2. destruct LC as [LC|LC]; [exact LC|]. exfalso. apply LC.
    destruct (getline TAB s3 []) as [s4 loc]. cbn [snd] in G2. subst loc. destruct (teqb t1 (s2t "LEXICON:") || teqb t1 (s2t "Lexicon:")); [|discriminate LY].
    destruct (read_entries _ _ _ _ _ _ _) as [r|m'|] eqn:RE; cbn [obind] in LY; [|discriminate LY|discriminate LY]. injection LY as <-. cbn [x_locale]. exact (ML _ _ _ _ _ _ _ RE). }
  destruct (getline TAB s3 (x_locale k)) as [s4' loc']. destruct (getline TAB s3 []) as [s4 loc]. cbn [snd] in EQ. subst loc'.
  destruct (teqb t1 (s2t "LEXICON:") || teqb t1 (s2t "Lexicon:")); [|discriminate LY].
  set (X := put_locale loc (put_lang (as_lang t3) (put_name query_lex k))). set (Y := mkLex query_lex (as_lang t3) loc [] [] [] [] []) in LY.
  assert (BS : beside k X Y).
  { subst X Y. split; [exact SK|]. split; [constructor|]. split; [intros w; reflexivity|]. repeat split. }
  pose proof (beside_entries e k (List.length t + 3) is' hl acc (cnt + 1) X Y BS) as H.
  destruct (read_entries (List.length t + 3) e is' hl acc (cnt + 1) Y) as [[d y']|m'|]; cbn [obind] in LY; [|discriminate LY|discriminate LY].
  destruct H as (x' & RX & BX). rewrite RX. cbn [obind fst snd] in *. injection LY as <-. exists (put_md5 (md5_hex (bytes_of d)) x').
  destruct BX as (_ & _ & B1 & B2 & B3 & B4). split; [reflexivity|]. repeat split; try assumption; exact B1.
Qed.

(** ** What follows a compiled lexicon *)
Definition open_end {A} (r : reader A) (w : writer) (a : A) : Prop := forall l rest, r (fst (w l) ++ rest, l) = Ok (a, (rest, snd (w l))).
Definition begins_blank (w : writer) : Prop := forall l, exists t, fst (w l) = SP :: t.
Lemma open_bind : forall A B (r : reader A) (f : A -> reader B) wa wb a b, reads r wa a -> begins_blank wb -> open_end (f a) wb b -> open_end (rbind r f) (Archive_model.seq wa wb) b.
Proof.
  intros A B r f wa wb a b R BB Q l rest. rewrite seq_fst, seq_snd, <- app_assoc. unfold rbind.
  rewrite R by (destruct (BB (snd (wa l))) as (t & ->); reflexivity). cbn [obind fst snd]. apply Q.
Qed.
Lemma open_str : forall B s (F : text -> B), open_end (rbind (get get_str) (fun v => rret (F v))) (put (put_str s)) (F s).
Proof. intros B s F l rest. unfold rbind, get, put. cbn [fst snd]. rewrite get_put_str. reflexivity. Qed.
Lemma blank_str : forall s, begins_blank (put (put_str s)).
Proof. intros s l. eexists. reflexivity. Qed.
Lemma blank_num : forall s, begins_blank (put (put_num s)).
Proof. intros s l. eexists. reflexivity. Qed.
Lemma blank_items : forall A (f : A -> writer) xs, begins_blank (put_items f xs).
Proof. intros A f xs l. unfold put_items. rewrite seq_fst. eexists. reflexivity. Qed.
Lemma blank_seq : forall a b, begins_blank a -> begins_blank (Archive_model.seq a b).
Proof. intros a b H l. rewrite seq_fst. destruct (H l) as (t & ->). eexists. reflexivity. Qed.
Lemma blank_class : forall c b, begins_blank b -> begins_blank (Archive_model.seq (put_class c) b).
Proof.
  intros c b H l. rewrite seq_fst. unfold put_class. destruct (seen c l); [cbn [fst snd app]; apply H|]. eexists. reflexivity.
Qed.
Ltac bl := repeat match goal with |- begins_blank (Archive_model.seq (put_class _) _) => apply blank_class | |- begins_blank (Archive_model.seq _ _) => apply blank_seq | |- begins_blank (put_items _ _) => apply blank_items | |- begins_blank (put (put_str _)) => apply blank_str | |- begins_blank (put (put_num _)) => apply blank_num end.
Lemma open_load : forall x, ordered x -> open_end (load lexicon_version) (save x) x.
Proof.
  intros [nm lg loc m re pre suf md] (H1 & H2). cbn [x_lex] in *. unfold load. change (lexicon_version <? lexicon_version)%Z with false. cbn iota.
  unfold save. cbn [x_name x_lang x_locale x_lex x_regex x_pre x_suf x_md5].
  eapply open_bind; [apply reads_str|bl|]. cbn beta.
  eapply open_bind; [apply reads_enum, enum_lang|bl|]. cbn beta.
  eapply open_bind; [apply reads_str|bl|]. cbn beta.
  eapply open_bind; [apply reads_class|bl|]. cbn beta.
  eapply open_bind; [apply (reads_items _ _ put_item); [apply spaced_item|intros kv I0; apply reads_item; intros e E; exact (H2 kv e I0 E)]|bl|]. cbn beta.
  eapply open_bind; [apply reads_str|bl|]. cbn beta.
  eapply open_bind; [apply reads_str|bl|]. cbn beta.
  eapply open_bind; [apply reads_str|bl|]. cbn beta.
  rewrite (map_rebuild m []) by (apply keys_lt; exact H1). apply (open_str _ md (fun v => mkLex nm lg loc m re pre suf v)).
Qed.
Lemma archive_more : forall x r, ordered x -> load_archive (save_archive lexicon_version x ++ r) = Ok x.
Proof.
  intros x r O. rewrite save_front, <- app_assoc. rewrite load_front.
  - pose proof (open_load x O [] r) as H. match goal with |- obind ?o _ = _ => replace o with (@Ok (lexicon * (text * list cls)) (x, (r, snd (save x [])))) by (symmetry; exact H) end. reflexivity.
  - unfold save. rewrite seq_fst. reflexivity.
Qed.
Lemma more_ignored : forall e d src a r, serialize_lexicon e src = Ok a -> get_lexicon d (a ++ r) = get_lexicon d a /\ exists x, get_lexicon d a = Ok x.
Proof.
  intros e d src a r S0. destruct (serialized e src a S0) as (x & _ & -> & O & _). unfold get_lexicon. rewrite archive_more by exact O.
  pose proof (archive_more (warm x) [] O) as Q. rewrite app_nil_r in Q. rewrite Q. split; [reflexivity|]. eexists. reflexivity.
Qed.
