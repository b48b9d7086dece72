(** Exact forms of claims that do not hold in full. *)
From Coq Require Import String List NArith ZArith Bool Lia Sorting.Sorted.
From Verif Require Import Base_model Class_model Class_spec Class_proofs Uni_model Token_model Rule_model Search_model Grammar_model Lexicon_model
  Lexicon_spec LexText_spec Search_proofs LexMap_proofs Classify_proofs LexLoad_proofs LexExample_proofs Grammar_spec Sample_model Loaded_spec GrammarLine_proofs GrammarLoad_proofs GrammarTop_proofs
  GrammarMore_proofs Exact_spec.
Import ListNotations.
Local Open Scope N_scope.

(** ** Bytes *)
Lemma bytes_blen : forall t, N.of_nat (blen t) = text_bytes t.
Proof.
  induction t as [|c t IH]; [reflexivity|]. cbn [blen text_bytes fold_right]. fold (text_bytes t). rewrite Nat2N.inj_add, IH. f_equal.
  unfold utf8_len, char_bytes. change 0x80 with 128. change 0x800 with 2048. change 0x10000 with 65536.
  destruct (c <? 128); [reflexivity|]. destruct (c <? 2048); [reflexivity|]. destruct (c <? 65536); reflexivity.
Qed.
Lemma letters_exact : forall u x k d, letter_tables u -> unlisted x k -> t_text k <> [] ->
  Forall (fun c => u_alpha u c = true) (t_text k) ->
  forall c, In c (t_in (classify u x k d)) <->
    c = I_WORD \/ (text_bytes (t_text k) = 1 /\ c = I_SINGLE) \/ (text_bytes (t_text k) = 2 /\ c = I_DOUBLE).
Proof.
  intros u x k d T H NE F c. rewrite (letters_class u x k d T H NE F c). rewrite <- bytes_blen.
  split; (intros [E|[(E & E')|(E & E')]]; [left; exact E|right; left; split; [lia|exact E']|right; right; split; [lia|exact E']]).
Qed.
Lemma letters_ex : letter_tables latin1_uni /\ unlisted (new_lexicon []) (mkToken [0xC9; 0xC9] [] [] O_BADTOKEN [] false) /\
  text_bytes [0xC9; 0xC9] = 4 /\ t_in (classify latin1_uni (new_lexicon []) (mkToken [0xC9; 0xC9] [] [] O_BADTOKEN [] false) I_WORD) = [I_WORD].
Proof. split; [apply latin1_tables|]. split; [split; [reflexivity|intros le []]|]. split; vm_compute; reflexivity. Qed.

(** ** Class lists *)
Lemma blank_eq : forall a : text, Forall (eq 32) a <-> Forall (fun c => c = 32) a.
Proof. intros a. split; apply Forall_impl; intros; congruence. Qed.
Lemma blank_or_visible : forall p : text, Forall (eq 32) p \/ visible p.
Proof.
  induction p as [|c p IH]; [left; constructor|]. destruct (N.eq_dec c 32) as [->|N].
  - destruct IH as [IH|(d & I & N)]; [left; constructor; [reflexivity|exact IH]|right; exists d; split; [right; exact I|exact N]].
  - right. exists c. split; [left; reflexivity|exact N].
Qed.
Lemma trim_blank : forall p, Forall (eq 32) p -> trimboth p = p.
Proof.
  intros p F. unfold trimboth. replace (drop_sp p) with (@nil N); [reflexivity|]. symmetry. induction F as [|c p E F IH]; [reflexivity|].
  subst c. exact IH.
Qed.
Lemma core_trim : forall n p, core n p -> trimboth p = n /\ n <> [].
Proof.
  intros n p (a & b & -> & Ha & Hb & (c & t & E1 & N1) & (d & v & E2 & N2)). apply blank_eq in Ha, Hb. split; [|rewrite E1; discriminate].
  apply trimboth_core; try assumption; [rewrite E1; discriminate| |].
  - intros q. rewrite E1. cbn [app drop_sp]. destruct (N.eqb_spec c SP) as [K|_]; [contradiction|reflexivity].
  - intros q. rewrite E2, rev_app_distr. cbn [rev app drop_sp]. destruct (N.eqb_spec d SP) as [K|_]; [contradiction|reflexivity].
Qed.
Lemma visible_has_core : forall p, visible p -> exists n, core n p.
Proof.
  intros p V. destruct (visible_core p V) as (a & m & b & -> & Ha & Hb & NE & H1 & H2). exists m, a, b.
  split; [reflexivity|]. split; [apply blank_eq; exact Ha|]. split; [apply blank_eq; exact Hb|]. split.
  - destruct m as [|c t]; [congruence|]. exists c, t. split; [reflexivity|]. intros ->. specialize (H1 []). cbn [app drop_sp] in H1.
    change (32 =? SP) with true in H1. cbv iota in H1. rewrite app_nil_r in H1.
    assert (K : forall t : text, (List.length (drop_sp t) <= List.length t)%nat).
    { induction t0 as [|x t0 IH]; [apply le_n|]. cbn [drop_sp]. destruct (x =? SP); [cbn [List.length]; lia|apply le_n]. }
    specialize (K t). rewrite H1 in K. cbn [List.length] in K. lia.
  - destruct (rev m) as [|c t] eqn:E; [apply (f_equal (@rev N)) in E; rewrite rev_involutive in E; contradiction|].
    exists c, (rev t). apply (f_equal (@rev N)) in E. rewrite rev_involutive in E. cbn [rev] in E. split; [exact E|]. intros ->.
    specialize (H2 []). cbn [app drop_sp] in H2. change (32 =? SP) with true in H2. cbv iota in H2. rewrite app_nil_r in H2.
    assert (K : forall t : text, (List.length (drop_sp t) <= List.length t)%nat).
    { induction t0 as [|x t0 IH]; [apply le_n|]. cbn [drop_sp]. destruct (x =? SP); [cbn [List.length]; lia|apply le_n]. }
    specialize (K t). rewrite H2 in K. cbn [List.length] in K. lia.
Qed.
Lemma known_or_not : forall n, (exists c, n = in_str c) \/ (forall c, n <> in_str c).
Proof.
  intros n. destruct (list_eq_dec N.eq_dec n (in_str (as_one_type n))) as [E|E]; [left; eexists; exact E|].
  right. intros c ->. apply E. rewrite in_name_ok. reflexivity.
Qed.
Lemma classes_exact : forall ps, ps <> [] -> Forall no_comma ps ->
  is_inset (as_type (join [44] ps)) /\ forall c, In c (as_type (join [44] ps)) <-> exists p, In p ps /\ piece_class p c.
Proof.
  intros ps NE NC. split; [apply as_type_set|]. intros c. rewrite as_type_in. change 44 with COMMA_CH. rewrite comma_pieces_join by assumption. split.
  - intros (p & I & N & E). exists p. split; [exact I|]. destruct (blank_or_visible p) as [B|V].
    + left. rewrite (trim_blank p B) in *. split; [exact N|]. split; [exact B|]. rewrite <- E. apply (proj1 (other_strings p)). intros d ->.
      destruct d; cbn in B; inversion B; discriminate.
    + right. destruct (visible_has_core p V) as (n & C). exists n. split; [exact C|]. destruct (core_trim n p C) as (T & _). rewrite T in E.
      destruct (known_or_not n) as [(d & ->)|K]; [left; rewrite in_name_ok in E; congruence|right; split; [exact K|rewrite <- E; apply (proj1 (other_strings n)); exact K]].
  - intros (p & I & [(N & B & ->)|(n & C & D)]); exists p; (split; [exact I|]).
    + rewrite (trim_blank p B). split; [exact N|]. apply (proj1 (other_strings p)). intros d ->. destruct d; cbn in B; inversion B; discriminate.
    + destruct (core_trim n p C) as (-> & NN). split; [exact NN|]. destruct D as [->|(D & ->)]; [apply in_name_ok|apply (proj1 (other_strings n)); exact D].
Qed.

(** ** The last line of a grammar *)
Lemma pieces_lf : forall a b, pieces (a ++ 10 :: b) = pieces a ++ pieces b.
Proof.
  induction a as [|c a IH]; intros b; [reflexivity|]. cbn [app pieces]. rewrite IH. destruct (c =? 10); [reflexivity|].
  pose proof (pieces_nonempty a). destruct (pieces a) as [|p ps]; [congruence|reflexivity].
Qed.
Lemma pieces_plain : forall t, ~ In 10 t -> pieces t = [t].
Proof.
  induction t as [|c t IH]; intros H; [reflexivity|]. cbn [pieces]. destruct (N.eqb_spec c 10) as [->|_]; [exfalso; apply H; left; reflexivity|].
  rewrite IH by (intros K; apply H; right; exact K). reflexivity.
Qed.
Lemma pieces_lines : forall t p, In p (pieces t) -> ~ In 10 p.
Proof.
  induction t as [|c t IH]; intros p I; cbn [pieces] in I.
  - destruct I as [<-|[]]. intros [].
  - destruct (N.eqb_spec c 10) as [->|N]; [destruct I as [<-|I]; [intros []|apply IH; exact I]|].
    pose proof (pieces_nonempty t). destruct (pieces t) as [|q qs]; [congruence|]. destruct I as [<-|I]; [|apply IH; right; exact I].
    intros [K|K]; [congruence|]. exact (IH q (or_introl eq_refl) K).
Qed.
Lemma last_line : forall u atof file src, effective file src ->
  load_grammar u atof file = load_grammar u atof (file ++ 10 :: last (pieces src) [] ++ [10]).
Proof.
  intros u atof file src E. set (l := last (pieces src) []).
  assert (E' : effective (file ++ 10 :: l ++ [10]) (src ++ 10 :: l ++ [10])).
  { destruct E as [t E|d t E1 E2]; [|apply eff_bom; auto]. apply eff_plain. intros (t' & K). apply E.
    destruct t as [|c t]; [discriminate|]. cbn [app] in K. injection K as K1 K2. subst. eexists. reflexivity. }
  unfold load_grammar. f_equal. rewrite (load_sections_effective u atof _ _ E), (load_sections_effective u atof _ _ E'). f_equal.
  assert (NL : ~ In 10 l).
  { apply (pieces_lines src). unfold l. pose proof (pieces_nonempty src) as NE. rewrite (app_removelast_last (@nil N) NE) at 2.
    apply in_or_app. right. left. reflexivity. }
  replace (src ++ 10 :: l ++ [10]) with ((src ++ 10 :: l) ++ [10]) by (rewrite <- app_assoc; reflexivity).
  rewrite seen_lines_snoc, pieces_lf, (pieces_plain l NL). rewrite run_app.
  assert (Z : forall s, run u atof [[]] s = Ok s) by reflexivity.
  assert (EQ : forall o, obind o (run u atof [[]]) = o) by (intros [s| |]; reflexivity). rewrite EQ.
  unfold seen_lines. fold l. destruct l as [|c0 l0]; [|reflexivity]. rewrite run_app, EQ. reflexivity.
Qed.

(** ** The last line of a lexicon *)
Lemma header_dec : forall t, is_header t \/ ~ is_header t.
Proof.
  intros t. destruct (has_prefix (s2t "LEXICON:") t) eqn:E; [left; apply has_prefix_iff; exact E|right; intros K; apply has_prefix_iff in K; congruence].
Qed.
Lemma headers_dec : forall ls, (exists h, In h ls /\ is_header h) \/ (forall h, In h ls -> ~ is_header h).
Proof.
  induction ls as [|l ls [(h & I & H)|IH]]; [right; intros h []|left; exists h; split; [right; exact I|exact H]|].
  destruct (header_dec l) as [H|H]; [left; exists l; split; [left; reflexivity|exact H]|right; intros h [<-|I]; auto].
Qed.
Lemma header_entry : forall e loc cnt r, is_header r -> exists m, entry_line e loc cnt r = Throw m.
Proof.
  intros e loc cnt r (t & ->). unfold entry_line.
  assert (Q : squeeze (s2t "LEXICON:" ++ t) = s2t "LEXICON" ++ squeeze (58 :: t)) by (change (s2t "LEXICON:" ++ t) with (s2t "LEXICON" ++ 58 :: t); apply squeeze_app; discriminate).
  rewrite Q. eexists. reflexivity.
Qed.
Lemma one_line_throws : forall e name r, one_line r -> r <> [] -> exists m, load_lexicon e name r = Throw m.
Proof.
  intros e name r H N. unfold load_lexicon. rewrite getline_tail by assumption.
  destruct (lex_strip_bom r) as [line|m|] eqn:Q; cbn [obind]; [|eexists; reflexivity|exfalso].
  2: { destruct r as [|c r]; [discriminate Q|]. cbn [lex_strip_bom] in Q. destruct (c =? BOM); [|discriminate Q]. destruct r as [|d r]; [discriminate Q|].
       destruct (Nat.eqb (utf8_len d) 1); discriminate Q. }
  destruct (List.length r + 3)%nat as [|[|f]] eqn:Ef; [lia|lia|]. cbn [skip_header s_fail].
  destruct (has_prefix (s2t "LEXICON:") line) eqn:HP.
  - cbn [obind]. destruct (header_fields line) as [[t1 t3] loc]. destruct (_ || _); [|eexists; reflexivity].
    cbn [read_entries s_fail getline s_eof orb x_locale].
    destruct (header_entry e loc (1 + 1 + 1) line) as (m & E); [apply has_prefix_iff; exact HP|]. rewrite E. eexists. reflexivity.
  - destruct (has_prefix (s2t "LEXENTRY:") line); [eexists; reflexivity|]. eexists. reflexivity.
Qed.
Lemma newline_exact : forall e name ls r, (forall loc, steady e loc) -> Forall one_line ls -> one_line r -> r <> [] ->
  same_result (load_lexicon e name (file ls r)) (load_lexicon e name (file ls (r ++ [10]))) \/
  (header_last ls r /\ exists m, load_lexicon e name (file ls r) = Throw m).
Proof.
  intros e name ls r St F Hr N. destruct ls as [|l ls].
  - destruct (header_dec r) as [H|H].
    + right. split; [split; [intros h []|left; exact H]|]. exact (one_line_throws e name r Hr N).
    + destruct r as [|c r]; [congruence|]. destruct (N.eq_dec c 0xFEFF) as [->|NB].
      * right. split; [split; [intros h []|right; split; [reflexivity|eexists; reflexivity]]|]. exact (one_line_throws e name _ Hr N).
      * left. apply no_newline; try assumption. right. split; [exact H|]. intros t K. injection K as K _. contradiction.
  - destruct (headers_dec (l :: ls)) as [H|H]; [left; apply no_newline; try assumption; left; exact H|].
    destruct (header_dec r) as [HR|HR].
    + rewrite <- file_snoc. inversion F as [|? ? F1 F2]; subst. change ((l :: ls) ++ [r]) with (l :: (ls ++ [r])).
      rewrite !load_file; try assumption; [|apply Forall_app; split; [assumption|constructor; [assumption|constructor]]|intros []].
      destruct (lex_strip_bom l) as [line|m|] eqn:Q; cbn [obind]; [|left; reflexivity|left; exact I].
      rewrite find_header_snoc. destruct (find_header line l 1 ls) as [ls' h a c| |h a c] eqn:E.
      * left. apply start_same. intros x W. apply read_tail; [apply St|exact W].
      * left. reflexivity.
      * right. split; [split; [exact H|left; exact HR]|]. unfold at_end. destruct r as [|r0 r]; [congruence|].
        pose proof HR as HP. apply has_prefix_iff in HP. rewrite HP. cbn [obind]. apply start_throw. intros x. apply lone_throws. exact HR.
    + rewrite <- file_snoc. inversion F as [|? ? F1 F2]; subst. change ((l :: ls) ++ [r]) with (l :: (ls ++ [r])).
      rewrite !load_file; try assumption; [|apply Forall_app; split; [assumption|constructor; [assumption|constructor]]|intros []].
      destruct (lex_strip_bom l) as [line|m|] eqn:Q; cbn [obind]; [|left; reflexivity|left; exact I]. left.
      rewrite find_header_snoc. destruct (find_header line l 1 ls) as [ls' h a c| |h a c] eqn:E.
      * apply start_same. intros x W. apply read_tail; [apply St|exact W].
      * reflexivity.
      * assert (HP : has_prefix (s2t "LEXICON:") r = false).
        { destruct (has_prefix (s2t "LEXICON:") r) eqn:E1; [|reflexivity]. apply has_prefix_iff in E1. contradiction. }
        cbn [find_header]. rewrite HP. unfold at_end. rewrite HP. destruct r as [|r0 r]; [congruence|].
        destruct (has_prefix (s2t "LEXENTRY:") (r0 :: r)); cbn [obind]; apply result_refl.
Qed.

(** ** The mark before a lexicon *)
Lemma mark_exact : forall e name d l ls r, d < 128 -> (forall t, l <> 0xFEFF :: t) -> Forall one_line ((d :: l) :: ls) -> one_line r ->
  same_result (load_lexicon e name (file ((0xFEFF :: d :: l) :: ls) r)) (load_lexicon e name (file (l :: ls) r)).
Proof.
  intros e name d l ls r Hd NB F Hr. inversion F as [|? ? F1 F2]; subst.
  assert (F1' : one_line (0xFEFF :: d :: l)) by (intros [K|K]; [discriminate|contradiction]).
  assert (F1'' : one_line l) by (intros K; apply F1; right; exact K).
  rewrite !load_file by assumption.
  assert (B1 : lex_strip_bom (0xFEFF :: d :: l) = Ok l).
  { cbn [lex_strip_bom]. change (0xFEFF =? BOM) with true. cbn. unfold utf8_len.
    replace (d <? 0x80) with true by (symmetry; apply N.ltb_lt; exact Hd). reflexivity. }
  assert (B2 : lex_strip_bom l = Ok l).
  { destruct l as [|c l]; [reflexivity|]. cbn [lex_strip_bom]. destruct (N.eqb_spec c BOM) as [->|_]; [exfalso; apply (NB l); reflexivity|reflexivity]. }
  rewrite B1, B2. cbn [obind]. pose proof (find_header_acc ls l (0xFEFF :: d :: l) l 1) as M.
  destruct (find_header l (0xFEFF :: d :: l) 1 ls) as [ls1 h1 a1 c1| |h1 a1 c1], (find_header l l 1 ls) as [ls2 h2 a2 c2| |h2 a2 c2]; try contradiction.
  - destruct M as (-> & -> & ->). apply start_same. reflexivity.
  - reflexivity.
  - subst c2. unfold at_end. destruct r as [|r0 r]; [reflexivity|]. destruct (has_prefix _ _); cbn [obind].
    + apply start_same. reflexivity.
    + destruct (has_prefix _ _); reflexivity.
Qed.
(** A longer character behind the mark is cut: the line is then neither header nor entry. *)
Lemma mark_cut : forall e name d l ls r, 128 <= d -> Forall one_line ((d :: l) :: ls) -> one_line r -> ls <> [] ->
  same_result (load_lexicon e name (file ((0xFEFF :: d :: l) :: ls) r)) (load_lexicon e name (file ([] :: ls) r)).
Proof.
  intros e name d l ls r Hd F Hr NE. inversion F as [|? ? F1 F2]; subst.
  assert (F1' : one_line (0xFEFF :: d :: l)) by (intros [K|K]; [discriminate|contradiction]).
  rewrite !load_file; try assumption; [|intros []].
  assert (B1 : lex_strip_bom (0xFEFF :: d :: l) = Ok (0x110000 :: l)).
  { cbn [lex_strip_bom]. change (0xFEFF =? BOM) with true. cbv iota. unfold utf8_len.
    replace (d <? 0x80) with false by (symmetry; apply N.ltb_ge; exact Hd). destruct (d <? 0x800); [reflexivity|]. destruct (d <? 0x10000); reflexivity. }
  rewrite B1. cbn [lex_strip_bom obind]. destruct ls as [|l1 ls]; [congruence|].
  rewrite (plain_next (0x110000 :: l)); [|intros (t & K); discriminate|intros (t & K); discriminate].
  rewrite (plain_next []); [|intros (t & K); discriminate|intros (t & K); discriminate].
  pose proof (find_header_acc ls l1 ((0xFEFF :: d :: l) ++ l1) ([] ++ l1) (1 + 1)) as M.
  destruct (find_header l1 ((0xFEFF :: d :: l) ++ l1) (1 + 1) ls) as [ls1 h1 a1 c1| |h1 a1 c1], (find_header l1 ([] ++ l1) (1 + 1) ls) as [ls2 h2 a2 c2| |h2 a2 c2]; try contradiction.
  - destruct M as (-> & -> & ->). apply start_same. reflexivity.
  - reflexivity.
  - subst c2. unfold at_end. destruct r as [|r0 r]; [reflexivity|]. destruct (has_prefix _ _); cbn [obind].
    + apply start_same. reflexivity.
    + destruct (has_prefix _ _); reflexivity.
Qed.

(** ** Examples *)
Lemma classes_ex : Forall no_comma [s2t "WORD "; s2t " "; []; s2t "WROD"] /\ piece_class (s2t "WORD ") I_WORD /\ piece_class (s2t " ") I_BADTOKEN /\
  piece_class (s2t "WROD") I_BADTOKEN /\ as_type (s2t "WORD , ,,WROD") = [I_WORD; I_BADTOKEN].
Proof.
  assert (C : core (s2t "WORD") (s2t "WORD ")).
  { exists [], [32]. split; [reflexivity|]. split; [constructor|]. split; [repeat constructor|].
    split; [eexists _, _; split; [reflexivity|discriminate]|exists 68, (s2t "WOR"); split; [reflexivity|discriminate]]. }
  assert (D : core (s2t "WROD") (s2t "WROD")).
  { exists [], []. split; [reflexivity|]. split; [constructor|]. split; [constructor|].
    split; [eexists _, _; split; [reflexivity|discriminate]|exists 68, (s2t "WRO"); split; [reflexivity|discriminate]]. }
  split.
  { apply Forall_forall. intros p H K. cbn in H. repeat destruct H as [<-|H]; try contradiction; cbn in K; intuition discriminate. }
  split; [right; eexists; split; [exact C|left; reflexivity]|].
  split; [left; split; [discriminate|]; split; [repeat constructor|reflexivity]|].
  split; [right; eexists; split; [exact D|right; split; [intros d; destruct d; discriminate|reflexivity]]|]. vm_compute. reflexivity.
Qed.
Definition twice_src : text := s2t "[ADDRESS]" ++ [10] ++ s2t "WORD -> STREET -> 0.5".
Lemma twice_ex : effective twice_src twice_src /\ last (pieces twice_src) [] = s2t "WORD -> STREET -> 0.5" /\
  exists L, load_grammar ascii_uni sample_atof twice_src = Ok L /\ map (fun s => List.length (rs_rules s)) (g_rules (gl_grammar L)) = [2%nat].
Proof.
  split; [apply eff_plain; intros (t & K); vm_compute in K; discriminate|]. split; [vm_compute; reflexivity|].
  eexists. split; vm_compute; reflexivity.
Qed.
Lemma last_header_ex : header_last [s2t "# x"] (s2t "LEXICON:	demo	1	en_US	1	0") /\ (forall loc, steady ascii_env loc) /\
  exists x, load_lexicon ascii_env [] (file [s2t "# x"] (s2t "LEXICON:	demo	1	en_US	1	0" ++ [10])) = Ok x.
Proof.
  split; [split; [intros h [<-|[]] (t & K); discriminate|left; eexists; reflexivity]|]. split; [apply newline_ex|].
  eexists. vm_compute. reflexivity.
Qed.
Lemma mark_ex : (35 < 128)%N /\ exists x, load_lexicon ascii_env [] (file ((0xFEFF :: 35 :: hd [] ex_src) :: tl ex_src) []) = Ok x /\ lex_find x (s2t "PO BOX") = [ex_box].
Proof. split; [reflexivity|]. eexists. split; vm_compute; reflexivity. Qed.
Lemma mark_cut_ex : (128 <= 0xE9)%N /\ exists x, load_lexicon ascii_env [] (file ((0xFEFF :: 0xE9 :: s2t "LEXENTRY:") :: ex_src) []) = Ok x /\ lex_find x (s2t "PO BOX") = [ex_box].
Proof. split; [discriminate|]. eexists. split; vm_compute; reflexivity. Qed.
