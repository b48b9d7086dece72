(** Proofs about files (C109). *)
From Coq Require Import String List NArith Bool Lia.
From Verif Require Import Base_model Class_model Uni_model Float_model Token_model Rule_model Grammar_model Search_model Md5_model Lexicon_model Archive_model Wrapper_model CString_model File_model
  Lexicon_spec Archive_spec CString_spec Broken_spec File_spec Wrapper_spec Sample_model Archive_proofs WrapperTop_proofs CStringAll_proofs WrapperEx_proofs Broken_proofs.
Import ListNotations.
Local Open Scope N_scope.

Lemma from_open : forall u atof t, grammar_from u atof (open_stream t) = load_grammar u atof t.
Proof. reflexivity. Qed.
Lemma lex_from_open : forall e name t, lexicon_from e name (open_stream t) = load_lexicon e name t.
Proof. reflexivity. Qed.
Lemma up_to_nul_c : forall t p, up_to_nul t p <-> p = c_str t.
Proof.
  intros t p. split.
  - intros (Z & E). assert (M : made_of nonzero p) by (apply Forall_forall; intros c I0 ->; exact (Z I0)).
    destruct E as [->|(r & ->)]; [symmetry; apply c_str_id; exact M|]. rewrite c_str_app by exact M. cbn [c_str]. change (0 =? 0) with true. cbn iota. rewrite app_nil_r. reflexivity.
  - intros ->. destruct (c_str_exact t) as (A & B & C). split; [exact B|]. destruct (in_dec N.eq_dec 0 t) as [I0|I0]; [right; exact (C I0)|left; symmetry; apply A; exact I0].
Qed.
Definition no_address : text := s2t "Rule 'ADDRESS' is not defined!
".
Lemma failed_grammar : forall u atof, grammar_from u atof (mkStream [] false true) = Throw no_address /\ load_grammar u atof [] = Throw no_address.
Proof. intros u atof. split; vm_compute; reflexivity. Qed.
Lemma failed_lexicon : forall e name, lexicon_from e name (mkStream [] false true) = Throw (s2t "Lexicon-Invalid-File-Format") /\
  load_lexicon e name [] = Throw (s2t "Lexicon-Invalid-File-Format").
Proof. intros e name. split; vm_compute; reflexivity. Qed.

Lemma file_cases : forall fs file t, file_text fs file t -> open_file fs file = open_stream t \/ (t = [] /\ open_file fs file = mkStream [] false true).
Proof.
  intros fs file t (n & U & H). apply up_to_nul_c in U. subst n. unfold open_file. destruct H as [->|(-> & [->| ->])]; auto.
Qed.
Lemma file_grammar : forall u atof fs file t, file_text fs file t -> grammar_of_file u atof fs file = load_grammar u atof t.
Proof.
  intros u atof fs file t H. unfold grammar_of_file. destruct (file_cases _ _ _ H) as [->|(-> & ->)]; [apply from_open|].
  destruct (failed_grammar u atof) as [-> ->]. reflexivity.
Qed.
Lemma file_lexicon : forall e name fs file t, file_text fs file t -> lexicon_of_file e name fs file = load_lexicon e name t.
Proof.
  intros e name fs file t H. unfold lexicon_of_file. destruct (file_cases _ _ _ H) as [->|(-> & ->)]; [apply lex_from_open|].
  destruct (failed_lexicon e name) as [-> ->]. reflexivity.
Qed.
Lemma files_total : forall fs file, exists t, file_text fs file t.
Proof.
  intros fs file. unfold file_text. destruct (fs (c_str file)) as [| |t] eqn:E; [exists []|exists []|exists t]; exists (c_str file); (split; [apply up_to_nul_c; reflexivity|]); rewrite E; auto.
Qed.
Lemma file_unique : forall fs file t t', file_text fs file t -> file_text fs file t' -> t' = t.
Proof.
  intros fs file t t' (n & U & H) (n' & U' & H'). apply up_to_nul_c in U. apply up_to_nul_c in U'. subst n n'.
  destruct H as [H|(-> & [H|H])]; destruct H' as [H'|(-> & [H'|H'])]; rewrite H in H'; try discriminate H'; [injection H' as ->| |]; reflexivity.
Qed.
Lemma file_texts : forall u atof e name fs file, exists t, file_text fs file t /\ (forall t', file_text fs file t' -> t' = t) /\
  grammar_of_file u atof fs file = load_grammar u atof t /\ lexicon_of_file e name fs file = load_lexicon e name t.
Proof. intros u atof e name fs file. destruct (files_total fs file) as (t & H). exists t. split; [exact H|]. split; [intros t'; apply file_unique; exact H|]. split; [apply file_grammar|apply file_lexicon]; exact H. Qed.
Lemma file_missing : forall u atof e name fs file n, up_to_nul file n -> fs n = Missing \/ fs n = Unreadable ->
  grammar_of_file u atof fs file = Throw no_address /\ lexicon_of_file e name fs file = Throw (s2t "Lexicon-Invalid-File-Format").
Proof.
  intros u atof e name fs file n U H. assert (F : file_text fs file []) by (exists n; split; [exact U|right; split; [reflexivity|exact H]]).
  rewrite (file_grammar u atof _ _ _ F), (file_lexicon e name _ _ _ F). destruct (failed_grammar u atof) as [_ ->]. destruct (failed_lexicon e name) as [_ ->]. split; reflexivity.
Qed.
Lemma chars_texts : forall u atof e p t, up_to_nul p t -> grammar_of_chars u atof p = load_grammar u atof t /\ lexicon_of_chars e p = load_lexicon e (s2t "unknown") t.
Proof. intros u atof e p t U. apply up_to_nul_c in U. subst t. split; reflexivity. Qed.

(** ** Texts without a bracket *)
Lemma drop_in : forall (f : N -> bool) c t, In c (drop_while f t) -> In c t.
Proof. intros f c. induction t as [|d t IH]; cbn [drop_while]; [auto|]. destruct (f d); [intros I0; right; apply IH; exact I0|auto]. Qed.
Lemma header_bracket : forall u line n, section_header u line = Some n -> In LBRACK line.
Proof.
  intros u line n H. unfold section_header in H. destruct (drop_while (u_space u) line) as [|c t] eqn:D; [discriminate H|]. destruct (N.eqb_spec c LBRACK) as [->|]; [|discriminate H].
  apply (drop_in (u_space u)). rewrite D. left. reflexivity.
Qed.
Lemma line_bracket : forall u atof line s, ~ In LBRACK line -> load_line u atof load0 line = Ok s -> s = load0.
Proof.
  intros u atof line s NB H. unfold load_line in H. destruct (is_comment u line); [injection H as <-; reflexivity|].
  destruct (section_header u line) as [n|] eqn:E; [apply header_bracket in E; contradiction|]. cbn [l_sec load0] in H. discriminate H.
Qed.
Lemma span_in : forall d t a o c, span_to d t = (a, o) -> (In c a -> In c t) /\ match o with Some r => In c r -> In c t | None => True end.
Proof.
  induction t as [|x t IH]; cbn [span_to]; intros a o c E; [injection E as <- <-; auto|]. destruct (x =? d).
  - injection E as <- <-. split; [intros []|intros I0; right; exact I0].
  - destruct (span_to d t) as [a' o'] eqn:S0. injection E as <- <-. destruct (IH a' o' c eq_refl) as [A B]. split; [intros [->|I0]; [left; reflexivity|right; auto]|]. destruct o'; [intros I0; right; auto|exact I].
Qed.
Lemma getline_in : forall d is old is' l c, getline d is old = (is', l) -> ~ In c (s_rest is) -> ~ In c old -> ~ In c (s_rest is') /\ ~ In c l.
Proof.
  intros d is old is' l c E A B. unfold getline in E. destruct (_ || _); [injection E as <- <-; auto|]. destruct (span_to d (s_rest is)) as [a o] eqn:S0.
  destruct (span_in _ _ _ _ c S0) as [P Q]. destruct o as [r|]; injection E as <- <-; cbn [s_rest]; split; auto.
Qed.
Lemma strip_in : forall raw l c, strip_bom raw = Ok l -> ~ In c raw -> ~ In c l.
Proof.
  intros [|x t] l c E A; cbn [strip_bom] in E; [injection E as <-; exact A|]. destruct (x =? BOM); [|injection E as <-; exact A].
  destruct t as [|d t]; [discriminate E|]. destruct (Nat.eqb _ _); [|discriminate E]. injection E as <-. intros I0. apply A. right. right. exact I0.
Qed.
Lemma loop_bracket : forall u atof f first is line s, ~ In LBRACK (s_rest is) -> ~ In LBRACK line -> load_loop f u atof first is line load0 = Ok s -> s = load0.
Proof.
  intros u atof. induction f as [|f IH]; intros first is line s A B H; [discriminate H|]. cbn [load_loop] in H. destruct (s_fail is); [injection H as <-; reflexivity|].
  destruct (getline LF is line) as [is' raw] eqn:G. destruct (getline_in _ _ _ _ _ LBRACK G A B) as [A' B'].
  destruct (if first then strip_bom raw else Ok raw) as [l|m|] eqn:SB; cbn [obind] in H; [|discriminate H|discriminate H].
  assert (L : ~ In LBRACK l) by (destruct first; [exact (strip_in _ _ _ SB B')|injection SB as <-; exact B']).
  destruct (load_line u atof load0 l) as [s'|m|] eqn:LL; cbn [obind] in H; [|discriminate H|discriminate H]. apply line_bracket in LL; [|exact L]. subst s'.
  exact (IH _ _ _ _ A' L H).
Qed.
Lemma no_bracket : forall u atof t, ~ In LBRACK t -> forall L, load_grammar u atof t <> Ok L.
Proof.
  intros u atof t NB L H. unfold load_grammar, load_sections in H.
  destruct (load_loop (List.length t + 3) u atof true (open_stream t) [] load0) as [s|m|] eqn:E; cbn [obind] in H; [|discriminate H|discriminate H].
  apply loop_bracket in E; [|exact NB|intros []]. subst s. vm_compute in H. discriminate H.
Qed.
Lemma by_type : forall u atof fs s t, (file_text fs s t -> new_grammar u atof fs (StdString s) = load_grammar u atof t) /\
  (up_to_nul s t -> new_grammar u atof fs (CharPointer s) = load_grammar u atof t).
Proof.
  intros u atof fs s t. split; intros H.
  - destruct (file_texts u atof ascii_env [] fs s) as (t' & _ & B & C & _). rewrite (B t H). exact C.
  - exact (proj1 (chars_texts u atof ascii_env s t H)).
Qed.
Lemma literal_name : forall u atof fs p, ~ In 91 p -> forall L, new_grammar u atof fs (CharPointer p) <> Ok L.
Proof.
  intros u atof fs p NB L. cbn [new_grammar]. unfold grammar_of_chars, open_chars. rewrite from_open. apply no_bracket. intros I0. apply NB.
  destruct (c_str_exact p) as (A & _ & C). destruct (in_dec N.eq_dec 0 p) as [Z|Z]; [destruct (C Z) as (r & ->); apply in_or_app; left; exact I0|rewrite (proj1 A Z) in I0; exact I0].
Qed.

(** ** The tool *)
Lemma tool_made : forall e fs file t a, file_text fs file t -> compile_tool e fs file = Ok a ->
  exists x, load_lexicon e (s2t "lexicon") t = Ok x /\ a = save_archive lexicon_version (warm x).
Proof.
  intros e fs file t a F H. unfold compile_tool in H. rewrite (file_lexicon _ _ _ _ _ F) in H. destruct (load_lexicon e (s2t "lexicon") t) as [x| |]; cbn [obind] in H; [|discriminate H|discriminate H].
  injection H as <-. exists x. split; reflexivity.
Qed.
Lemma name_insert : forall n x le, lex_insert (put_name n x) le = put_name n (lex_insert x le).
Proof. intros n x le. unfold lex_insert. change (lex_find (put_name n x) (le_word le)) with (lex_find x (le_word le)). cbn zeta. destruct (existsb _ _); reflexivity. Qed.
Lemma name_entries : forall n e f is line acc c x, read_entries f e is line acc c (put_name n x) =
  match read_entries f e is line acc c x with Ok (t, y) => Ok (t, put_name n y) | Throw m => Throw m | UB => UB end.
Proof.
  intros n e. induction f as [|f IH]; intros is line acc c x; [reflexivity|]. cbn [read_entries]. destruct (s_fail is); [reflexivity|]. destruct (getline LF is line) as [is' raw].
  change (x_locale (put_name n x)) with (x_locale x). destruct (entry_line e (x_locale x) (c + 1) raw) as [[o l]|m|]; cbn [obind fst snd]; [|reflexivity|reflexivity].
  destruct o as [le|]; [rewrite name_insert|]; apply IH.
Qed.
Lemma name_load : forall n n' e t, load_lexicon e n' t = match load_lexicon e n t with Ok x => Ok (put_name n' x) | Throw m => Throw m | UB => UB end.
Proof.
  intros n n' e t. unfold load_lexicon. destruct (getline LF (open_stream t) []) as [is raw]. destruct (lex_strip_bom raw) as [line|m|]; cbn [obind]; [|reflexivity|reflexivity].
  destruct (skip_header _ _ _ _ _) as [[[[is' hl] acc] cnt]|m|]; cbn [obind]; [|reflexivity|reflexivity]. destruct (header_fields hl) as [[t1 t3] loc]. destruct (_ || _); [|reflexivity].
  change (mkLex n' (as_lang t3) loc [] [] [] [] []) with (put_name n' (mkLex n (as_lang t3) loc [] [] [] [] [])). rewrite name_entries.
  destruct (read_entries _ _ _ _ _ _ _) as [[d y]|m|]; reflexivity.
Qed.
Lemma tool_name : forall e fs file t, file_text fs file t ->
  compile_tool e fs file = match load_lexicon e query_lex t with Ok x => Ok (save_archive lexicon_version (put_name (s2t "lexicon") (warm x))) | Throw m => Throw m | UB => UB end.
Proof.
  intros e fs file t F. unfold compile_tool. rewrite (file_lexicon _ _ _ _ _ F), (name_load query_lex). destruct (load_lexicon e query_lex t) as [x|m|]; cbn [obind]; [|reflexivity|reflexivity].
  f_equal. f_equal. unfold warm, lex_suf, lex_pre, lex_regex. cbn [x_regex put_name]. destruct (x_regex x) eqn:E1; cbn [snd fst x_pre put_name]; destruct (x_pre x) eqn:E2; cbn [snd fst x_suf put_name]; destruct (x_suf x) eqn:E3; cbn [snd put_name]; reflexivity.
Qed.

Lemma named_answers : forall e g y n locale filt address,
  standardize_addr e g (put_name n y) locale filt address = standardize_addr e g y locale filt address /\
  parse_addr e (put_name n y) locale filt address = parse_addr e y locale filt address /\
  forall sort, match_addr e sort g (put_name n y) locale filt address = match_addr e sort g y locale filt address.
Proof.
  intros e g y n locale filt address.
  assert (P3 : fst (lex_regex (put_name n y)) = fst (lex_regex y) /\ fst (lex_pre (put_name n y)) = fst (lex_pre y) /\ fst (lex_suf (put_name n y)) = fst (lex_suf y)).
  { unfold lex_regex, lex_pre, lex_suf. cbn [x_regex x_pre x_suf x_lex put_name]. destruct (x_regex y), (x_pre y), (x_suf y); auto. }
  assert (M := same_phrases e (put_name n y) y locale filt address eq_refl eq_refl P3). unfold standardize_addr, parse_addr, match_addr. rewrite M. split; [|split; reflexivity].
  destruct (make_phrases e y locale filt address) as [ph| |]; [|reflexivity|reflexivity]. cbn [obind].
  destruct (search_best g ph) as [b| |]; [|reflexivity|reflexivity]. cbn [obind]. rewrite (same_collect (put_name n y) y _ _ eq_refl). reflexivity.
Qed.
Lemma tool_loads : forall e d fs file t a, file_text fs file t -> compile_tool e fs file = Ok a ->
  exists b x, serialize_lexicon e t = Ok b /\ get_lexicon d b = Ok x /\ get_lexicon d a = Ok (put_name (s2t "lexicon") x).
Proof.
  intros e d fs file t a F H. rewrite (tool_name _ _ _ _ F) in H. destruct (load_lexicon e query_lex t) as [x| |] eqn:L; [|discriminate H|discriminate H]. injection H as <-.
  exists (save_archive lexicon_version (warm x)), (warm x). assert (O : ordered (warm x)) by (eapply same_ordered; [apply (warm_same x)|eapply load_ordered; exact L]).
  split; [unfold serialize_lexicon; rewrite L; reflexivity|]. split; [unfold get_lexicon; rewrite archive_round by exact O; reflexivity|].
  unfold get_lexicon. rewrite archive_round; [reflexivity|exact O].
Qed.
Lemma tool_answers : forall e d atof fs file t a, file_text fs file t -> compile_tool e fs file = Ok a ->
  exists b, serialize_lexicon e t = Ok b /\ forall address gr locale filt,
  std_standardize d atof address gr a locale filt = std_standardize d atof address gr b locale filt /\
  std_parse_address d address a locale filt = std_parse_address d address b locale filt /\
  forall sort, std_match_address d atof sort address gr a locale filt = std_match_address d atof sort address gr b locale filt.
Proof.
  intros e d atof fs file t a F H. destruct (tool_loads e d fs file t a F H) as (b & x & S0 & B & A). exists b. split; [exact S0|]. intros address gr locale filt.
  unfold std_standardize, std_parse_address, std_match_address. rewrite A, B. cbn [obind]. split; [|split].
  - destruct (get_grammar d atof gr) as [g| |]; cbn [obind]; [|reflexivity|reflexivity]. apply named_answers.
  - apply (named_answers d (mkGrammar [] [] []) x).
  - intros sort. destruct (get_grammar d atof gr) as [g| |]; cbn [obind]; [|reflexivity|reflexivity]. apply named_answers.
Qed.
Lemma tool_fails : forall e fs file t m, file_text fs file t -> compile_tool e fs file = Throw m <-> serialize_lexicon e t = Throw m.
Proof.
  intros e fs file t m F. rewrite (tool_name _ _ _ _ F). unfold serialize_lexicon. destruct (load_lexicon e query_lex t); cbn [obind]; split; intros E; try exact E; discriminate E.
Qed.

(** ** Examples *)
Definition ex_files : files := fun n =>
  if teqb n (s2t "good.grammar") then Contents w_grammar
  else if teqb n (s2t "lexicon.txt") then Contents w_lexicon
  else if teqb n (s2t "data") then Unreadable else Missing.
Lemma ex_file_texts : file_text ex_files (s2t "good.grammar") w_grammar /\ file_text ex_files (s2t "lexicon.txt" ++ [0; 65]) w_lexicon /\
  file_text ex_files (s2t "data") [] /\ file_text ex_files (s2t "typo.grammar") [] /\
  (exists L, grammar_of_file ascii_uni sample_atof ex_files (s2t "good.grammar") = Ok L) /\
  (exists x, lexicon_of_file ascii_env query_lex ex_files (s2t "lexicon.txt" ++ [0; 65]) = Ok x).
Proof.
  assert (U : forall t, up_to_nul t (c_str t)) by (intros t; apply up_to_nul_c; reflexivity).
  split; [exists (s2t "good.grammar"); split; [apply (U (s2t "good.grammar"))|left; vm_compute; reflexivity]|].
  split; [exists (s2t "lexicon.txt"); split; [apply (U (s2t "lexicon.txt" ++ [0; 65]))|left; vm_compute; reflexivity]|].
  split; [exists (s2t "data"); split; [apply (U (s2t "data"))|right; split; [reflexivity|right; vm_compute; reflexivity]]|].
  split; [exists (s2t "typo.grammar"); split; [apply (U (s2t "typo.grammar"))|right; split; [reflexivity|left; vm_compute; reflexivity]]|].
  split; eexists; vm_compute; reflexivity.
Qed.
Lemma ex_literal : new_grammar ascii_uni sample_atof ex_files (CharPointer (s2t "good.grammar")) = Throw (s2t "Grammar-Syntax-Error") /\
  exists L, new_grammar ascii_uni sample_atof ex_files (StdString (s2t "good.grammar")) = Ok L.
Proof. split; [vm_compute; reflexivity|]. eexists. vm_compute. reflexivity. Qed.
Lemma ex_tool : exists a b, compile_tool ascii_env ex_files (s2t "lexicon.txt") = Ok a /\ serialize_lexicon ascii_env w_lexicon = Ok b /\ a <> b /\
  compile_tool ascii_env ex_files (s2t "lexicon") = Throw (s2t "Lexicon-Invalid-File-Format").
Proof. eexists. eexists. split; [vm_compute; reflexivity|]. split; [vm_compute; reflexivity|]. split; [vm_compute; discriminate|vm_compute; reflexivity]. Qed.

Lemma ex_missing : up_to_nul (s2t "typo.grammar") (s2t "typo.grammar") /\ ex_files (s2t "typo.grammar") = Missing /\ up_to_nul (s2t "data") (s2t "data") /\ ex_files (s2t "data") = Unreadable.
Proof. split; [apply up_to_nul_c; vm_compute; reflexivity|]. split; [vm_compute; reflexivity|]. split; [apply up_to_nul_c; vm_compute; reflexivity|vm_compute; reflexivity]. Qed.
Lemma ex_chars : up_to_nul (w_grammar ++ 0 :: s2t "[") w_grammar /\ exists L, grammar_of_chars ascii_uni sample_atof (w_grammar ++ 0 :: s2t "[") = Ok L.
Proof. split; [apply up_to_nul_c; vm_compute; reflexivity|]. eexists. vm_compute. reflexivity. Qed.
