(** Every lexicon text: meaning and messages (C85, C86). *)
From Coq Require Import String List NArith Bool Lia Sorted.
From Verif Require Import Base_model Class_model Class_spec Class_proofs Uni_model Token_model Grammar_model Search_proofs Trie_proofs
  Md5_model Lexicon_model Lexicon_spec LexText_spec LexMap_proofs LexLoad_proofs LexFile_spec LexFile_proofs LexDiag_spec TextOrder_spec TextOrder_proofs.
Import ListNotations.
Local Open Scope N_scope.

(** ** Numbers *)
Definition val (t : text) : N := fold_left (fun v c => 10 * v + (c - 48)) t 0.
Lemma val_snoc : forall t c, val (t ++ [c]) = 10 * val t + (c - 48).
Proof. intros t c. unfold val. rewrite fold_left_app. reflexivity. Qed.
Lemma digits_ok : forall f n, (N.to_nat (N.log2 n) < f)%nat ->
  Forall (fun c => 48 <= c <= 57) (dec_digits f n) /\ val (dec_digits f n) = n /\
  (dec_digits f n = [48] \/ exists c r, dec_digits f n = c :: r /\ c <> 48).
Proof.
  induction f as [|f IH]; intros n H; [lia|]. cbn [dec_digits].
  assert (M : n mod 10 < 10) by (apply N.mod_lt; discriminate). pose proof (N.div_mod n 10 ltac:(discriminate)) as D.
  assert (M' : n < 10 -> n mod 10 = n) by (intros L; apply N.mod_small; exact L). assert (D1 : 10 <= n -> 1 <= n / 10) by (intros L; apply N.div_le_lower_bound; lia).
  assert (D2 : 10 <= n -> (N.to_nat (N.log2 (n / 10)) < f)%nat).
  { intros L. assert (P : N.log2 (n / 10) < N.log2 n); [|lia]. apply N.log2_lt_pow2; [apply N.div_str_pos; lia|].
    assert (B : n < 2 * 2 ^ N.log2 n) by (rewrite <- N.pow_succ_r'; apply N.log2_spec; lia). apply N.div_lt_upper_bound; [discriminate|].
    revert B. generalize (2 ^ N.log2 n). intros m B. lia. }
  generalize dependent (n mod 10). generalize dependent (n / 10). intros q D1 D2 m D M M'.
  destruct (N.ltb_spec n 10) as [L|L].
  - rewrite (M' L). cbn [app]. split; [constructor; [lia|constructor]|]. split; [unfold val; cbn [fold_left]; lia|].
    destruct (N.eq_dec n 0) as [->|Nz]; [left; reflexivity|right; exists (48 + n), []; split; [reflexivity|lia]].
  - specialize (D1 L). specialize (D2 L). rename D2 into Q.
    destruct (IH _ Q) as (F & V & Z). split; [apply Forall_app; split; [exact F|constructor; [lia|constructor]]|].
    split; [rewrite val_snoc, V; lia|]. right. destruct Z as [Z|(c & r & Z & Nc)].
    + exfalso. rewrite Z in V. unfold val in V. cbn [fold_left] in V. lia.
    + rewrite Z. exists c, (r ++ [48 + m]). split; [reflexivity|exact Nc].
Qed.
Lemma dec_decimal : forall n, decimal n (dec_text n).
Proof. intros n. unfold dec_text. destruct (digits_ok (S (N.to_nat (N.log2 n))) n ltac:(lia)) as (F & V & Z). split; [exact F|]. split; [exact Z|symmetry; exact V]. Qed.
Lemma val_pos : forall t c, 48 < c <= 57 -> Forall (fun c => 48 <= c <= 57) t -> 0 < val (c :: t).
Proof.
  intros t c Hc. induction t as [|d t IH] using rev_ind; intros F; [unfold val; cbn [fold_left]; lia|].
  apply Forall_app in F. destruct F as (F & Fd). rewrite app_comm_cons, val_snoc. specialize (IH F). lia.
Qed.
Lemma decimal_fun : forall a b n, decimal n a -> decimal n b -> a = b.
Proof.
  assert (P : forall a c, Forall (fun c => 48 <= c <= 57) (a ++ [c]) -> 48 <= c <= 57 /\ Forall (fun c => 48 <= c <= 57) a).
  { intros a c F. apply Forall_app in F. destruct F as (F1 & F2). inversion F2; subst. split; assumption. }
  assert (G : forall a b, Forall (fun c => 48 <= c <= 57) a -> Forall (fun c => 48 <= c <= 57) b ->
    (forall r, a <> 48 :: r) -> (forall r, b <> 48 :: r) -> val a = val b -> a = b).
  { induction a as [|c a IH] using rev_ind; intros b Fa Fb Za Zb V.
    - destruct b as [|d b]; [reflexivity|]. exfalso. inversion Fb as [|? ? Hd Fb']; subst. assert (d <> 48) by (intros ->; exact (Zb _ eq_refl)).
      pose proof (val_pos b d ltac:(lia) Fb'). unfold val at 1 in V. cbn [fold_left] in V. lia.
    - destruct b as [|d b _] using rev_ind.
      + exfalso. destruct (a ++ [c]) as [|x y] eqn:E; [destruct a; discriminate|]. inversion Fa as [|? ? Hx Fy]; subst.
        assert (x <> 48) by (intros ->; exact (Za _ eq_refl)). pose proof (val_pos y x ltac:(lia) Fy). unfold val at 2 in V. cbn [fold_left] in V. lia.
      + destruct (P _ _ Fa) as (Hc & Fa'), (P _ _ Fb) as (Hd & Fb'). rewrite !val_snoc in V.
        assert (val a = val b /\ c = d) as (Va & ->) by lia. f_equal. apply IH; try assumption.
        * intros r ->. exact (Za _ eq_refl).
        * intros r ->. exact (Zb _ eq_refl). }
  intros a b n (Fa & Za & Va) (Fb & Zb & Vb). fold (val a) in Va. fold (val b) in Vb.
  assert (Z0 : forall t c r, t = c :: r -> c <> 48 -> Forall (fun c => 48 <= c <= 57) t -> 0 < val t).
  { intros t c r -> Nc F. inversion F; subst. apply val_pos; [lia|assumption]. }
  destruct Za as [-> |(c & r & Ea & Na)], Zb as [-> |(d & s & Eb & Nb)].
  - reflexivity.
  - pose proof (Z0 _ _ _ Eb Nb Fb). unfold val at 1 in Va. cbn [fold_left] in Va. lia.
  - pose proof (Z0 _ _ _ Ea Na Fa). unfold val at 1 in Vb. cbn [fold_left] in Vb. lia.
  - apply G; try assumption; [intros r' K; rewrite Ea in K; injection K; congruence|intros r' K; rewrite Eb in K; injection K; congruence|congruence].
Qed.
Lemma decimal_iff : forall n t, decimal n t <-> t = dec_text n.
Proof. intros n t. split; [intros H; exact (decimal_fun _ _ _ H (dec_decimal n))|intros ->; apply dec_decimal]. Qed.

(** ** One line *)
Definition olist {A} (o : option A) : list A := match o with Some a => [a] | None => [] end.
Lemma entry_cases : forall e loc cnt l, match entry_line e loc cnt l with
  | Ok q => accepted e loc l (olist (fst q)) (snd q)
  | Throw m => exists shown, refused e loc l shown /\ m = bad_entry cnt shown
  | UB => False end.
Proof.
  intros e loc cnt l. destruct (entry_line e loc cnt l) as [q|m|] eqn:E.
  - apply entry_ok in E. destruct E as [(-> & ->)|(M & N & ->)]; [left; auto|]. right. cbn [fst snd olist].
    eexists. exists (squeeze l). split; [apply body_line_iff; split; [exact M|split; [reflexivity|exact N]]|]. split; [apply squeeze_one|]. split; reflexivity.
  - assert (Hl : l <> []) by (intros ->; discriminate E). unfold entry_line in E. pose proof (squeeze_one l) as O. destruct (squeeze l) as [|c t] eqn:Sq; [discriminate|].
    destruct (_ || _) eqn:M.
    + apply mark_iff in M. cbv zeta in E.
      change (match loc with [] => e_nfc e (c :: t) | _ :: _ => e_upper e loc (e_nfc e (c :: t)) end) with (norm e loc (c :: t)) in E.
      destruct (le_in_class _ _) eqn:B; [|discriminate]. injection E as <-. exists (norm e loc (c :: t)). split; [|reflexivity]. split; [exact Hl|].
      exists (c :: t). split; [exact O|]. right. split; [exact M|]. split; [reflexivity|]. eexists. split; [apply line_entry|]. apply iset_mem_in. exact B.
    + injection E as <-. exists (c :: t). split; [|reflexivity]. split; [exact Hl|]. exists (c :: t). split; [exact O|]. left. split; [|reflexivity].
      intros K. apply mark_iff in K. congruence.
  - unfold entry_line in E. destruct (squeeze l); [discriminate|]. destruct (_ || _); [|discriminate]. cbv zeta in E. destruct (le_in_class _ _); discriminate.
Qed.
Lemma acc_line : forall e loc l es left cnt, accepted e loc l es left -> exists o, es = olist o /\ entry_line e loc cnt l = Ok (o, left).
Proof.
  intros e loc l es left cnt [(-> & -> & ->)|(le & t & B & O & -> & ->)]; [exists None; split; reflexivity|].
  exists (Some le). split; [reflexivity|]. assert (t = squeeze l) by (eapply one_fun; [exact O|apply squeeze_one]). subst t.
  apply body_line_iff in B. destruct B as (M & -> & N). exact (entry_intro e loc cnt l M N).
Qed.
Lemma ref_line : forall e loc l shown cnt, refused e loc l shown -> entry_line e loc cnt l = Throw (bad_entry cnt shown).
Proof.
  intros e loc l shown cnt (Hl & t & O & H). assert (t = squeeze l) by (eapply one_fun; [exact O|apply squeeze_one]). subst t.
  unfold entry_line. destruct (squeeze l) as [|c t] eqn:Sq; [exfalso; apply Hl; apply squeeze_nil; exact Sq|].
  destruct H as [(M & ->)|(M & -> & le & E & B)].
  - destruct (_ || _) eqn:Q; [apply mark_iff in Q; contradiction|reflexivity].
  - apply mark_iff in M. rewrite M. cbv zeta.
    change (match loc with [] => e_nfc e (c :: t) | _ :: _ => e_upper e loc (e_nfc e (c :: t)) end) with (norm e loc (c :: t)).
    rewrite (entry_fun _ _ _ E (line_entry _)) in B. apply iset_mem_in in B. unfold le_in_class. rewrite B. reflexivity.
Qed.

(** ** The body *)
Lemma ins1_run : forall o x, ins1 o x = run x (map Ins (olist o)).
Proof. intros [le|] x; reflexivity. Qed.
Lemma run_ins_app : forall a b x, run x (map Ins (a ++ b)) = run (run x (map Ins a)) (map Ins b).
Proof. intros a b x. unfold run. rewrite map_app, fold_left_app. reflexivity. Qed.
Lemma run_loc : forall es x, x_locale (run x (map Ins es)) = x_locale x.
Proof. intros es x. apply LexLoad_proofs.run_ins_meta. Qed.
Lemma body_step : forall e ls es cnt x rest, entries_of e (x_locale x) ls es ->
  body e cnt (ls ++ rest) x = body e (cnt + N.of_nat (List.length ls)) rest (run x (map Ins es)).
Proof.
  intros e ls es cnt x rest H. remember (x_locale x) as loc eqn:El. revert cnt x El. induction H as [|l ls a left b A H IH]; intros cnt x El.
  - cbn [app List.length]. rewrite N.add_0_r. reflexivity.
  - cbn [app body]. destruct (acc_line e loc l a left (cnt + 1) A) as (o & -> & E). rewrite <- El, E. cbn [obind fst]. rewrite ins1_run.
    rewrite IH by (rewrite run_loc; exact El). rewrite <- run_ins_app. f_equal. cbn [List.length]. lia.
Qed.
Lemma body_all : forall e ls es cnt x, entries_of e (x_locale x) ls es -> body e cnt ls x = Ok (run x (map Ins es)).
Proof. intros e ls es cnt x H. rewrite <- (app_nil_r ls). rewrite (body_step e ls es cnt x [] H). reflexivity. Qed.
Lemma body_cases : forall e ls cnt x, match body e cnt ls x with
  | Ok y => exists es, entries_of e (x_locale x) ls es /\ y = run x (map Ins es)
  | Throw m => exists p1 l p2 es shown, ls = p1 ++ l :: p2 /\ entries_of e (x_locale x) p1 es /\ refused e (x_locale x) l shown /\
      m = bad_entry (cnt + N.of_nat (List.length p1) + 1) shown
  | UB => False end.
Proof.
  intros e. induction ls as [|l ls IH]; intros cnt x; cbn [body]; [exists []; split; [constructor|reflexivity]|].
  pose proof (entry_cases e (x_locale x) (cnt + 1) l) as C. destruct (entry_line _ _ _ _) as [[o left]|m|]; cbn [obind fst snd] in *; [| |exact C].
  - specialize (IH (cnt + 1) (ins1 o x)). rewrite ins_locale in IH. destruct (body e (cnt + 1) ls (ins1 o x)) as [y|m|]; [| |exact IH].
    + destruct IH as (es & H & ->). exists (olist o ++ es). split; [econstructor; eassumption|]. rewrite ins1_run, <- run_ins_app. reflexivity.
    + destruct IH as (p1 & l' & p2 & es & shown & -> & H & R & ->). exists (l :: p1), l', p2, (olist o ++ es), shown. split; [reflexivity|].
      split; [econstructor; eassumption|]. split; [exact R|]. f_equal. cbn [List.length]. lia.
  - destruct C as (shown & R & ->). exists [], l, ls, [], shown. split; [reflexivity|]. split; [constructor|]. split; [exact R|].
    cbn [List.length]. f_equal. lia.
Qed.

(** ** The header *)
Lemma plain_char : forall c t, c <> 32 -> squeeze (c :: t) = c :: squeeze t.
Proof. intros c t H. cbn [squeeze]. destruct t as [|d t]; [reflexivity|]. destruct (N.eqb_spec c SP) as [E|_]; [exfalso; exact (H E)|reflexivity]. Qed.
Lemma header_no_entry : forall h, is_header h -> ~ entry_mark (squeeze h).
Proof.
  intros h (r & ->). change (s2t "LEXICON:" ++ r) with (76 :: 69 :: 88 :: 73 :: 67 :: 79 :: 78 :: 58 :: r). rewrite !plain_char by discriminate.
  intros [(q & K)|(q & K)]; discriminate.
Qed.
Lemma header_not_entry : forall h, is_header h -> ~ is_entry h.
Proof. intros h (r & ->) (q & K). discriminate. Qed.
Lemma lone_throws : forall e cnt h x, is_header h -> lone_header e cnt h x = Throw (bad_entry (cnt + 1) (squeeze h)).
Proof.
  intros e cnt h x H. unfold lone_header. rewrite (ref_line e (x_locale x) h (squeeze h)); [reflexivity|].
  split; [intros ->; destruct H as (r & H); discriminate|]. exists (squeeze h). split; [apply squeeze_one|]. left. split; [apply header_no_entry; exact H|reflexivity].
Qed.
Definition skippable (l : text) : Prop := ~ is_header l /\ ~ is_entry l.
Lemma prefix_false : forall w t, has_prefix w t = false -> ~ begins w t.
Proof. intros w t H K. apply has_prefix_iff in K. congruence. Qed.
Lemma find_cases : forall ls line acc cnt, match find_header line acc cnt ls with
  | Found post h a c => exists pre, line :: ls = pre ++ h :: post /\ Forall skippable pre /\ is_header h /\ c = cnt + N.of_nat (List.length pre) /\
      a ++ concat post = acc ++ concat ls
  | Order => exists pre l post, line :: ls = pre ++ l :: post /\ Forall skippable pre /\ is_entry l
  | AtEnd _ _ _ => Forall skippable (line :: ls) end.
Proof.
  induction ls as [|l ls IH]; intros line acc cnt; cbn [find_header];
    (destruct (has_prefix (s2t "LEXICON:") line) eqn:E1;
     [apply has_prefix_iff in E1; exists []; repeat split; [constructor|exact E1|cbn [List.length]; lia]|]); apply prefix_false in E1;
    (destruct (has_prefix (s2t "LEXENTRY:") line) eqn:E2;
     [apply has_prefix_iff in E2; eexists [], _, _; repeat split; [constructor|exact E2]|]); apply prefix_false in E2.
  - constructor; [split; assumption|constructor].
  - specialize (IH l (acc ++ l) (cnt + 1)). destruct (find_header l (acc ++ l) (cnt + 1) ls) as [post h a c| |h a c].
    + destruct IH as (pre & E & F & H & -> & D). exists (line :: pre). split; [cbn [app]; f_equal; exact E|]. split; [constructor; [split; assumption|exact F]|].
      split; [exact H|]. split; [cbn [List.length]; lia|]. rewrite D. cbn [concat]. rewrite <- app_assoc. reflexivity.
    + destruct IH as (pre & l' & post & E & F & H). exists (line :: pre), l', post. split; [cbn [app]; f_equal; exact E|]. split; [constructor; [split; assumption|exact F]|exact H].
    + constructor; [split; assumption|exact IH].
Qed.
Lemma first_split : forall A (P : A -> Prop) p x q p' x' q', p ++ x :: q = p' ++ x' :: q' -> Forall P p -> Forall P p' -> ~ P x -> ~ P x' ->
  p = p' /\ x = x' /\ q = q'.
Proof.
  intros A P. induction p as [|a p IH]; intros x q p' x' q' E F F' N N'; destruct p' as [|b p'].
  - injection E as -> ->. auto.
  - injection E as -> _. inversion F'; contradiction.
  - injection E as -> _. inversion F; contradiction.
  - injection E as -> E. inversion F; inversion F'; subst. destruct (IH _ _ _ _ _ E) as (-> & -> & ->); auto.
Qed.
Lemma find_found : forall line ls acc cnt pre h post, line :: ls = pre ++ h :: post -> Forall skippable pre -> is_header h ->
  exists a, find_header line acc cnt ls = Found post h a (cnt + N.of_nat (List.length pre)) /\ a ++ concat post = acc ++ concat ls.
Proof.
  intros line ls acc cnt pre h post E F H. pose proof (find_cases ls line acc cnt) as C.
  assert (Nh : ~ skippable h) by (intros (K & _); contradiction).
  destruct (find_header line acc cnt ls) as [post' h' a c| |h' a c].
  - destruct C as (pre' & E' & F' & H' & -> & D). rewrite E in E'.
    destruct (first_split _ _ _ _ _ _ _ _ E' F F' Nh) as (-> & -> & ->); [intros (K & _); contradiction|]. exists a. split; [reflexivity|exact D].
  - destruct C as (pre' & l' & post' & E' & F' & H'). rewrite E in E'.
    destruct (first_split _ _ _ _ _ _ _ _ E' F F' Nh) as (-> & -> & ->); [intros (_ & K); contradiction|]. exfalso. exact (header_not_entry _ H H').
  - rewrite E in C. apply Forall_app in C. destruct C as (_ & C). inversion C; contradiction.
Qed.
Lemma find_early : forall line ls acc cnt pre l post, line :: ls = pre ++ l :: post -> Forall skippable pre -> is_entry l ->
  find_header line acc cnt ls = Order.
Proof.
  intros line ls acc cnt pre h post E F H. pose proof (find_cases ls line acc cnt) as C.
  assert (Nh : ~ skippable h) by (intros (_ & K); contradiction).
  destruct (find_header line acc cnt ls) as [post' h' a c| |h' a c]; [|reflexivity|].
  - destruct C as (pre' & E' & F' & H' & _). rewrite E in E'.
    destruct (first_split _ _ _ _ _ _ _ _ E' F F' Nh) as (-> & -> & ->); [intros (K & _); contradiction|]. exfalso. exact (header_not_entry _ H' H).
  - rewrite E in C. apply Forall_app in C. destruct C as (_ & C). inversion C; contradiction.
Qed.
Lemma find_none : forall line ls acc cnt, Forall skippable (line :: ls) -> exists h a c, find_header line acc cnt ls = AtEnd h a c.
Proof.
  intros line ls acc cnt F. pose proof (find_cases ls line acc cnt) as C. rewrite Forall_forall in F.
  destruct (find_header line acc cnt ls) as [post' h' a c| |h' a c]; [| |eauto].
  - destruct C as (pre' & E' & _ & H' & _). exfalso. destruct (F h') as (K & _); [rewrite E'; apply in_elt|exact (K H')].
  - destruct C as (pre' & l' & post' & E' & _ & H'). exfalso. destruct (F l') as (_ & K); [rewrite E'; apply in_elt|exact (K H')].
Qed.
Lemma find_snoc : forall ls line acc cnt r, find_header line acc cnt (ls ++ [r]) =
  match find_header line acc cnt ls with
  | Found p h a c => Found (p ++ [r]) h a c
  | Order => Order
  | AtEnd _ a c => if has_prefix (s2t "LEXICON:") r then Found [] r (a ++ r) (c + 1)
                   else if has_prefix (s2t "LEXENTRY:") r then Order else AtEnd r (a ++ r) (c + 1)
  end.
Proof.
  induction ls as [|l ls IH]; intros line acc cnt r; cbn [app find_header];
    (destruct (has_prefix (s2t "LEXICON:") line); [reflexivity|]); (destruct (has_prefix (s2t "LEXENTRY:") line); [reflexivity|]).
  - cbn [find_header]. destruct (has_prefix (s2t "LEXICON:") r); [reflexivity|]. destruct (has_prefix (s2t "LEXENTRY:") r); reflexivity.
  - apply IH.
Qed.

(** ** The whole text *)
Definition read_rest (e : env) (cnt : N) (post : list text) (h : text) (ended : bool) : lexicon -> outcome (text * lexicon) :=
  if ended then read_body e cnt post [] else
  match post with
  | [] => lone_header e cnt h
  | _ => read_body e cnt (removelast post) (last post [])
  end.
Definition load_lines (e : env) (name : text) (ls : list text) (ended : bool) : outcome lexicon :=
  match ls with
  | [] => Throw (s2t "Lexicon-Invalid-File-Format")
  | l0 :: ls' => obind (lex_strip_bom l0) (fun line =>
      match find_header line l0 1 ls' with
      | Found post h a c => start_body e name h a c (read_rest e (c + 1) post h ended)
      | Order => Throw (s2t "Lexicon-LexEntry-Before-Lexicon")
      | AtEnd _ _ _ => Throw (s2t "Lexicon-Invalid-File-Format")
      end)
  end.
Lemma start_same : forall e name h a c f g, (forall x, f x = g x) -> start_body e name h a c f = start_body e name h a c g.
Proof. intros e name h a c f g H. unfold start_body. destruct (header_fields h) as [[t1 t3] loc]. rewrite H. reflexivity. Qed.
Lemma rest_snoc : forall e cnt post r h, read_rest e cnt (post ++ [r]) h false = read_body e cnt post r.
Proof.
  intros e cnt post r h. unfold read_rest. rewrite removelast_last, last_last. destruct post; reflexivity.
Qed.
Lemma load_single : forall e name r, one_line r -> r <> [] -> load_lexicon e name r = load_lines e name [r] false.
Proof.
  intros e name r O Nr. unfold load_lexicon, load_lines. rewrite getline_tail by assumption.
  destruct (lex_strip_bom r) as [line|m|]; cbn [obind]; [|reflexivity|reflexivity].
  assert (Q : exists f, (List.length r + 3)%nat = S (S f)) by (exists (List.length r + 1)%nat; lia). destruct Q as (f & ->).
  cbn [skip_header s_fail find_header]. destruct (has_prefix (s2t "LEXICON:") line).
  - cbn [obind read_rest]. unfold start_body. destruct (header_fields line) as [[t1 t3] loc]. destruct (_ || _); [|reflexivity].
    cbn [read_entries s_fail]. unfold getline at 1. cbn [s_eof s_fail orb s_rest x_locale]. unfold lone_header. cbn [x_locale].
    destruct (entry_line e loc (1 + 1 + 1) line) as [q|m|]; cbn [obind]; reflexivity.
  - destruct (has_prefix (s2t "LEXENTRY:") line); reflexivity.
Qed.
Lemma load_as_lines : forall e name src ls ended, lines src ls ended -> load_lexicon e name src = load_lines e name ls ended.
Proof.
  intros e name src ls ended (O & [(-> & ->)|(-> & ls' & r & -> & Nr & ->)]).
  - destruct ls as [|l ls]; [reflexivity|]. inversion O; subst. rewrite load_file by (auto; intros []). unfold load_lines.
    destruct (lex_strip_bom l) as [line|m|]; cbn [obind]; [|reflexivity|reflexivity]. destruct (find_header line l 1 ls); reflexivity.
  - apply Forall_app in O. destruct O as (O & Or). apply Forall_inv in Or. destruct ls' as [|l ls]; [apply load_single; assumption|].
    inversion O; subst. rewrite load_file by assumption. cbn [app load_lines].
    destruct (lex_strip_bom l) as [line|m|]; cbn [obind]; [|reflexivity|reflexivity]. rewrite find_snoc.
    destruct (find_header line l 1 ls) as [post h a c| |h a c].
    + apply start_same. intros x. rewrite rest_snoc. reflexivity.
    + reflexivity.
    + unfold at_end. destruct r as [|r0 r]; [congruence|]. destruct (has_prefix _ _); [reflexivity|]. destruct (has_prefix _ _); reflexivity.
Qed.
Lemma lines_some : forall src, exists ls ended, lines src ls ended.
Proof.
  assert (P : forall src, exists ls r, Forall one_line ls /\ one_line r /\ src = file ls r).
  { induction src as [|c src (ls & r & F & O & ->)]; [exists [], []; repeat split; [constructor|intros []]|].
    destruct (N.eq_dec c 10) as [->|Nc].
    - exists ([] :: ls), r. split; [constructor; [intros []|exact F]|]. split; [exact O|reflexivity].
    - destruct ls as [|l ls].
      + exists [], (c :: r). split; [constructor|]. split; [intros [K|K]; [congruence|exact (O K)]|reflexivity].
      + inversion F; subst. exists ((c :: l) :: ls), r. split; [constructor; [intros [K|K]; [congruence|contradiction]|assumption]|]. split; [exact O|]. rewrite !file_cons. reflexivity. }
  intros src. destruct (P src) as (ls & r & F & O & ->). destruct r as [|c r].
  - exists ls, true. split; [exact F|left; auto].
  - exists (ls ++ [c :: r]), false. split; [apply Forall_app; split; [exact F|constructor; [exact O|constructor]]|]. right. split; [reflexivity|].
    exists ls, (c :: r). repeat split. discriminate.
Qed.
Lemma strip_cases : forall l, match lex_strip_bom l with
  | Ok l1 => unmarked l l1 | Throw m => l = [0xFEFF] /\ m = s2t "basic_string::substr" | UB => False end.
Proof.
  intros [|c t]; [apply um_plain; discriminate|]. cbn [lex_strip_bom]. change BOM with 0xFEFF. destruct (N.eqb_spec c 0xFEFF) as [->|Nc].
  - destruct t as [|d t]; [auto|]. unfold utf8_len. destruct (N.ltb_spec d 0x80) as [L|L]; cbn [Nat.eqb]; [apply um_short; exact L|].
    destruct (d <? 0x800); [apply um_long; exact L|]. destruct (d <? 0x10000); apply um_long; exact L.
  - apply um_plain. cbn [hd_error]. congruence.
Qed.
Lemma strip_ok : forall l l1, unmarked l l1 -> lex_strip_bom l = Ok l1.
Proof.
  intros l l1 H. pose proof (strip_cases l) as C. destruct (lex_strip_bom l) as [l2|m|]; [| |destruct C].
  - f_equal. inversion H; subst; inversion C; subst; try reflexivity; try (cbn [hd_error] in *; congruence); lia.
  - destruct C as (-> & _). inversion H. cbn [hd_error] in *. congruence.
Qed.
Lemma header_iff : forall h lg loc, header_of h lg loc <->
  fst (fst (header_fields h)) = s2t "LEXICON:" /\ lg = as_lang (snd (fst (header_fields h))) /\ loc = snd (header_fields h).
Proof.
  intros h lg loc. destruct (header_read h) as (cs & C & ->). cbn [fst snd]. split.
  - intros (cs' & C' & H1 & H2 & H3). rewrite (columns_fun _ _ _ _ C' C) in *. rewrite <- hd_nth. auto.
  - intros (H1 & H2 & H3). exists cs. rewrite hd_nth. auto.
Qed.
Definition empty_lex (name : text) (lg : lang) (loc : text) : lexicon := mkLex name lg loc [] [] [] [] [].
Definition with_digest (y : lexicon) (dg : text) : lexicon :=
  mkLex (x_name y) (x_lang y) (x_locale y) (x_lex y) (x_regex y) (x_pre y) (x_suf y) (md5_hex (bytes_of dg)).
Lemma start_ok : forall e name h a c rd lg loc, header_of h lg loc ->
  start_body e name h a c rd = obind (rd (empty_lex name lg loc)) (fun r => Ok (with_digest (snd r) (a ++ fst r))).
Proof.
  intros e name h a c rd lg loc H. apply header_iff in H. unfold start_body. destruct (header_fields h) as [[t1 t3] l]. cbn [fst snd] in H.
  destruct H as (-> & -> & ->). rewrite teqb_refl. reflexivity.
Qed.
Lemma start_bad : forall e name h a c rd, is_header h -> (forall lg loc, ~ header_of h lg loc) ->
  start_body e name h a c rd = Throw (s2t "Lexicon-Invalid-Data-Format: " ++ dec_text (c + 1) ++ s2t ": " ++ h).
Proof.
  intros e name h a c rd H N. unfold start_body. destruct (header_fields h) as [[t1 t3] l] eqn:E. destruct (_ || _) eqn:Q; [exfalso|reflexivity].
  apply orb_true_iff in Q. destruct Q as [Q|Q]; apply teqb_iff in Q.
  - apply (N (as_lang t3) l). apply header_iff. rewrite E. auto.
  - destruct (header_read h) as (cs & C & E'). apply (mark_lower h H cs C). rewrite E in E'. congruence.
Qed.
Lemma header_dec : forall h, (exists lg loc, header_of h lg loc) \/ (forall lg loc, ~ header_of h lg loc).
Proof.
  intros h. destruct (teqb (fst (fst (header_fields h))) (s2t "LEXICON:")) eqn:E.
  - apply teqb_iff in E. left. eexists _, _. apply header_iff. eauto.
  - right. intros lg loc K. apply header_iff in K. destruct K as (K & _). apply teqb_iff in K. congruence.
Qed.
Lemma snoc_or : forall A (l : list A), l = [] \/ exists a b, l = a ++ [b].
Proof. intros A l. destruct l as [|x l _] using rev_ind; [auto|right; eauto]. Qed.

(** ** The result as computed *)
Lemma sound : forall e name src, match load_lexicon e name src with
  | Ok x => exists lg loc es dg, lexicon_means e src lg loc es dg /\ x = with_digest (run (empty_lex name lg loc) (map Ins es)) dg
  | Throw m => rejection e src m
  | UB => False end.
Proof.
  intros e name src. destruct (lines_some src) as (ls & ended & L). rewrite (load_as_lines e name src ls ended L).
  destruct ls as [|l0 ls']; cbn [load_lines]; [eapply rj_none with (pre := []); [exact L|left; reflexivity]|].
  pose proof (strip_cases l0) as SC. destruct (lex_strip_bom l0) as [line|m|]; cbn [obind]; [| |exact SC].
  2:{ destruct SC as (-> & ->). eapply rj_mark. exact L. }
  pose proof (find_cases ls' line l0 1) as FC. destruct (find_header line l0 1 ls') as [post h a c| |h a c].
  - destruct FC as (pre & E & F & H & -> & D).
    assert (SO : sought (l0 :: ls') pre (h :: post)) by (split; [exact F|exists l0, line, ls'; auto]).
    destruct (header_dec h) as [(lg & loc & HO)|HN].
    2:{ rewrite start_bad by assumption. eapply rj_header; try eassumption. apply decimal_iff. f_equal. lia. }
    rewrite (start_ok e name h a _ _ lg loc HO). set (x0 := empty_lex name lg loc).
    assert (X0 : x_locale x0 = loc) by reflexivity. set (cn := 1 + N.of_nat (List.length pre) + 1).
    destruct ended.
    + unfold read_rest. rewrite read_body_end. pose proof (body_cases e post cn x0) as B. destruct (body e cn post x0) as [y|m|]; cbn [obind fst snd]; [| |exact B].
      * destruct B as (es & B & ->). rewrite app_nil_r, D. exists lg, loc, es, (concat (l0 :: ls')). split; [|reflexivity].
        exists (l0 :: ls'), true, pre, h, post. split; [exact L|]. split; [exact SO|]. split; [exact H|]. split; [exact HO|]. left. split; [reflexivity|]. split; [exact B|reflexivity].
      * destruct B as (p1 & l & p2 & es & shown & -> & B & R & ->). eapply rj_entry; try eassumption. apply decimal_iff. f_equal. unfold cn. lia.
    + destruct (snoc_or _ post) as [-> |(post' & r & ->)].
      * cbn [read_rest]. rewrite lone_throws by exact H. cbn [obind]. eapply rj_alone; try eassumption; [apply squeeze_one|]. apply decimal_iff. f_equal. unfold cn. lia.
      * rewrite rest_snoc. unfold read_body.
        assert (Nr : r <> []).
        { destruct L as (_ & [(K & _)|(_ & u & v & Eu & Nv & _)]); [discriminate|]. intros ->.
          assert (Z : last (l0 :: ls') [1] = v) by (rewrite Eu; apply last_last).
          assert (Z' : last (line :: ls') [1] = []) by (rewrite E; change (h :: post' ++ [[]]) with ((h :: post') ++ [[]]); rewrite app_assoc; apply last_last).
          destruct ls' as [|l1 ls']; [|change (last (l1 :: ls') [1] = []) in Z'; change (last (l1 :: ls') [1] = v) in Z; congruence].
          destruct pre as [|p pre]; [injection E as _ K; destruct post'; discriminate|injection E as _ K; destruct pre; discriminate]. }
        pose proof (body_cases e post' cn x0) as B. destruct (body e cn post' x0) as [y|m|]; cbn [obind fst snd]; [| |exact B].
        -- destruct B as (es & B & ->). assert (YL : x_locale (run x0 (map Ins es)) = loc) by (rewrite run_loc; exact X0).
           destruct r as [|r0 r]; [congruence|]. unfold tail_line. rewrite YL.
           match goal with |- context [entry_line e loc ?k (r0 :: r)] => pose proof (entry_cases e loc k (r0 :: r)) as C1; destruct (entry_line e loc k (r0 :: r)) as [[o1 l1]|m|] end;
             cbn [obind fst snd] in *; [| |exact C1].
           ++ match goal with |- context [entry_line e loc ?k l1] => pose proof (entry_cases e loc k l1) as C2; destruct (entry_line e loc k l1) as [[o2 l2]|m|] end;
                cbn [obind fst snd] in *; [| |exact C2].
              ** exists lg, loc, (es ++ olist o1 ++ olist o2), (concat (l0 :: ls') ++ l1). split.
                 --- exists (l0 :: ls'), false, pre, h, (post' ++ [r0 :: r]). split; [exact L|]. split; [exact SO|]. split; [exact H|]. split; [exact HO|]. right. split; [reflexivity|].
                     exists post', (r0 :: r), es, (olist o1), l1, (olist o2), l2. repeat split; assumption.
                 --- rewrite !ins1_run, <- !run_ins_app. f_equal. rewrite concat_app in D. cbn [concat] in D. rewrite app_nil_r in D.
                     change (concat (l0 :: ls')) with (l0 ++ concat ls'). transitivity ((l0 ++ concat ls') ++ l1); [|reflexivity]. rewrite <- D. rewrite <- app_assoc.
                     rewrite <- app_assoc. reflexivity.
              ** destruct C2 as (shown & R & ->). eapply rj_again; try eassumption. apply decimal_iff. f_equal. unfold cn. lia.
           ++ destruct C1 as (shown & R & ->). eapply (rj_entry e src (l0 :: ls') false pre h lg loc post' (r0 :: r) []); try eassumption. apply decimal_iff. f_equal. unfold cn. lia.
        -- destruct B as (p1 & l & p2 & es & shown & -> & B & R & ->). rewrite <- app_assoc in SO. cbn [app] in SO. eapply rj_entry; try eassumption. apply decimal_iff. f_equal. unfold cn. lia.
  - destruct FC as (pre & l & post & E & F & H). eapply rj_early; [exact L|split; [exact F|exists l0, line, ls'; repeat split; [exact SC|exact E]]|exact H].
  - eapply rj_none; [exact L|]. right. split; [exact FC|]. exists l0, line, ls'. rewrite app_nil_r. auto.
Qed.

(** ** Every meaning and every rejection is computed *)
Lemma to_header : forall e name src ls ended pre h post, lines src ls ended -> sought ls pre (h :: post) -> is_header h ->
  exists a, a ++ concat post = concat ls /\
    load_lexicon e name src = start_body e name h a (N.of_nat (List.length pre) + 1) (read_rest e (N.of_nat (List.length pre) + 2) post h ended).
Proof.
  intros e name src ls ended pre h post L (F & l0 & l1 & ls' & -> & U & E) H. rewrite (load_as_lines e name src _ ended L). cbn [load_lines].
  rewrite (strip_ok _ _ U). cbn [obind]. destruct (find_found l1 ls' l0 1 pre h post E F H) as (a & -> & D). exists a. split; [exact D|].
  replace (1 + N.of_nat (List.length pre)) with (N.of_nat (List.length pre) + 1) by lia.
  replace (N.of_nat (List.length pre) + 1 + 1) with (N.of_nat (List.length pre) + 2) by lia. reflexivity.
Qed.
Lemma rest_last : forall src ls pre h post r, lines src ls false -> sought ls pre (h :: post ++ [r]) -> r <> [].
Proof.
  intros src ls pre h post r (_ & [(K & _)|(_ & u & v & Eu & Nv & _)]) (F & l0 & l1 & ls' & -> & U & E); [discriminate|]. intros ->.
  assert (Z : last (l0 :: ls') [1] = v) by (rewrite Eu; apply last_last).
  assert (Z' : last (l1 :: ls') [1] = []) by (rewrite E; change (h :: post ++ [[]]) with ((h :: post) ++ [[]]); rewrite app_assoc; apply last_last).
  destruct ls' as [|l2 ls']; [|change (last (l2 :: ls') [1] = []) in Z'; change (last (l2 :: ls') [1] = v) in Z; congruence].
  destruct pre as [|p pre]; [injection E as _ K; destruct post; discriminate|injection E as _ K; destruct pre; discriminate].
Qed.
Lemma complete_ok : forall e name src lg loc es dg, lexicon_means e src lg loc es dg ->
  load_lexicon e name src = Ok (with_digest (run (empty_lex name lg loc) (map Ins es)) dg).
Proof.
  intros e name src lg loc es dg (ls & ended & pre & h & post & L & SO & H & HO & C).
  destruct (to_header e name src ls ended pre h post L SO H) as (a & D & ->). rewrite (start_ok e name h a _ _ lg loc HO).
  set (x0 := empty_lex name lg loc). assert (X0 : x_locale x0 = loc) by reflexivity.
  destruct C as [(-> & B & ->)|(-> & post' & r & es' & e1 & l1 & e2 & l2 & -> & B & A1 & A2 & -> & ->)].
  - unfold read_rest. rewrite read_body_end, (body_all e post es _ x0 B). cbn [obind fst snd]. rewrite app_nil_r, D. reflexivity.
  - rewrite rest_snoc. unfold read_body. rewrite (body_all e post' es' _ x0 B). cbn [obind].
    pose proof (rest_last _ _ _ _ _ _ L SO) as Nr. destruct r as [|r0 r]; [congruence|]. unfold tail_line. rewrite run_loc, X0.
    match goal with |- context [entry_line e loc ?k (r0 :: r)] => destruct (acc_line e loc (r0 :: r) e1 l1 k A1) as (o1 & -> & ->) end. cbn [obind fst snd].
    match goal with |- context [entry_line e loc ?k l1] => destruct (acc_line e loc l1 e2 l2 k A2) as (o2 & -> & ->) end. cbn [obind fst snd].
    f_equal. rewrite !ins1_run, <- !run_ins_app. f_equal. rewrite concat_app in D. cbn [concat] in D. rewrite app_nil_r in D.
    rewrite <- D. rewrite <- app_assoc. rewrite <- app_assoc. reflexivity.
Qed.
Lemma complete_throw : forall e name src m, rejection e src m -> load_lexicon e name src = Throw m.
Proof.
  intros e name src m R. destruct R as [ls ended L|ls ended pre L C|ls ended pre l post L SO H|ls ended pre h post k L SO H HN K
    |ls ended pre h lg loc p1 l p2 es shown k L SO H HO B R K|ls pre h lg loc p1 r es e1 l1 shown k L SO H HO B A R K|ls pre h lg loc shown k L SO H HO O K].
  - rewrite (load_as_lines e name src _ ended L). reflexivity.
  - rewrite (load_as_lines e name src _ ended L). destruct C as [-> |(F & l0 & l1 & ls' & -> & U & E)]; [reflexivity|]. cbn [load_lines].
    rewrite (strip_ok _ _ U). cbn [obind]. rewrite app_nil_r in E. subst pre. destruct (find_none l1 ls' l0 1 F) as (h & a & c & ->). reflexivity.
  - rewrite (load_as_lines e name src _ ended L). destruct SO as (F & l0 & l1 & ls' & -> & U & E). cbn [load_lines].
    rewrite (strip_ok _ _ U). cbn [obind]. rewrite (find_early l1 ls' l0 1 pre l post E F H). reflexivity.
  - apply decimal_iff in K. subst k. destruct (to_header e name src ls ended pre h post L SO H) as (a & D & ->). rewrite start_bad by assumption.
    replace (N.of_nat (List.length pre) + 1 + 1) with (N.of_nat (List.length pre) + 2) by lia. reflexivity.
  - apply decimal_iff in K. subst k. destruct (to_header e name src ls ended pre h _ L SO H) as (a & D & ->). rewrite (start_ok e name h a _ _ lg loc HO).
    set (x0 := empty_lex name lg loc). assert (X0 : x_locale x0 = loc) by reflexivity.
    destruct (snoc_or _ p2) as [-> |(p3 & r & ->)].
    + destruct ended.
      * unfold read_rest. rewrite read_body_end, (body_step e p1 es _ x0 [l] B). cbn [body]. rewrite run_loc, X0, (ref_line _ _ _ _ _ R). cbn [obind].
        unfold bad_entry. do 4 f_equal. lia.
      * rewrite rest_snoc. unfold read_body. rewrite (body_all e p1 es _ x0 B). cbn [obind].
        pose proof (rest_last _ _ _ _ _ _ L SO) as Nr. destruct l as [|r0 r]; [congruence|]. unfold tail_line. rewrite run_loc, X0, (ref_line _ _ _ _ _ R). cbn [obind].
        unfold bad_entry. do 4 f_equal. lia.
    + assert (Q : body e (N.of_nat (List.length pre) + 2) (p1 ++ l :: p3) x0 = Throw (bad_entry (N.of_nat (List.length pre + List.length p1) + 3) shown)).
      { rewrite (body_step e p1 es _ x0 (l :: p3) B). cbn [body]. rewrite run_loc, X0, (ref_line _ _ _ _ _ R). cbn [obind]. do 2 f_equal. lia. }
      destruct ended.
      * unfold read_rest. rewrite read_body_end. change (l :: p3 ++ [r]) with ((l :: p3) ++ [r]). rewrite app_assoc.
        assert (Q' : body e (N.of_nat (List.length pre) + 2) ((p1 ++ l :: p3) ++ [r]) x0 = Throw (bad_entry (N.of_nat (List.length pre + List.length p1) + 3) shown)).
        { rewrite <- app_assoc. cbn [app]. rewrite (body_step e p1 es _ x0 (l :: p3 ++ [r]) B). cbn [body]. rewrite run_loc, X0, (ref_line _ _ _ _ _ R). cbn [obind]. do 2 f_equal. lia. }
        rewrite Q'. reflexivity.
      * replace (p1 ++ l :: p3 ++ [r]) with ((p1 ++ l :: p3) ++ [r]) by (rewrite <- app_assoc; reflexivity). rewrite rest_snoc. unfold read_body. rewrite Q. reflexivity.
  - apply decimal_iff in K. subst k. destruct (to_header e name src ls false pre h _ L SO H) as (a & D & ->). rewrite (start_ok e name h a _ _ lg loc HO).
    set (x0 := empty_lex name lg loc). assert (X0 : x_locale x0 = loc) by reflexivity. rewrite rest_snoc. unfold read_body. rewrite (body_all e p1 es _ x0 B). cbn [obind].
    pose proof (rest_last _ _ _ _ _ _ L SO) as Nr. destruct r as [|r0 r]; [congruence|]. unfold tail_line. rewrite run_loc, X0.
    match goal with |- context [entry_line e loc ?k (r0 :: r)] => destruct (acc_line e loc (r0 :: r) e1 l1 k A) as (o1 & -> & ->) end. cbn [obind fst snd].
    rewrite (ref_line _ _ _ _ _ R). cbn [obind]. unfold bad_entry. do 4 f_equal. lia.
  - apply decimal_iff in K. subst k. destruct (to_header e name src ls false pre h _ L SO H) as (a & D & ->). rewrite (start_ok e name h a _ _ lg loc HO).
    unfold read_rest. rewrite lone_throws by exact H. cbn [obind]. assert (shown = squeeze h) by (eapply one_fun; [exact O|apply squeeze_one]). subst shown.
    unfold bad_entry. do 4 f_equal. lia.
Qed.

(** ** The words *)
Lemma of_word_some : forall w es, exists sub, of_word w es sub.
Proof.
  intros w. induction es as [|le es (sub & IH)]; [exists []; constructor|]. destruct (teqb (le_word le) w) eqn:E.
  - apply teqb_iff in E. exists (le :: sub). constructor; assumption.
  - exists sub. apply ow_other; [intros K; apply teqb_iff in K; congruence|exact IH].
Qed.
Lemma of_word_fun : forall w es a b, of_word w es a -> of_word w es b -> a = b.
Proof. intros w es a b H. revert b. induction H; intros b K; inversion K; subst; try contradiction; [reflexivity|f_equal; auto|auto]. Qed.
Lemma once_some : forall (l seen : list lexentry), exists k, once seen l k.
Proof.
  induction l as [|a l IH]; intros seen; [exists []; constructor|]. destruct (in_dec le_dec a seen) as [I|N].
  - destruct (IH seen) as (k & H). exists k. apply on_again; assumption.
  - destruct (IH (a :: seen)) as (k & H). exists (a :: k). apply on_new; assumption.
Qed.
Lemma once_fun : forall A (seen l a b : list A), once seen l a -> once seen l b -> a = b.
Proof. intros A seen l a b H. revert b. induction H; intros b K; inversion K; subst; try contradiction; [reflexivity|f_equal; auto|auto]. Qed.
Lemma run_words : forall w es sub x seen k, lex_wf (x_lex x) -> of_word w es sub -> once seen sub k -> (forall le, In le seen <-> In le (lex_find x w)) ->
  lex_find (run x (map Ins es)) w = lex_find x w ++ k.
Proof.
  intros w es sub x seen k W O. revert x seen k W. induction O as [|le es sub Hw O IH|le es sub Hw O IH]; intros x seen k W K I.
  - inversion K; subst. rewrite app_nil_r. reflexivity.
  - cbn [map run fold_left step]. change (fold_left step (map Ins es) (lex_insert x le)) with (run (lex_insert x le) (map Ins es)).
    assert (Fi := find_insert x le w W). rewrite Hw, teqb_refl in Fi.
    inversion K as [|? ? ? k' Ni K'|? ? ? ? Ii K']; subst.
    + rewrite (IH (lex_insert x le) (le :: seen) k' (insert_wf _ _ W) K').
      * rewrite Fi. destruct (in_dec le_dec le _) as [J|J]; [apply I in J; contradiction|]. rewrite <- app_assoc. reflexivity.
      * intros le'. rewrite Fi. destruct (in_dec le_dec le _) as [J|J]; [apply I in J; contradiction|]. rewrite in_app_iff. simpl. rewrite I. tauto.
    + assert (FE : lex_find (lex_insert x le) (le_word le) = lex_find x (le_word le)) by (rewrite Fi; destruct (in_dec le_dec le _) as [J|J]; [reflexivity|apply I in Ii; contradiction]).
      rewrite (IH (lex_insert x le) seen k (insert_wf _ _ W) K').
      * rewrite FE. reflexivity.
      * intros le'. rewrite FE. apply I.
  - cbn [map run fold_left step]. change (fold_left step (map Ins es) (lex_insert x le)) with (run (lex_insert x le) (map Ins es)).
    assert (Fi := find_insert x le w W). destruct (teqb w (le_word le)) eqn:E; [apply teqb_iff in E; congruence|].
    rewrite (IH (lex_insert x le) seen k (insert_wf _ _ W) K); [rewrite Fi; reflexivity|]. intros le'. rewrite Fi. apply I.
Qed.
Lemma run_fresh : forall es name lg loc, let y := run (empty_lex name lg loc) (map Ins es) in
  x_name y = name /\ x_lang y = lg /\ x_locale y = loc /\ x_regex y = [] /\ x_pre y = [] /\ x_suf y = [] /\ lex_wf (x_lex y) /\
  forall w, exists sub, of_word w es sub /\ once [] sub (lex_find y w).
Proof.
  intros es name lg loc y. assert (W0 : lex_wf (x_lex (empty_lex name lg loc))) by (split; constructor).
  destruct (LexLoad_proofs.run_ins_meta es (empty_lex name lg loc)) as (M1 & M2 & M3).
  split; [exact M1|]. split; [exact M2|]. split; [exact M3|].
  assert (C : forall es x, x_regex x = [] /\ x_pre x = [] /\ x_suf x = [] -> let z := run x (map Ins es) in x_regex z = [] /\ x_pre z = [] /\ x_suf z = []).
  { induction es0 as [|le es0 IH]; intros x H; [exact H|]. cbn [map run fold_left step]. apply IH. unfold lex_insert. destruct (existsb _ _); [exact H|cbn; auto]. }
  destruct (C es (empty_lex name lg loc)) as (C1 & C2 & C3); [repeat split; reflexivity|]. split; [exact C1|]. split; [exact C2|]. split; [exact C3|].
  split; [apply run_wf, W0|]. intros w. destruct (of_word_some w es) as (sub & O). exists sub. split; [exact O|].
  destruct (once_some sub []) as (k & K). assert (E := run_words w es sub (empty_lex name lg loc) [] k W0 O K). unfold y. rewrite E; [exact K|]. intros le. reflexivity.
Qed.
Lemma lex_eta : forall x y, x_name x = x_name y -> x_lang x = x_lang y -> x_locale x = x_locale y -> x_lex x = x_lex y -> x_regex x = x_regex y ->
  x_pre x = x_pre y -> x_suf x = x_suf y -> x_md5 x = x_md5 y -> x = y.
Proof. intros [] []; cbn. intros. congruence. Qed.
Lemma of_word_all : forall w es sub, of_word w es sub -> Forall (fun le => le_word le = w) sub.
Proof. intros w es sub H. induction H; [constructor|constructor; assumption|assumption]. Qed.
Lemma once_nodup : forall A (seen l k : list A), once seen l k -> NoDup k /\ (forall a, In a k -> In a l /\ ~ In a seen).
Proof.
  intros A seen l k H. induction H as [seen|seen a l k N H (I1 & I2)|seen a l k I H (I1 & I2)].
  - split; [constructor|intros a []].
  - split.
    + constructor; [intros K; destruct (I2 _ K) as (_ & K'); apply K'; left; reflexivity|exact I1].
    + intros b [<-|K]; [split; [left; reflexivity|exact N]|]. destruct (I2 _ K) as (K1 & K2). split; [right; exact K1|intros K3; apply K2; right; exact K3].
  - split; [exact I1|]. intros b K. destruct (I2 _ K) as (K1 & K2). split; [right; exact K1|exact K2].
Qed.
Lemma get_of_in : forall A (l : list (text * A)) k v, sorted_keys l -> In (k, v) l -> map_get k l = Some v.
Proof.
  intros A l k v S I. destruct (in_split _ _ I) as (l1 & l2 & ->). clear I. induction l1 as [|[k1 v1] l1 IH]; cbn [app map_get].
  - rewrite teqb_refl. reflexivity.
  - inversion S as [|? ? S' F]; subst. destruct (teqb k k1) eqn:E; [|exact (IH S')]. apply teqb_iff in E. subst k1. exfalso.
    rewrite Forall_forall in F. specialize (F (k, v) (in_elt _ _ _)). cbn [fst] in F. rewrite tltb_irrefl in F. discriminate.
Qed.
Lemma keys_lt : forall A (l : list (text * A)), sorted_keys l <-> StronglySorted (fun a b => text_lt (fst a) (fst b)) l.
Proof. intros A l. apply Trie_proofs.sorted_ext. intros a b. apply tltb_lt. Qed.
Lemma loads : forall e name src x, load_lexicon e name src = Ok x <->
  exists lg loc es dg, lexicon_means e src lg loc es dg /\ x_name x = name /\ x_lang x = lg /\ x_locale x = loc /\
    x_md5 x = md5_hex (bytes_of dg) /\ x_regex x = [] /\ x_pre x = [] /\ x_suf x = [] /\ kept (x_lex x) /\
    forall w, exists sub, of_word w es sub /\ once [] sub (lex_find x w).
Proof.
  intros e name src x. split.
  - intros E. pose proof (sound e name src) as P. rewrite E in P. destruct P as (lg & loc & es & dg & M & ->). exists lg, loc, es, dg. split; [exact M|].
    destruct (run_fresh es name lg loc) as (A1 & A2 & A3 & A4 & A5 & A6 & A7 & A8). cbn [with_digest x_name x_lang x_locale x_md5 x_regex x_pre x_suf x_lex].
    repeat (split; [first [assumption|reflexivity]|]). split; [|exact A8]. destruct A7 as (A7 & A9). split; [apply keys_lt; exact A7|].
    eapply Forall_impl; [|exact A9]. intros kv (H & _). exact H.
  - intros (lg & loc & es & dg & M & H1 & H2 & H3 & H4 & H5 & H6 & H7 & (K1 & K2) & H8). apply keys_lt in K1. rewrite (complete_ok e name src lg loc es dg M). f_equal. symmetry.
    destruct (run_fresh es name lg loc) as (A1 & A2 & A3 & A4 & A5 & A6 & A7 & A8).
    apply lex_eta; cbn [with_digest x_name x_lang x_locale x_md5 x_regex x_pre x_suf x_lex]; try congruence.
    apply find_determines; [|exact A7|].
    + split; [exact K1|]. rewrite Forall_forall in *. intros [k v] I. cbn [fst snd]. assert (G : lex_find x k = v) by (unfold lex_find; rewrite (get_of_in _ _ _ _ K1 I); reflexivity).
      destruct (H8 k) as (sub & O & S). rewrite G in S. destruct (once_nodup _ _ _ _ S) as (N1 & N2). split; [exact (K2 _ I)|]. split; [exact N1|].
      apply Forall_forall. intros le Hle. destruct (N2 _ Hle) as (Hle' & _). apply of_word_all in O. rewrite Forall_forall in O. exact (O _ Hle').
    + intros w. destruct (H8 w) as (s1 & O1 & S1), (A8 w) as (s2 & O2 & S2). rewrite (of_word_fun _ _ _ _ O1 O2) in S1. exact (once_fun _ _ _ _ _ S1 S2).
Qed.
Lemma rejects : forall e name src m, load_lexicon e name src = Throw m <-> rejection e src m.
Proof.
  intros e name src m. split; [|apply complete_throw]. intros E. pose proof (sound e name src) as P. rewrite E in P. exact P.
Qed.
Lemma no_ub : forall e name src, load_lexicon e name src <> UB.
Proof. intros e name src E. pose proof (sound e name src) as P. rewrite E in P. exact P. Qed.
