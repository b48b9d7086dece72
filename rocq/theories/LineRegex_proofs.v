(** The regular expressions for the lines of grammars and lexicons recognize the kinds of lines of the specification. *)
From Coq Require Import String List NArith Bool Lia Arith.
From Verif Require Import Base_model Class_model Float_model Uni_model Rule_model Search_model Grammar_model Regex_model Md5_model Lexicon_model LineRegex_model
  Trie_model Search_spec Grammar_spec LexFile_spec Search_proofs GrammarLine_proofs Trie_proofs TrieRegex_proofs TokParse_proofs Match_proofs TokMatch_proofs Classify_proofs LexFile_proofs LexLoad_proofs.
Import ListNotations.
Local Open Scope N_scope.

Definition sp_re : re := RStar (RSet false [ISpace]).
Lemma lang_sp : forall u, rlang u false sp_re (blanks u).
Proof. intros u. eapply lang_weaken; [|apply lang_star_set]. intros t. unfold blanks. apply Forall_iff. intros c. rewrite set1. reflexivity. Qed.
Lemma lang_chr : forall u c, rlang u false (RChr c) (fun t => t = [c]).
Proof.
  intros u c. eapply lang_weaken; [|apply lang_set]. intros t. cbv beta. split.
  - intros (d & -> & H). rewrite set1 in H. cbn [item_has] in H. unfold ceq in H. apply N.eqb_eq in H. subst d. reflexivity.
  - intros ->. exists c. split; [reflexivity|]. rewrite set1. cbn [item_has]. unfold ceq. apply N.eqb_refl.
Qed.
Lemma bool_iff : forall a b : bool, (a = true <-> b = true) -> a = b.
Proof. intros [] [] H; try reflexivity; [symmetry; apply H; reflexivity|apply H; reflexivity]. Qed.
Lemma find_split : forall A (f : A -> bool) a b, find f (a ++ b) = match find f a with Some x => Some x | None => find f b end.
Proof. intros A f a b. induction a as [|x a IH]; [reflexivity|]. cbn [app find]. destruct (f x); [reflexivity|exact IH]. Qed.

(** ** Comments *)
Lemma comment_iff : forall u l, comment_re u l = Ok true <-> comment_line u l.
Proof.
  intros u l. unfold comment_re, u32regex_match. set (r := parse_re _). vm_compute in r. subst r. cbv beta iota.
  change (RSet false [IChr 35]) with (RChr 35). change (RStar (RSet false [ISpace])) with sp_re.
  set (a := RCat RBol (RCat sp_re (RCat (RChr 35) _))). set (b := RCat RBol (RCat sp_re (RCat REol _))).
  assert (M : forall x, match_all u false (RAlt a b) x = match match_all u false a x with Some y => Some y | None => match_all u false b x end).
  { intros x. unfold match_all. cbn [mt]. apply find_split. }
  rewrite M.
  assert (A : (match match_all u false a l with Some _ => true | None => false end) = true <-> exists x t', l = x ++ 35 :: t' /\ blanks u x).
  { subst a. erewrite match_bol_iff; [|eapply all_cat; [apply lang_sp|eapply all_cat; [apply lang_chr|eapply all_cat; [apply lang_star_dot|apply all_empty]]]].
    cbv beta. split.
    - intros (x & y & -> & Hx & x1 & y1 & -> & -> & x2 & y2 & -> & _ & ->). exists x, (x2 ++ []). auto.
    - intros (x & t & -> & Hx). exists x, (35 :: t). split; [reflexivity|]. split; [exact Hx|]. exists [35], t. split; [reflexivity|]. split; [reflexivity|].
      exists t, []. rewrite app_nil_r. auto. }
  assert (B : (match match_all u false b l with Some _ => true | None => false end) = true <-> blanks u l).
  { subst b. erewrite match_bol_iff; [|eapply all_cat; [apply lang_sp|apply all_eol]]. cbv beta. split.
    - intros (x & y & -> & Hx & ->). rewrite app_nil_r. exact Hx.
    - intros H. exists l, []. rewrite app_nil_r. auto. }
  transitivity ((exists x t', l = x ++ 35 :: t' /\ blanks u x) \/ blanks u l).
  - rewrite <- A, <- B. destruct (match_all u false a l); [|destruct (match_all u false b l)]; split; auto; intros H; try discriminate H.
    + destruct H as [H|H]; discriminate H.
  - unfold comment_line. split.
    + intros [(x & t & -> & H)|H]; [exists x, (35 :: t); split; [reflexivity|split; [exact H|right; exists t; reflexivity]]|].
      exists l, []. rewrite app_nil_r. auto.
    + intros (x & t & -> & H & [->|(t' & ->)]); [right; rewrite app_nil_r; exact H|left; exists x, t'; auto].
Qed.
Lemma ok_bool : forall (o : outcome bool) (b : bool), (exists c, o = Ok c) -> (o = Ok true <-> b = true) -> o = Ok b.
Proof. intros o b (c & ->) H. f_equal. apply bool_iff. rewrite <- H. split; [intros ->; reflexivity|intros E; injection E as ->; reflexivity]. Qed.
Lemma match_ok : forall u pat l, parse_re pat <> None -> exists c, u32regex_match u false pat l = Ok c.
Proof. intros u pat l H. unfold u32regex_match. destruct (parse_re pat); [eexists; reflexivity|exfalso; apply H; reflexivity]. Qed.
Lemma comment_same : forall u l, uni_ok u -> comment_re u l = Ok (is_comment u l).
Proof.
  intros u l U. apply ok_bool; [apply match_ok; vm_compute; discriminate|]. rewrite comment_iff. symmetry. apply is_comment_spec. exact U.
Qed.

(** ** Section names *)
Lemma reads_nil_eq : forall s s' w, reads s s' w -> m_rest s = w ++ m_rest s'.
Proof. intros s s' w (H & _). exact H. Qed.
Lemma section_ways : forall u l s, In s (mt u false (RCat RBol (RCat sp_re (RCat (RChr 91) (RCat (RCap 1 (RCat (RPlus RDot) REmpty))
    (RCat (RChr 93) (RCat sp_re (RCat REol REmpty))))))) (m_start l)) -> m_rest s = [] -> header_line u l (cap 1 s).
Proof.
  intros u l s H R. cbn [mt] in H. unfold guard in H. cbn [at_bol m_start m_prev flat_map app] in H.
  apply in_app_iff in H. destruct H as [H|[]].
  apply in_flat_map in H. destruct H as (s1 & H1 & H). apply in_flat_map in H. destruct H as (s2 & H2 & H).
  apply in_flat_map in H. destruct H as (s3 & H3 & H). apply in_flat_map in H. destruct H as (s4 & H4 & H). apply in_flat_map in H. destruct H as (s5 & H5 & H).
  apply in_map_iff in H3. destruct H3 as (s3' & E3 & H3).
  destruct (proj1 (lang_sp u (m_start l) (m_rest s1)) (ex_intro _ s1 (conj H1 eq_refl))) as (a & Ea & Ba). cbn [m_start m_rest] in Ea.
  destruct (proj1 (lang_chr u 91 s1 (m_rest s2)) (ex_intro _ s2 (conj H2 eq_refl))) as (x & Ex & ->).
  assert (H3' : In s3' (mt u false (RCat (RPlus RDot) REmpty) s2)) by exact H3.
  destruct (mt_reads _ _ _ _ _ H3') as (n & Rn). pose proof (consumed_reads _ _ _ Rn) as Cn. rewrite Cn in E3.
  rewrite cat_empty in H3'. destruct (proj1 (lang_plus_dot u false s2 (m_rest s3')) (ex_intro _ s3' (conj H3' eq_refl))) as (n' & En & Nn).
  pose proof (reads_nil_eq _ _ _ Rn) as En2. assert (n' = n) by (rewrite En in En2; apply app_inv_tail in En2; exact En2). subst n'.
  assert (R3 : m_rest s3 = m_rest s3') by (subst s3; reflexivity).
  destruct (proj1 (lang_chr u 93 s3 (m_rest s4)) (ex_intro _ s4 (conj H4 eq_refl))) as (y & Ey & ->).
  destruct (proj1 (lang_sp u s4 (m_rest s5)) (ex_intro _ s5 (conj H5 eq_refl))) as (b & Eb & Bb).
  assert (E5 : m_rest s5 = []).
  { apply (proj1 (all_eol u false s5)). exists s. split; [|exact R]. cbn [mt]. exact H. }
  assert (C : m_caps s = (1%nat, n) :: m_caps s3').
  { transitivity (m_caps s5); [apply (mt_caps u false (RCat REol REmpty) eq_refl s5); exact H|].
    transitivity (m_caps s4); [apply (mt_caps u false sp_re eq_refl s4); exact H5|].
    transitivity (m_caps s3); [apply (mt_caps u false (RChr 93) eq_refl s3); exact H4|]. subst s3. reflexivity. }
  unfold cap. rewrite C. cbn [cap_find Nat.eqb]. exists a, b. rewrite E5, app_nil_r in Eb. split; [|auto].
  rewrite Ea, Ex, En, <- R3, Ey, Eb. reflexivity.
Qed.
Lemma section_has : forall u l n, header_line u l n -> exists s, In s (mt u false (RCat RBol (RCat sp_re (RCat (RChr 91) (RCat (RCap 1 (RCat (RPlus RDot) REmpty))
    (RCat (RChr 93) (RCat sp_re (RCat REol REmpty))))))) (m_start l)) /\ m_rest s = [].
Proof.
  intros u l n (a & b & -> & A & B & Nn). cbn [mt]. unfold guard. cbn [at_bol m_start m_prev flat_map].
  match goal with |- exists s, In s (?x ++ []) /\ _ => replace (x ++ []) with x by (symmetry; apply app_nil_r) end.
  assert (RR : rall u false (RCat sp_re (RCat (RChr 91) (RCat (RCap 1 (RCat (RPlus RDot) REmpty)) (RCat (RChr 93) (RCat sp_re (RCat REol REmpty))))))
    (fun t => exists x y, t = x ++ y /\ blanks u x /\ exists x1 y1, y = x1 ++ y1 /\ x1 = [91] /\ exists x2 y2, y1 = x2 ++ y2 /\ (exists x3 y3, x2 = x3 ++ y3 /\ x3 <> [] /\ y3 = []) /\
       exists x4 y4, y2 = x4 ++ y4 /\ x4 = [93] /\ exists x5 y5, y4 = x5 ++ y5 /\ blanks u x5 /\ y5 = [])).
  { eapply all_cat; [apply lang_sp|]. eapply all_cat; [apply lang_chr|]. eapply all_cat; [eapply lang_cap, lang_cat; [apply lang_plus_dot|apply lang_empty]|].
    eapply all_cat; [apply lang_chr|]. eapply all_cat; [apply lang_sp|apply all_eol]. }
  apply (proj2 (RR (m_start (a ++ 91 :: n ++ 93 :: b)))). cbn [m_start m_rest].
  exists a, (91 :: n ++ 93 :: b). split; [reflexivity|]. split; [exact A|]. exists [91], (n ++ 93 :: b). split; [reflexivity|]. split; [reflexivity|].
  exists n, (93 :: b). split; [reflexivity|]. split; [exists n, []; rewrite app_nil_r; auto|]. exists [93], b. split; [reflexivity|]. split; [reflexivity|].
  exists b, []. rewrite app_nil_r. auto.
Qed.
Lemma section_same : forall u l, uni_ok u -> section_re u l = Ok (section_header u l).
Proof.
  intros u l U. unfold section_re, with_regex. set (r := parse_re _). vm_compute in r. subst r. cbv beta iota. f_equal.
  change (RSet false [IChr 91]) with (RChr 91). change (RSet false [IChr 93]) with (RChr 93). change (RStar (RSet false [ISpace])) with sp_re.
  unfold match_all. destruct (find _ _) as [s|] eqn:F.
  - apply find_some in F. destruct F as (I & R). symmetry. apply section_header_spec; [exact U|]. apply section_ways; [exact I|].
    destruct (m_rest s); [reflexivity|discriminate R].
  - symmetry. apply header_None; [exact U|]. intros n H. apply section_has in H. destruct H as (s & I & R).
    pose proof (find_none _ _ F s I) as Z. cbv beta in Z. rewrite R in Z. discriminate Z.
Qed.

(** ** Meta rules *)
Inductive many (P : text -> Prop) : text -> Prop :=
| many0 : many P []
| manyS : forall a b, P a -> many P b -> many P (a ++ b).
Lemma star_many : forall u ic r P, rlang u ic r P -> ~ P [] -> forall n s b, (List.length (m_rest s) <= n)%nat ->
  (exists s', In s' (star_of (mt u ic r) n s) /\ m_rest s' = b) <-> (exists a, m_rest s = a ++ b /\ many P a).
Proof.
  intros u ic r P H Np. induction n as [|n IH]; intros s b L.
  - cbn [star_of]. destruct (m_rest s) as [|c t] eqn:E; [|cbn [List.length] in L; lia]. split.
    + intros (s' & [<-|[]] & <-). exists []. rewrite E. split; [reflexivity|constructor].
    + intros (a & Eb & _). exists s. split; [left; reflexivity|]. destruct a; [|discriminate Eb]. rewrite E. exact Eb.
  - cbn [star_of]. split.
    + intros (s' & I & R). apply in_app_iff in I. destruct I as [I|[<-|[]]]; [|exists []; split; [rewrite R; reflexivity|constructor]].
      apply in_flat_map in I. destruct I as (s1 & I1 & I2). destruct (Nat.ltb_spec (List.length (m_rest s1)) (List.length (m_rest s))) as [K|K]; [|destruct I2].
      destruct (proj1 (H s (m_rest s1)) (ex_intro _ s1 (conj I1 eq_refl))) as (x & Ex & Px).
      destruct (proj1 (IH s1 b ltac:(lia)) (ex_intro _ s' (conj I2 R))) as (y & Ey & My).
      exists (x ++ y). split; [rewrite Ex, Ey, app_assoc; reflexivity|constructor; assumption].
    + intros (a & Ea & Ma). destruct Ma as [|x y Px My].
      * exists s. split; [apply in_app_iff; right; left; reflexivity|exact Ea].
      * rewrite <- app_assoc in Ea. destruct (proj2 (H s (y ++ b)) (ex_intro _ x (conj Ea Px))) as (s1 & I1 & R1).
        assert (K : (List.length (m_rest s1) < List.length (m_rest s))%nat).
        { rewrite R1, Ea, !app_length. destruct x; [exfalso; exact (Np Px)|]. cbn [List.length]. lia. }
        destruct (proj2 (IH s1 b ltac:(lia)) (ex_intro _ y (conj R1 My))) as (s' & I2 & R2).
        exists s'. split; [|exact R2]. apply in_app_iff. left. apply in_flat_map. exists s1. split; [exact I1|].
        rewrite (proj2 (Nat.ltb_lt _ _) K). exact I2.
Qed.
Lemma lang_plus : forall u ic r P, rlang u ic r P -> ~ P [] -> rlang u ic (RPlus r) (fun t => exists a b, t = a ++ b /\ P a /\ many P b).
Proof.
  intros u ic r P H Np s b. cbn [mt]. split.
  - intros (s' & I & R). apply in_flat_map in I. destruct I as (s1 & I1 & I2).
    destruct (proj1 (H s (m_rest s1)) (ex_intro _ s1 (conj I1 eq_refl))) as (x & Ex & Px).
    destruct (proj1 (star_many u ic r P H Np _ s1 b (le_n _)) (ex_intro _ s' (conj I2 R))) as (y & Ey & My).
    exists (x ++ y). split; [rewrite Ex, Ey, app_assoc; reflexivity|exists x, y; auto].
  - intros (t & E & x & y & -> & Px & My). rewrite <- app_assoc in E.
    destruct (proj2 (H s (y ++ b)) (ex_intro _ x (conj E Px))) as (s1 & I1 & R1).
    destruct (proj2 (star_many u ic r P H Np _ s1 b (le_n _)) (ex_intro _ y (conj R1 My))) as (s' & I2 & R2).
    exists s'. split; [|exact R2]. apply in_flat_map. exists s1. auto.
Qed.
Lemma name_set : forall u c, set_pred u false false [IWord; IChr 95] c = name_char u c.
Proof. intros u c. unfold set_pred, name_char. rewrite xorb_false_l. cbn [existsb item_has]. unfold ceq, UNDERSCORE. rewrite orb_false_r, (N.eqb_sym 95). reflexivity. Qed.
Definition ref_text (u : uni) (t : text) : Prop := exists a n, t = a ++ 64 :: n /\ blanks u a /\ n <> [] /\ Forall (ident_char u) n.
Lemma many_all : forall (q : N -> Prop) t, many (fun x => exists c, x = [c] /\ q c) t <-> Forall q t.
Proof.
  intros q t. split.
  - induction 1 as [|a b (c & -> & Q) _ IH]; [constructor|]. constructor; assumption.
  - induction 1 as [|c t C T IH]; [constructor|]. change (c :: t) with ([c] ++ t). constructor; [exists c; auto|exact IH].
Qed.
Lemma ref_lang : forall u, rlang u false (RCat sp_re (RCat (RChr 64) (RCat (RPlus (RCat (RSet false [IWord; IChr 95]) REmpty)) REmpty))) (ref_text u).
Proof.
  intros u. assert (A : rlang u false (RCat (RSet false [IWord; IChr 95]) REmpty) (fun t => exists c, t = [c] /\ ident_char u c)).
  { intros s b. rewrite cat_empty. apply (lang_weaken u false (RSet false [IWord; IChr 95]) (fun a => exists c, a = [c] /\ set_pred u false false [IWord; IChr 95] c = true)); [|apply lang_set].
    intros t. split; intros (c & -> & H); exists c; (split; [reflexivity|]); [rewrite name_set in H; apply name_char_spec; exact H|rewrite name_set; apply name_char_spec; exact H]. }
  eapply lang_weaken; [|eapply lang_cat; [apply lang_sp|eapply lang_cat; [apply lang_chr|eapply lang_cat; [apply (lang_plus u false _ _ A)|apply lang_empty]]]].
  2:{ intros (c & H & _). discriminate H. }
  intros t. cbv beta. unfold ref_text. split.
  - intros (x & y & -> & Bx & x1 & y1 & -> & -> & x2 & y2 & -> & (x3 & y3 & -> & (c & -> & C) & M) & ->).
    exists x, (c :: y3). rewrite app_nil_r. split; [reflexivity|]. split; [exact Bx|]. split; [discriminate|]. constructor; [exact C|]. apply many_all. exact M.
  - intros (a & n & -> & Ba & Nn & F). destruct F as [|c n C F]; [exfalso; apply Nn; reflexivity|].
    exists a, (64 :: c :: n). split; [reflexivity|]. split; [exact Ba|]. exists [64], (c :: n). split; [reflexivity|]. split; [reflexivity|].
    exists (c :: n), []. rewrite app_nil_r. split; [reflexivity|]. split; [|reflexivity]. exists [c], n. split; [reflexivity|]. split; [exists c; auto|]. apply many_all. exact F.
Qed.
Lemma refs_many : forall u t b, many (ref_text u) t -> blanks u b -> exists ns, refs_line u (t ++ b) ns.
Proof.
  intros u t b M B. induction M as [|x y (a & n & -> & Ba & Nn & F) _ (ns & IH)]; [exists []; constructor; exact B|].
  exists (n :: ns). rewrite <- !app_assoc. cbn [app]. constructor; assumption.
Qed.
Lemma many_refs : forall u l ns, refs_line u l ns -> exists t b, l = t ++ b /\ many (ref_text u) t /\ blanks u b.
Proof.
  intros u l ns H. induction H as [t B|a n t ns Ba Nn F _ (t' & b & -> & M & B)].
  - exists [], t. split; [reflexivity|]. split; [constructor|exact B].
  - exists ((a ++ 64 :: n) ++ t'), b. split; [rewrite <- !app_assoc; cbn [app]; reflexivity|]. split; [|exact B].
    constructor; [|exact M]. exists a, n. auto.
Qed.
Lemma meta_iff : forall u l, ismeta_re u l = Ok true <-> exists ns, meta_line u l ns.
Proof.
  intros u l. unfold ismeta_re, u32regex_match. set (r := parse_re _). vm_compute in r. subst r. cbv beta iota.
  change (RSet false [IChr 64]) with (RChr 64). change (RStar (RSet false [ISpace])) with sp_re.
  match goal with |- Ok ?b = Ok true <-> _ => transitivity (b = true) end.
  { split; [intros H; apply (f_equal (fun o => match o with Ok x => x | _ => false end)) in H; exact H|intros ->; reflexivity]. }
  assert (Nil : ~ ref_text u []) by (intros (a & n & E & _); symmetry in E; apply app_eq_nil in E; destruct E as (_ & E); discriminate E).
  erewrite match_bol_iff; [|eapply all_cat; [apply (lang_plus u false _ _ (ref_lang u) Nil)|eapply all_cat; [apply lang_sp|apply all_eol]]].
  cbv beta. split.
  - intros (x & y & -> & (x1 & y1 & -> & (a & n & -> & Ba & Nn & F) & M) & b & z & -> & B & ->). rewrite app_nil_r.
    destruct (refs_many u y1 b M B) as (ns & R). exists (n :: ns). split; [|discriminate].
    rewrite <- !app_assoc. cbn [app]. constructor; assumption.
  - intros (ns & R & Nn). destruct R as [t B|a n t ns Ba Nx F R]; [exfalso; apply Nn; reflexivity|].
    destruct (many_refs u t ns R) as (y & b & -> & M & B). exists ((a ++ 64 :: n) ++ y), b.
    split; [rewrite <- !app_assoc; cbn [app]; reflexivity|]. split; [exists (a ++ 64 :: n), y; split; [reflexivity|]; split; [exists a, n; auto|exact M]|].
    exists b, []. rewrite app_nil_r. auto.
Qed.
Lemma meta_same : forall u l, uni_ok u -> ismeta_re u l = Ok (is_meta u l).
Proof.
  intros u l U. apply ok_bool; [apply match_ok; vm_compute; discriminate|]. rewrite meta_iff. symmetry. apply is_meta_spec. exact U.
Qed.

(** ** References *)
Definition ref_re : re := RCat (RChr 64) (RCat (RCap 1 (RCat (RPlus (RSet false [IWord; IChr 95])) REmpty)) REmpty).
Lemma spans_hd : forall p t, exists l, spans p t = fst (span p t) :: l.
Proof.
  intros p. induction t as [|c t (l & IH)]; [exists []; reflexivity|]. cbn [spans span]. destruct (p c); [|exists []; reflexivity].
  rewrite IH. destruct (span p t) as (a, r). cbn [fst map app]. eexists. reflexivity.
Qed.
Lemma spans1_hd : forall p t, match fst (span p t) with [] => spans1 p t = [] | n => exists l, spans1 p t = n :: l end.
Proof.
  intros p [|c t]; [reflexivity|]. cbn [span spans1]. destruct (p c) eqn:E; [|reflexivity]. destruct (spans_hd p t) as (l & ->).
  destruct (span p t) as (a, r). cbn [fst map]. eexists. reflexivity.
Qed.
Lemma spans_ext : forall p q, (forall c, p c = q c) -> forall t, spans p t = spans q t.
Proof. intros p q H. induction t as [|c t IH]; [reflexivity|]. cbn [spans]. rewrite H, IH. reflexivity. Qed.
Lemma spans1_ext : forall p q, (forall c, p c = q c) -> forall t, spans1 p t = spans1 q t.
Proof. intros p q H [|c t]; [reflexivity|]. cbn [spans1]. rewrite H, (spans_ext p q H). reflexivity. Qed.
Lemma cap_cat : forall u k r s, mt u false (RCat (RCap k r) REmpty) s = map (fun s' => mkM (m_prev s') (m_rest s') ((k, consumed s s') :: m_caps s')) (mt u false r s).
Proof. intros u k r s. rewrite cat_empty. reflexivity. Qed.
Lemma adv_consumed : forall s n r, m_rest s = n ++ r -> consumed s (adv s n) = n.
Proof. intros s n r E. apply consumed_reads. split; [rewrite (adv_rest s n r E); exact E|reflexivity]. Qed.
Lemma ref_ways : forall u prev c t, match (if c =? 64 then fst (span (name_char u) t) else []) with
  | [] => mt u false ref_re (mkM prev (c :: t) []) = []
  | n => exists s l, mt u false ref_re (mkM prev (c :: t) []) = s :: l /\ m_rest s = snd (span (name_char u) t) /\ cap 1 s = n
  end.
Proof.
  intros u prev c t. unfold ref_re. change (mt u false (RCat (RChr 64) ?x)) with (fun s => flat_map (mt u false x) (mt u false (RChr 64) s)). cbv beta.
  cbn [mt RChr]. unfold one_char. cbn [m_rest existsb item_has xorb]. unfold ceq. rewrite orb_false_r, (N.eqb_sym 64).
  destruct (c =? 64); [|reflexivity]. cbn [flat_map]. rewrite app_nil_r. unfold m_step. cbn [m_caps]. set (s0 := mkM (Some c) t []).
  change (mt u false (RCat (RCap 1 (RCat (RPlus (RSet false [IWord; IChr 95])) REmpty)) REmpty) s0) with (mt u false (RCat (RCap 1 (RCat (RPlus (RSet false [IWord; IChr 95])) REmpty)) REmpty) s0).
  match goal with |- context [flat_map ?f (map ?g ?x)] => change (flat_map f (map g x)) with (mt u false (RCat (RCap 1 (RCat (RPlus (RSet false [IWord; IChr 95])) REmpty)) REmpty) s0) end.
  rewrite cap_cat, cat_empty, plus_ways, (spans1_ext _ _ (name_set u)). pose proof (spans1_hd (name_char u) t) as H.
  pose proof (span_spec (name_char u) t (fst (span (name_char u) t)) (snd (span (name_char u) t)) (surjective_pairing _)) as (E & _ & _).
  change (m_rest s0) with t. destruct (fst (span (name_char u) t)) as [|x n]; [rewrite H; reflexivity|]. destruct H as (l & ->). cbn [map].
  eexists. eexists. split; [reflexivity|]. cbn [m_rest]. split; [apply adv_rest; exact E|]. unfold cap. cbn [m_caps cap_find Nat.eqb]. apply (adv_consumed s0 _ _ E).
Qed.
Fixpoint next_ref (u : uni) (t : text) : option (text * text) :=
  match t with
  | [] => None
  | c :: t' => match (if c =? 64 then fst (span (name_char u) t') else []) with [] => next_ref u t' | n => Some (n, snd (span (name_char u) t')) end
  end.
Lemma search_ref : forall u t prev, match next_ref u t with
  | None => search_from u false ref_re prev t = None
  | Some (n, r) => n <> [] /\ exists a s, search_from u false ref_re prev t = Some (a, s) /\ m_rest s = r /\ cap 1 s = n
  end.
Proof.
  intros u. induction t as [|c t IH]; intros prev; [reflexivity|]. cbn [next_ref]. pose proof (ref_ways u prev c t) as W.
  destruct (if c =? 64 then fst (span (name_char u) t) else []) as [|x n].
  - cbn [search_from]. rewrite W. specialize (IH (Some c)). destruct (next_ref u t) as [(m, r)|].
    + destruct IH as (Nm & a & s & -> & R & C). split; [exact Nm|]. exists (c :: a), s. auto.
    + rewrite IH. reflexivity.
  - destruct W as (s & l & E & R & C). split; [discriminate|]. exists [], s. cbn [search_from]. rewrite E. auto.
Qed.
Lemma search_step : forall f u t, meta_search (S f) u ref_re t = match next_ref u t with
  | None => Ok [] | Some (n, r) => obind (meta_search f u ref_re r) (fun l => Ok (new_ref n :: l)) end.
Proof.
  intros f u t. cbn [meta_search]. unfold regex_search. pose proof (search_ref u t None) as H. destruct (next_ref u t) as [(n, r)|]; [|rewrite H; reflexivity].
  destruct H as (Nn & a & s & -> & -> & ->). destruct n; [exfalso; apply Nn; reflexivity|reflexivity].
Qed.
Lemma span_len : forall p t, (List.length (snd (span p t)) <= List.length t)%nat.
Proof. intros p. induction t as [|c t IH]; [apply le_n|]. cbn [span]. destruct (p c); [|apply le_n]. destruct (span p t) as (a, r). cbn [snd List.length] in *. lia. Qed.
Lemma refs_same : forall u k t f g, (List.length t <= k)%nat -> (List.length t < f)%nat -> (List.length t < g)%nat -> meta_search g u ref_re t = Ok (meta_refs f u t).
Proof.
  intros u. induction k as [|k IH]; intros t f g L F G; (destruct t as [|c t]; [destruct f; [lia|]; destruct g; [lia|]; rewrite search_step; reflexivity|]); cbn [List.length] in *; [lia|].
  destruct f as [|f]; [lia|]. destruct g as [|g]; [lia|]. pose proof (span_len (name_char u) t) as Ls.
  rewrite search_step. cbn [next_ref]. destruct (N.eqb_spec c 64) as [->|N1].
  - cbn [meta_refs]. cbn [drop_while]. change (64 =? AT) with true. cbn [negb]. destruct (span (name_char u) t) as (n, r) eqn:E. cbn [fst snd] in *. destruct n as [|x n].
    + rewrite <- search_step. apply IH; lia.
    + rewrite (IH r f g) by lia. reflexivity.
  - rewrite <- search_step. rewrite (IH t (S f) (S g)) by lia. cbn [meta_refs drop_while]. change AT with 64. rewrite (proj2 (N.eqb_neq _ _) N1). reflexivity.
Qed.
Lemma metarule_same : forall u l, metarule_re u l = Ok (meta_rule_of u l).
Proof.
  intros u l. unfold metarule_re, with_regex. set (r := parse_re _). vm_compute in r. subst r. cbv beta iota.
  apply (refs_same u (List.length l)); lia.
Qed.

(** ** The loader of grammars *)
Lemma line_same : forall u atof s l, uni_ok u -> load_line_re u atof s l = load_line u atof s l.
Proof.
  intros u atof s l U. unfold load_line_re, load_line. rewrite comment_same by exact U. cbn [obind]. destruct (is_comment u l); [reflexivity|].
  rewrite section_same by exact U. cbn [obind]. destruct (section_header u l); [reflexivity|]. destruct (l_sec s); [reflexivity|].
  destruct (has_char AT l); [|reflexivity]. destruct (l_type s); try reflexivity; rewrite meta_same by exact U; cbn [obind]; (destruct (is_meta u l); [rewrite metarule_same|]; reflexivity).
Qed.
Lemma loop_same : forall u atof, uni_ok u -> forall f first is line s, load_loop_re f u atof first is line s = load_loop f u atof first is line s.
Proof.
  intros u atof U. induction f as [|f IH]; intros first is line s; [reflexivity|]. cbn [load_loop_re load_loop]. destruct (s_fail is); [reflexivity|].
  destruct (getline LF is line) as (is', raw). destruct (if first then strip_bom raw else Ok raw) as [l| |]; [|reflexivity|reflexivity]. cbn [obind].
  rewrite line_same by exact U. destruct (load_line u atof s l) as [s'| |]; [|reflexivity|reflexivity]. cbn [obind]. apply IH.
Qed.
Lemma grammar_same : forall u atof src, uni_ok u -> load_grammar_re u atof src = load_grammar u atof src.
Proof. intros u atof src U. unfold load_grammar_re, load_grammar, load_sections. rewrite loop_same by exact U. reflexivity. Qed.

(** ** Runs of blanks *)
Definition run_re : re := RCat (RCap 1 (RCat (RPlus (RChr 32)) REmpty)) REmpty.
Lemma blank_set : forall u c, set_pred u false false [IChr 32] c = (c =? 32).
Proof. intros u c. rewrite set1. cbn [item_has]. unfold ceq. apply N.eqb_sym. Qed.
Lemma run_ways : forall u prev c t, if c =? 32 then exists s l, mt u false run_re (mkM prev (c :: t) []) = s :: l /\ m_rest s = snd (span (fun x => x =? 32) t)
  else mt u false run_re (mkM prev (c :: t) []) = [].
Proof.
  intros u prev c t. unfold run_re. rewrite cap_cat, cat_empty. unfold RChr. rewrite plus_ways, (spans1_ext _ _ (blank_set u)). set (s0 := mkM prev (c :: t) []). change (m_rest s0) with (c :: t).
  cbn [spans1]. destruct (c =? 32) eqn:C; [|reflexivity]. destruct (spans_hd (fun x => x =? 32) t) as (l & ->).
  pose proof (span_spec (fun x => x =? 32) t (fst (span (fun x => x =? 32) t)) (snd (span (fun x => x =? 32) t)) (surjective_pairing _)) as (E & _ & _).
  cbn [map]. eexists. eexists. split; [reflexivity|]. cbn [m_rest]. apply adv_rest. change (m_rest s0) with (c :: t). cbn [app]. f_equal. exact E.
Qed.
Lemma run_nil : forall u prev, mt u false run_re (mkM prev [] []) = [].
Proof. reflexivity. Qed.
Lemma replace_char : forall u c f prev t, c <> 32 -> exists prev', replace_all (S f) u run_re [SP] prev (c :: t) = obind (replace_all (S f) u run_re [SP] prev' t) (fun x => Ok (c :: x)).
Proof.
  intros u c f prev t N1. exists (Some c). pose proof (run_ways u prev c t) as W. rewrite (proj2 (N.eqb_neq _ _) N1) in W. cbn [replace_all].
  change (search_from u false run_re prev (c :: t)) with (match mt u false run_re (mkM prev (c :: t) []) with s :: _ => Some ([], s) | [] =>
    match search_from u false run_re (Some c) t with Some (a, s) => Some (c :: a, s) | None => None end end). rewrite W.
  destruct (search_from u false run_re (Some c) t) as [(a, s)|]; [|reflexivity]. destruct (replace_all f u run_re [SP] (m_prev s) (m_rest s)); reflexivity.
Qed.
Lemma replace_run : forall u f prev t, exists prev', replace_all (S f) u run_re [SP] prev (32 :: t) = obind (replace_all f u run_re [SP] prev' (snd (span (fun x => x =? 32) t))) (fun x => Ok (32 :: x)).
Proof.
  intros u f prev t. pose proof (run_ways u prev 32 t) as W. cbn [N.eqb Pos.eqb] in W. destruct W as (s & l & W & R). exists (m_prev s). cbn [replace_all].
  change (search_from u false run_re prev (32 :: t)) with (match mt u false run_re (mkM prev (32 :: t) []) with s :: _ => Some ([], s) | [] =>
    match search_from u false run_re (Some 32) t with Some (a, s) => Some (32 :: a, s) | None => None end end). rewrite W, R. reflexivity.
Qed.
Lemma squeeze_char : forall c t, c <> 32 -> Lexicon_model.squeeze (c :: t) = c :: Lexicon_model.squeeze t.
Proof. intros c t H. cbn [Lexicon_model.squeeze]. destruct t as [|d t]; [reflexivity|]. destruct (N.eqb_spec c SP) as [E|_]; [exfalso; exact (H E)|reflexivity]. Qed.
Lemma squeeze_run : forall t, Lexicon_model.squeeze (32 :: t) = 32 :: Lexicon_model.squeeze (snd (span (fun x => x =? 32) t)).
Proof.
  induction t as [|c t IH]; [reflexivity|]. change (Lexicon_model.squeeze (32 :: c :: t)) with (if (32 =? SP) && (c =? SP) then Lexicon_model.squeeze (c :: t) else 32 :: Lexicon_model.squeeze (c :: t)).
  change (32 =? SP) with true. cbn [andb]. cbn [span]. change (c =? SP) with (c =? 32). destruct (N.eqb_spec c 32) as [->|Nc]; [|reflexivity]. rewrite IH. destruct (span (fun x => x =? 32) t) as (a, r). reflexivity.
Qed.
Lemma replace_same : forall u k t g prev, (List.length t <= k)%nat -> (List.length t < g)%nat -> replace_all g u run_re [SP] prev t = Ok (Lexicon_model.squeeze t).
Proof.
  intros u. induction k as [|k IH]; intros t g prev L G; (destruct t as [|c t]; [destruct g; [lia|reflexivity]|]); cbn [List.length] in *; [lia|].
  destruct g as [|g]; [lia|]. destruct (N.eq_dec c 32) as [->|Nc].
  - destruct (replace_run u g prev t) as (q & ->). pose proof (span_len (fun x => x =? 32) t). rewrite IH by lia. rewrite squeeze_run. reflexivity.
  - destruct (replace_char u c g prev t Nc) as (q & ->). rewrite IH by lia. rewrite squeeze_char by exact Nc. reflexivity.
Qed.
Lemma squeeze_same : forall u l, squeeze_re u l = Ok (Lexicon_model.squeeze l).
Proof.
  intros u l. unfold squeeze_re, with_regex. set (r := parse_re _). vm_compute in r. subst r. cbv beta iota. apply (replace_same u (List.length l)); lia.
Qed.
Lemma squeeze_iff : forall u l t, squeeze_re u l = Ok t <-> one_blank l t.
Proof.
  intros u l t. rewrite squeeze_same. split.
  - intros H. apply (f_equal (fun o => match o with Ok x => x | _ => [] end)) in H. subst t. apply squeeze_one.
  - intros H. f_equal. eapply one_fun; [apply squeeze_one|exact H].
Qed.

(** ** The loader of lexicons *)
Lemma entry_same : forall e loc n l, entry_line_re e loc n l = entry_line e loc n l.
Proof. intros e loc n l. unfold entry_line_re, entry_line. rewrite squeeze_same. cbn [obind]. reflexivity. Qed.
Lemma entries_same : forall f e is line acc n x, read_entries_re f e is line acc n x = read_entries f e is line acc n x.
Proof.
  induction f as [|f IH]; intros e is line acc n x; [reflexivity|]. cbn [read_entries_re read_entries]. destruct (s_fail is); [reflexivity|].
  destruct (getline LF is line) as (is', raw). rewrite entry_same. destruct (entry_line e (x_locale x) (n + 1) raw) as [r| |]; [|reflexivity|reflexivity]. cbn [obind]. rewrite IH. reflexivity.
Qed.
Lemma lexicon_same : forall e name src, load_lexicon_re e name src = load_lexicon e name src.
Proof.
  intros e name src. unfold load_lexicon_re, load_lexicon. destruct (getline LF (open_stream src) []) as (is, raw). destruct (lex_strip_bom raw) as [line| |]; [|reflexivity|reflexivity].
  cbn [obind]. destruct (skip_header _ is line raw 1) as [(((is', h), acc), cnt)| |]; [|reflexivity|reflexivity]. cbn [obind].
  destruct (header_fields h) as ((t1, t3), loc). destruct (_ || _); [|reflexivity]. rewrite entries_same. reflexivity.
Qed.

(** ** The long dash *)
Lemma emdash_same : forall u t, emdash_re u t = Ok (teqb t [EMDASH]).
Proof.
  intros u t. unfold emdash_re. apply ok_bool; [apply match_ok; vm_compute; discriminate|]. unfold u32regex_match. set (r := parse_re _). vm_compute in r. subst r. cbv beta iota.
  match goal with |- Ok ?b = Ok true <-> _ => transitivity (b = true) end.
  { split; [intros H; apply (f_equal (fun o => match o with Ok x => x | _ => false end)) in H; exact H|intros ->; reflexivity]. }
  change (RSet false [IChr 8212]) with (RChr EMDASH). erewrite match_bol_iff; [|eapply all_cat; [apply lang_chr|apply all_eol]]. cbv beta. rewrite teqb_eq. split.
  - intros (x & y & -> & -> & ->). reflexivity.
  - intros ->. exists [EMDASH], []. auto.
Qed.

(** ** Statements *)
Lemma section_iff : forall u l n, uni_ok u -> (section_re u l = Ok (Some n) <-> header_line u l n).
Proof.
  intros u l n U. rewrite section_same by exact U. rewrite <- section_header_spec by exact U. split; [|intros ->; reflexivity].
  intros H. apply (f_equal (fun o => match o with Ok x => x | _ => None end)) in H. exact H.
Qed.
Lemma metarule_refs : forall u l ns, uni_ok u -> meta_line u l ns -> metarule_re u l = Ok (map new_ref ns).
Proof. intros u l ns U H. rewrite metarule_same. f_equal. apply meta_rule_of_spec; assumption. Qed.
Lemma emdash_iff : forall u t, emdash_re u t = Ok true <-> t = [0x2014].
Proof.
  intros u t. rewrite emdash_same. change [0x2014] with [EMDASH]. rewrite <- teqb_eq. split; [|intros ->; reflexivity].
  intros H. apply (f_equal (fun o => match o with Ok x => x | _ => false end)) in H. exact H.
Qed.
Lemma all_answer : forall u l, (exists a, comment_re u l = Ok a) /\ (exists a, section_re u l = Ok a) /\ (exists a, ismeta_re u l = Ok a) /\
  (exists a, metarule_re u l = Ok a) /\ (exists a, squeeze_re u l = Ok a) /\ exists a, emdash_re u l = Ok a.
Proof.
  intros u l. split; [apply match_ok; vm_compute; discriminate|]. split.
  { unfold section_re, with_regex. set (r := parse_re _). vm_compute in r. subst r. cbv beta iota. eexists. reflexivity. }
  split; [apply match_ok; vm_compute; discriminate|]. rewrite metarule_same, squeeze_same, emdash_same. split; [|split]; eexists; reflexivity.
Qed.
