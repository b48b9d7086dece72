(** Lemmas about a line added to a lexicon text. *)
From Coq Require Import String List NArith Bool.
From Verif Require Import Base_model Class_model Uni_model Token_model Lexicon_model Tokenizer_model Archive_model Float_model Rule_model Search_model Wrapper_model Sample_model
  LexText_spec LexFile_spec LexDiag_spec Lexicon_spec Tokenizer_spec Split_spec End_spec Local_spec Insert_spec
  Archive_spec Archive_proofs LexLoad_proofs LexFile_proofs LexDiag_proofs TokExample_proofs WrapperEx_proofs End_proofs EndEx_proofs Local_proofs LocalEx_proofs InsertEx_proofs.
Import ListNotations.
Local Open Scope N_scope.

(** ** Lines *)
Lemma first_lf : forall x y s t : text, one_line x -> one_line y -> x ++ 10 :: s = y ++ 10 :: t -> x = y /\ s = t.
Proof.
  induction x as [|c x IH]; intros [|d y] s t X Y E; cbn [app] in E.
  - injection E as E. auto.
  - injection E as E1 E2. exfalso. apply Y. left. auto.
  - injection E as E1 E2. exfalso. apply X. left. auto.
  - injection E as E1 E2. destruct (IH y s t) as (-> & ->); [intros K; apply X; right; exact K|intros K; apply Y; right; exact K|exact E2|]. subst. auto.
Qed.
Definition whole (a : text) : Prop := a = [] \/ exists a0, a = a0 ++ [10].
Lemma whole_tail : forall c r, whole (c :: r) -> c <> 10 \/ r <> [] -> exists r0, r = r0 ++ [10].
Proof.
  intros c r [K|(a0 & K)] H; [discriminate|]. destruct a0 as [|d a0]; cbn [app] in K; injection K as K1 K2; [|exists a0; exact K2]. subst. destruct H as [H|H]; destruct H; reflexivity.
Qed.
Lemma whole_first : forall a, whole a -> a <> [] -> exists y a', a = y ++ 10 :: a' /\ one_line y /\ whole a'.
Proof.
  induction a as [|c a IH]; intros W H; [destruct H; reflexivity|]. destruct (N.eq_dec c 10) as [->|Nc].
  - exists [], a. split; [reflexivity|]. split; [intros []|]. destruct a as [|d a]; [left; reflexivity|]. right. apply (whole_tail 10); [exact W|right; discriminate].
  - destruct (whole_tail c a W (or_introl Nc)) as (r0 & E). destruct (IH (or_intror (ex_intro _ r0 E))) as (y & a' & E' & O & W'); [rewrite E; destruct r0; discriminate|].
    exists (c :: y), a'. split; [rewrite E'; reflexivity|]. split; [intros [K|K]; [exact (Nc K)|exact (O K)]|exact W'].
Qed.
Lemma lines_cons : forall src x ls ended, lines src (x :: ls) ended -> one_line x /\ ((exists s, src = x ++ 10 :: s /\ lines s ls ended) \/ src = x).
Proof.
  intros src x ls ended (O & H). inversion O as [|? ? O1 O2]; subst. split; [exact O1|]. destruct H as [(-> & ->)|(-> & ls' & r & E & Nr & ->)].
  - left. exists (file ls []). split; [apply file_cons|]. split; [exact O2|left; auto].
  - destruct ls' as [|z ls']; cbn [app] in E; injection E as -> E.
    + right. reflexivity.
    + left. exists (file ls' r). split; [apply file_cons|]. split; [exact O2|]. right. split; [reflexivity|]. exists ls', r. auto.
Qed.
Lemma lines_add : forall x s ls ended, one_line x -> lines s ls ended -> lines (x ++ 10 :: s) (x :: ls) ended.
Proof.
  intros x s ls ended O (F & H). split; [constructor; assumption|]. destruct H as [(-> & ->)|(-> & ls' & r & -> & Nr & ->)].
  - left. split; [reflexivity|]. rewrite file_cons. reflexivity.
  - right. split; [reflexivity|]. exists (x :: ls'), r. split; [reflexivity|]. split; [exact Nr|]. rewrite file_cons. reflexivity.
Qed.
Lemma lines_none : forall src ended, lines src [] ended -> src = [].
Proof. intros src ended (_ & [(_ & ->)|(_ & ls' & r & E & _)]); [reflexivity|]. destruct ls'; discriminate. Qed.
(** The same lines with one more. *)
Lemma lines_behind : forall ls ended a l0 l b, lines (a ++ l0 ++ 10 :: b) ls ended -> one_line l0 -> one_line l -> whole a ->
  exists la lb, ls = la ++ l0 :: lb /\ lines b lb ended /\ lines (a ++ l0 ++ 10 :: l ++ 10 :: b) (la ++ l0 :: l :: lb) ended.
Proof.
  induction ls as [|x ls IH]; intros ended a l0 l b L O0 O W.
  - apply lines_none in L. exfalso. destruct a; [destruct l0; discriminate|discriminate].
  - destruct (lines_cons _ _ _ _ L) as (Ox & H). destruct a as [|c a0].
    + cbn [app] in *. destruct H as [(s & E & Ls)|E].
      * destruct (first_lf _ _ _ _ O0 Ox E) as (<- & <-). exists [], ls. split; [reflexivity|]. split; [exact Ls|]. apply lines_add; [exact O0|]. apply lines_add; assumption.
      * exfalso. apply Ox. rewrite <- E. apply in_or_app. right. left. reflexivity.
    + destruct (whole_first (c :: a0) W) as (y & a' & Ea & Oy & W'); [discriminate|]. rewrite Ea in *. rewrite <- app_assoc in *. cbn [app] in *. destruct H as [(s & E & Ls)|E].
      * destruct (first_lf _ _ _ _ Oy Ox E) as (<- & <-). destruct (IH ended a' l0 l b Ls O0 O W') as (la & lb & -> & Lb & Q). exists (y :: la), lb. split; [reflexivity|]. split; [exact Lb|]. cbn [app]. apply lines_add; assumption.
      * exfalso. apply Ox. rewrite <- E. apply in_or_app. right. left. reflexivity.
Qed.
(** ** Entries *)
Lemma entries_app : forall e loc p q es, entries_of e loc (p ++ q) es -> exists a b, es = a ++ b /\ entries_of e loc p a /\ entries_of e loc q b.
Proof.
  intros e loc. induction p as [|l p IH]; intros q es H; cbn [app] in H; [exists [], es; split; [reflexivity|split; [constructor|exact H]]|].
  inversion H as [|? ? a left b A B]; subst. destruct (IH q b B) as (a1 & b1 & -> & P & Q). exists (a ++ a1), b1. split; [apply app_assoc|]. split; [econstructor; eassumption|exact Q].
Qed.
Lemma entries_join : forall e loc p q a b, entries_of e loc p a -> entries_of e loc q b -> entries_of e loc (p ++ q) (a ++ b).
Proof. intros e loc p q a b H K. induction H; cbn [app]; [exact K|]. rewrite <- app_assoc. econstructor; eassumption. Qed.
Lemma mark_not_bom : forall l, is_header l \/ is_entry l -> hd_error l <> Some 0xFEFF.
Proof. intros l [(r & ->)|(r & ->)]; vm_compute; discriminate. Qed.
Lemma unmarked_self : forall l m, hd_error l <> Some 0xFEFF -> unmarked l m -> m = l.
Proof. intros l m H U. inversion U; subst; [reflexivity|destruct H; reflexivity|destruct H; reflexivity]. Qed.
(** The place of the line among those behind the header. *)
Lemma sought_behind : forall la l0 l lb pre h post, sought (la ++ l0 :: lb) pre (h :: post) -> is_header l0 \/ is_entry l0 ->
  exists p, post = p ++ lb /\ (exists q, h :: p = q ++ [l0]) /\ sought (la ++ l0 :: l :: lb) pre (h :: p ++ l :: lb).
Proof.
  intros la l0 l lb pre h post (F & x & y & rest & E & U & S) M.
  assert (K : exists la', (forall q, exists x' rest', la ++ l0 :: q = x' :: rest' /\ unmarked x' y /\ y :: rest' = la' ++ l0 :: q)).
  { destruct la as [|z la]; cbn [app] in E; injection E as <- E.
    - exists []. intros q. exists l0, q. split; [reflexivity|]. split; [exact U|]. cbn [app]. f_equal. exact (unmarked_self _ _ (mark_not_bom l0 M) U).
    - exists (y :: la). intros q. exists z, (la ++ l0 :: q). auto. }
  destruct K as (la' & K). assert (S' : la' ++ l0 :: lb = pre ++ h :: post).
  { destruct (K lb) as (x' & rest' & E' & _ & S'). rewrite <- S', <- S. rewrite E in E'. injection E' as _ ->. reflexivity. }
  assert (Q : exists p, h :: post = p ++ lb /\ (exists q, p = q ++ [l0]) /\ la' ++ l0 :: l :: lb = pre ++ p ++ l :: lb).
  { clear - S' F M. revert pre F S'. induction la' as [|z la' IH]; intros [|w pre] F S'; cbn [app] in S'.
    - exists [l0]. split; [symmetry; exact S'|]. split; [exists []; reflexivity|reflexivity].
    - injection S' as <- _. exfalso. apply Forall_inv in F. destruct F as (F1 & F2), M; contradiction.
    - exists (z :: la' ++ [l0]). split; [rewrite <- S'; cbn [app]; rewrite <- app_assoc; reflexivity|]. split; [exists (z :: la'); reflexivity|]. cbn [app]. rewrite <- app_assoc. reflexivity.
    - injection S' as <- S'. destruct (IH pre (Forall_inv_tail F) S') as (p & A & B & C). exists p. split; [exact A|]. split; [exact B|]. cbn [app]. rewrite C. reflexivity. }
  destruct Q as (p & A & B & C). destruct p as [|h' p]; [destruct B as ([|] & B); discriminate B|]. cbn [app] in A. injection A as <- A. exists p. split; [exact A|]. split; [exact B|]. split; [exact F|].
  destruct (K (l :: lb)) as (x' & rest' & E' & U' & S2). exists x', y, rest'. split; [exact E'|]. split; [exact U'|]. rewrite S2, C. reflexivity.
Qed.
Lemma means_behind : forall e l0 l src src' lg loc es dg a left, with_line_behind l0 l src src' -> is_header l0 \/ is_entry l0 -> accepted e loc l a left ->
  lexicon_means e src lg loc es dg -> exists es1 es2 dg', es = es1 ++ es2 /\ lexicon_means e src' lg loc (es1 ++ a ++ es2) dg'.
Proof.
  intros e l0 l src src' lg loc es dg a left (O0 & O & sa & sb & -> & -> & W) M A (ls & ended & pre & h & post & L & S & H & Ho & D).
  destruct (lines_behind ls ended sa l0 l sb L O0 O W) as (la & lb & -> & Lb & L'). destruct (sought_behind la l0 l lb pre h post S M) as (p & -> & _ & S').
  destruct D as [(-> & En & _)|(-> & post' & r & es' & e1 & l1 & e2 & l2 & Ep & En & A1 & A2 & -> & _)].
  - destruct (entries_app _ _ _ _ _ En) as (es1 & es2 & -> & E1 & E2). exists es1, es2, (concat (la ++ l0 :: l :: lb)). split; [reflexivity|].
    do 5 eexists. split; [exact L'|]. split; [exact S'|]. split; [exact H|]. split; [exact Ho|]. left. split; [reflexivity|]. split; [|reflexivity]. apply entries_join; [exact E1|]. apply eo_line with (left := left); assumption.
  - assert (Q : exists lb', lb = lb' ++ [r] /\ post' = p ++ lb').
    { destruct Lb as (_ & [(K & _)|(_ & lb' & z & -> & _)]); [discriminate|]. rewrite app_assoc in Ep. apply app_inj_tail in Ep. destruct Ep as (<- & ->). exists lb'. auto. }
    destruct Q as (lb' & -> & ->). destruct (entries_app _ _ _ _ _ En) as (es1 & es2 & -> & E1 & E2). exists es1, (es2 ++ e1 ++ e2). eexists. split; [rewrite <- !app_assoc; reflexivity|].
    do 5 eexists. split; [exact L'|]. split; [exact S'|]. split; [exact H|]. split; [exact Ho|]. right. split; [reflexivity|]. exists (p ++ l :: lb'), r, (es1 ++ a ++ es2), e1, l1, e2, l2.
    split; [rewrite <- app_assoc; reflexivity|]. split; [apply entries_join; [exact E1|]; apply eo_line with (left := left); assumption|]. split; [exact A1|]. split; [exact A2|]. split; [rewrite <- !app_assoc; reflexivity|reflexivity].
Qed.
(** ** Words *)
Lemma of_word_skip : forall w le es1 es2 sub, le_word le <> w -> of_word w (es1 ++ es2) sub -> of_word w (es1 ++ le :: es2) sub.
Proof.
  intros w le. induction es1 as [|z es1 IH]; intros es2 sub H O; cbn [app] in *; [apply ow_other; assumption|]. inversion O; subst; [apply ow_this; [reflexivity|]|apply ow_other; [assumption|]]; apply IH; assumption.
Qed.
Lemma of_word_put : forall le es1 es2 sub, of_word (le_word le) (es1 ++ es2) sub -> exists s1 s2, sub = s1 ++ s2 /\ of_word (le_word le) (es1 ++ le :: es2) (s1 ++ le :: s2).
Proof.
  intros le. induction es1 as [|z es1 IH]; intros es2 sub O; cbn [app] in *; [exists [], sub; split; [reflexivity|]; apply ow_this; auto|].
  inversion O as [|z' l' k E O' E1 E2|z' l' k E O' E1 E2].
  - destruct (IH es2 k O') as (s1 & s2 & -> & Q). exists (z :: s1), s2. split; [reflexivity|]. apply ow_this; assumption.
  - destruct (IH es2 sub O') as (s1 & s2 & -> & Q). exists s1, s2. split; [reflexivity|]. apply ow_other; assumption.
Qed.
Lemma once_seen : forall A (seen l k : list A), once seen l k -> forall seen', (forall a, In a l -> (In a seen <-> In a seen')) -> once seen' l k.
Proof.
  intros A seen l k H. induction H as [seen|seen a l k N H IH|seen a l k N H IH]; intros seen' E.
  - constructor.
  - apply on_new; [intros K; apply N, E; [left; reflexivity|exact K]|]. apply IH. intros b I. cbn [In]. rewrite (E b (or_intror I)). reflexivity.
  - apply on_again; [apply E; [left; reflexivity|exact N]|]. apply IH. intros b I. apply E. right. exact I.
Qed.
Lemma once_in : forall A (seen l k : list A), once seen l k -> forall a, In a l -> In a seen \/ In a k.
Proof.
  intros A seen l k H. induction H as [seen|seen a l k N H IH|seen a l k N H IH]; intros b I; [destruct I| |]; destruct I as [<-|I].
  - right. left. reflexivity.
  - destruct (IH b I) as [[<-|J]|J]; [right; left; reflexivity|left; exact J|right; right; exact J].
  - left. exact N.
  - exact (IH b I).
Qed.
Lemma once_put : forall A (x : A) s1 s2 seen k k', once seen (s1 ++ s2) k -> once seen (s1 ++ x :: s2) k' -> ~ In x seen -> ~ In x k -> exists k1 k2, k = k1 ++ k2 /\ k' = k1 ++ x :: k2.
Proof.
  intros A x. induction s1 as [|z s1 IH]; intros s2 seen k k' H K Ns Nk; cbn [app] in *.
  - inversion K as [|? ? ? k2 _ K2|? ? ? ? I _]; subst; [|contradiction]. exists [], k. split; [reflexivity|]. cbn [app]. f_equal. apply (once_fun _ (x :: seen) s2); [exact K2|]. apply (once_seen _ seen); [exact H|].
    intros a I. cbn [In]. split; [tauto|]. intros [<-|J]; [|exact J]. destruct (once_in _ _ _ _ H x I); contradiction.
  - inversion H as [|? ? ? k1 N1 H1|? ? ? ? I1 H1]; subst; inversion K as [|? ? ? k2 N2 K2|? ? ? ? I2 K2]; subst; try contradiction.
    + destruct (IH s2 (z :: seen) k1 k2 H1 K2) as (a & b & -> & ->); [intros [<-|J]; [apply Nk; left; reflexivity|contradiction]|intros J; apply Nk; right; exact J|]. exists (z :: a), b. auto.
    + exact (IH s2 seen k k' H1 K2 Ns Nk).
Qed.
Lemma once_members : forall A (l k : list A), once [] l k -> forall a, In a k <-> In a l.
Proof. intros A l k H a. split; [intros I; exact (proj1 (proj2 (once_nodup A [] l k H) a I))|]. intros I. destruct (once_in _ _ _ _ H a I) as [[]|J]; exact J. Qed.
(** ** The lexicon *)
Lemma body_accepted : forall e loc l le, body_line e loc l le -> exists left, accepted e loc l [le] left.
Proof. intros e loc l le H. assert (B := H). destruct H as (t & T & _). exists (norm e loc t). right. exists le, t. auto. Qed.
Lemma found_behind : forall le es1 es2 (f f' : text -> list lexentry), (forall w, exists sub, of_word w (es1 ++ es2) sub /\ once [] sub (f w)) -> (forall w, exists sub, of_word w (es1 ++ le :: es2) sub /\ once [] sub (f' w)) ->
  (forall w, w <> le_word le -> f' w = f w) /\ (forall a, In a (f' (le_word le)) <-> a = le \/ In a (f (le_word le))) /\
  (~ In le (f (le_word le)) -> exists k1 k2, f (le_word le) = k1 ++ k2 /\ f' (le_word le) = k1 ++ le :: k2).
Proof.
  intros le es1 es2 f f' F F'. split; [|destruct (F (le_word le)) as (s & O & K), (F' (le_word le)) as (s' & O' & K'); destruct (of_word_put le es1 es2 s O) as (s1 & s2 & -> & P); rewrite (of_word_fun _ _ _ _ O' P) in K'; split].
  - intros w N. destruct (F w) as (s & O & K), (F' w) as (s' & O' & K'). rewrite (of_word_fun _ _ _ _ O' (of_word_skip w le es1 es2 s (not_eq_sym N) O)) in K'. exact (once_fun _ _ _ _ _ K' K).
  - intros a. rewrite (once_members _ _ _ K' a), (once_members _ _ _ K a), !in_app_iff. cbn [In]. intuition congruence.
  - intros N. apply (once_put _ le s1 s2 [] _ _ K K'); [intros []|exact N].
Qed.
Lemma load_behind : forall e name l0 l le src src' x, with_line_behind l0 l src src' -> is_header l0 \/ is_entry l0 -> load_lexicon e name src = Ok x -> body_line e (x_locale x) l le ->
  exists x', load_lexicon e name src' = Ok x' /\ x_lang x' = x_lang x /\ x_locale x' = x_locale x /\ (forall w, w <> le_word le -> lex_find x' w = lex_find x w) /\
    (forall a, In a (lex_find x' (le_word le)) <-> a = le \/ In a (lex_find x (le_word le))) /\
    (~ In le (lex_find x (le_word le)) -> exists k1 k2, lex_find x (le_word le) = k1 ++ k2 /\ lex_find x' (le_word le) = k1 ++ le :: k2).
Proof.
  intros e name l0 l le src src' x W M L B. apply loads in L. destruct L as (lg & loc & es & dg & Me & _ & <- & <- & _ & _ & _ & _ & _ & F). destruct (body_accepted _ _ _ _ B) as (left & A).
  destruct (means_behind e l0 l src src' _ _ _ _ _ _ W M A Me) as (es1 & es2 & dg' & -> & Me'). assert (L' := complete_ok e name src' _ _ _ _ Me'). eexists. split; [exact L'|].
  apply loads in L'. destruct L' as (lg2 & loc2 & es' & dg2 & Me2 & _ & X1 & X2 & _ & _ & _ & _ & _ & _).
  destruct (run_fresh (es1 ++ [le] ++ es2) name (x_lang x) (x_locale x)) as (_ & A2 & A3 & _ & _ & _ & _ & A8). split; [exact A2|]. split; [exact A3|].
  exact (found_behind le es1 es2 (lex_find x) _ F A8).
Qed.
Lemma blank_behind : forall e atof sort address gr l0 lx lx' arg arg' locale filt x, with_line_behind l0 [] lx lx' -> is_header l0 \/ is_entry l0 -> given_as e lx arg -> given_as e lx' arg' -> lexicon_of e lx x ->
  std_standardize e atof address gr arg locale filt = std_standardize e atof address gr arg' locale filt /\
  std_parse_address e address arg locale filt = std_parse_address e address arg' locale filt /\
  std_match_address e atof sort address gr arg locale filt = std_match_address e atof sort address gr arg' locale filt.
Proof.
  intros e atof sort address gr l0 lx lx' arg arg' locale filt x W M G G' (lg & loc & es & dg & Me & _).
  destruct (means_behind e l0 [] lx lx' lg loc es dg [] [] W M (or_introl (conj eq_refl (conj eq_refl eq_refl))) Me) as (es1 & es2 & dg' & -> & Me').
  apply (lines_order e atof sort address gr lx lx' arg arg' locale filt _ _ _ _ _ _ _ G G' Me Me'). intros w s s' O O'. cbn [app] in O'. rewrite (of_word_fun _ _ _ _ O' O). destruct (once_some s []) as (k & K). exists k. auto.
Qed.
Lemma unrelated_behind : forall e atof sort address gr l0 l le lx lx' arg arg' locale filt x, real_tables (e_uni e) -> with_line_behind l0 l lx lx' -> is_header l0 \/ is_entry l0 ->
  given_as e lx arg -> given_as e lx' arg' -> readable_with e lx locale address -> readable_with e lx' locale address -> lexicon_of e lx x -> some_words x ->
  body_line e (x_locale x) l le -> ~ concerns (e_uni e) (reading e x locale address) (le_word le) ->
  std_standardize e atof address gr arg locale filt = std_standardize e atof address gr arg' locale filt /\
  std_parse_address e address arg locale filt = std_parse_address e address arg' locale filt /\
  std_match_address e atof sort address gr arg locale filt = std_match_address e atof sort address gr arg' locale filt.
Proof.
  intros e atof sort address gr l0 l le lx lx' arg arg' locale filt x T W M G G' R R' L Sw B N. apply (texts_local e atof sort address gr lx lx'); try assumption.
  destruct (load_behind e query_lex l0 l le lx lx' x W M (proj2 (lexicon_loads e lx x) L) B) as (x' & L' & _ & Lo & Fo & Fm & _). exists x, x'. split; [exact L|]. split; [apply lexicon_loads; exact L'|].
  split; [symmetry; exact Lo|]. split.
  - split; intros _; [|exact Sw]. destruct Sw as (w & J & Nw). exists w. split; [|exact Nw]. unfold listed in *. destruct (list_eq_dec N.eq_dec w (le_word le)) as [->|D]; [|rewrite (Fo w D); exact J].
    intros E. assert (Z := proj2 (Fm le) (or_introl eq_refl)). rewrite E in Z. destruct Z.
  - intros w C. symmetry. apply Fo. intros ->. exact (N C).
Qed.
(** ** Examples *)
Definition add_l0 : text := last w_lines [].
Lemma add_with : with_line_behind add_l0 ave_line w_lexicon ave_lexicon.
Proof.
  split; [apply no_lf_in; vm_compute; reflexivity|]. split; [apply no_lf_in; vm_compute; reflexivity|]. exists (file (removelast w_lines) []), []. split; [vm_compute; reflexivity|]. split; [vm_compute; reflexivity|]. right. apply ends_lf. vm_compute. reflexivity.
Qed.
Lemma add_entry : is_entry add_l0.
Proof. exists (skipn 9 add_l0). vm_compute. reflexivity. Qed.
Lemma add_body : body_line ascii_env (x_locale w_x) ave_line ave_entry.
Proof. apply body_line_iff. split; [left; exists (skipn 9 (squeeze ave_line)); vm_compute; reflexivity|]. split; [vm_compute; reflexivity|]. vm_compute. intuition discriminate. Qed.
Lemma means_setting : with_line_behind add_l0 ave_line w_lexicon ave_lexicon /\ is_entry add_l0 /\
  exists lg loc es dg le left, lexicon_means ascii_env w_lexicon lg loc es dg /\ accepted ascii_env loc ave_line [le] left.
Proof.
  split; [exact add_with|]. split; [exact add_entry|]. assert (L := w_x_loaded). apply loads in L. destruct L as (lg & loc & es & dg & M & _ & _ & X & _).
  destruct (body_accepted _ _ _ _ add_body) as (left & A). rewrite X in A. exists lg, loc, es, dg, ave_entry, left. auto.
Qed.
Lemma load_setting : with_line_behind add_l0 ave_line w_lexicon ave_lexicon /\ is_entry add_l0 /\ load_lexicon ascii_env query_lex w_lexicon = Ok w_x /\ body_line ascii_env (x_locale w_x) ave_line ave_entry /\
  ~ In ave_entry (lex_find w_x (le_word ave_entry)) /\ le_word ave_entry = s2t "AVE"%string.
Proof. split; [exact add_with|]. split; [exact add_entry|]. split; [exact w_x_loaded|]. split; [exact add_body|]. split; [vm_compute; tauto|vm_compute; reflexivity]. Qed.
Lemma unrelated_setting : real_tables ascii_uni /\ with_line_behind add_l0 ave_line w_lexicon ave_lexicon /\ is_entry add_l0 /\ given_as ascii_env w_lexicon w_lexicon /\ given_as ascii_env ave_lexicon ave_lexicon /\
  readable_with ascii_env w_lexicon en w_addr /\ readable_with ascii_env ave_lexicon en w_addr /\ lexicon_of ascii_env w_lexicon w_x /\ some_words w_x /\ body_line ascii_env (x_locale w_x) ave_line ave_entry /\
  ~ concerns ascii_uni (reading ascii_env w_x en w_addr) (le_word ave_entry).
Proof.
  split; [exact ascii_real|]. split; [exact add_with|]. split; [exact add_entry|]. split; [exact w_given|]. split; [exact ave_given|]. split; [exact w_readable|]. split; [exact ave_readable|]. split; [apply lexicon_loads; exact w_x_loaded|].
  destruct insert_setting as (_ & _ & S & N & _). split; [exact S|]. split; [exact add_body|exact N].
Qed.
Definition gap_lexicon : text := (w_lexicon ++ [10])%list.
Lemma blank_setting : with_line_behind add_l0 [] w_lexicon gap_lexicon /\ is_entry add_l0 /\ given_as ascii_env w_lexicon w_lexicon /\ given_as ascii_env gap_lexicon gap_lexicon /\ lexicon_of ascii_env w_lexicon w_x.
Proof.
  split. { split; [apply no_lf_in; vm_compute; reflexivity|]. split; [intros []|]. exists (file (removelast w_lines) []), []. split; [vm_compute; reflexivity|]. split; [vm_compute; reflexivity|]. right. apply ends_lf. vm_compute. reflexivity. }
  split; [exact add_entry|]. split; [exact w_given|]. split; [|apply lexicon_loads; exact w_x_loaded]. left. split; [reflexivity|].
  assert (E : exists t, gap_lexicon = 76%N :: t) by (eexists; vm_compute; reflexivity). destruct E as (t & ->). apply first_char; [reflexivity|reflexivity|discriminate].
Qed.
(** In front of the header it is refused, and so is a comment behind it. *)
Definition note_line : text := s2t "# avenues"%string.
Lemma front_line : exists e l le src src' x, with_line l src src' /\ load_lexicon e query_lex src = Ok x /\ body_line e (x_locale x) l le /\
  load_lexicon e query_lex src' = Throw (s2t "Lexicon-LexEntry-Before-Lexicon"%string).
Proof.
  exists ascii_env, ave_line, ave_entry, w_lexicon, (ave_line ++ 10 :: w_lexicon), w_x.
  split; [split; [apply no_lf_in; vm_compute; reflexivity|]; exists [], w_lexicon; split; [reflexivity|]; split; [reflexivity|left; reflexivity]|]. split; [exact w_x_loaded|]. split; [exact add_body|]. vm_compute. reflexivity.
Qed.
Lemma note_behind : exists e l0 src src' x m, with_line_behind l0 (s2t "# avenues"%string) src src' /\ is_entry l0 /\ load_lexicon e query_lex src = Ok x /\ load_lexicon e query_lex src' = Throw m.
Proof.
  exists ascii_env, add_l0, w_lexicon, (w_lexicon ++ note_line ++ [10]), w_x. eexists.
  split. { split; [apply no_lf_in; vm_compute; reflexivity|]. split; [apply no_lf_in; vm_compute; reflexivity|]. exists (file (removelast w_lines) []), []. split; [vm_compute; reflexivity|]. split; [vm_compute; reflexivity|]. right. apply ends_lf. vm_compute. reflexivity. }
  split; [exact add_entry|]. split; [exact w_x_loaded|]. vm_compute. reflexivity.
Qed.
