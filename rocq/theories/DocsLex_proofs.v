(** Proofs about the documented classes, lexicons and tokens. *)
From Coq Require Import String List NArith Lia.
From Verif Require Import Base_model Class_model Class_spec Class_proofs Uni_model Token_model Rule_model Grammar_model Search_model Lexicon_model Lexicon_spec
  Tokenizer_model Tokenizer_spec Wrapper_model Wrapper_spec Sample_model LexText_spec LexFile_spec LexMap_proofs LexLoad_proofs LexFile_proofs LexDiag_spec LexDiag_proofs TokSplit_proofs TokAlt_proofs WrapperTop_proofs Bad_proofs DocsLex_spec.
Import ListNotations.
Local Open Scope N_scope.

Lemma in_names : forall n, In n (map s2t documented_in) <-> exists c, n = in_str c /\ c <> I_STOP /\ c <> I_COMMA.
Proof.
  intros n. split.
  - intros H. apply in_map_iff in H. destruct H as (s & <- & H). exists (as_one_type (s2t s)).
    cbn [documented_in In] in H. repeat (destruct H as [<-|H]; [vm_compute; repeat split; discriminate|]). destruct H.
  - intros (c & -> & A & B). destruct c; try congruence; vm_compute; repeat (first [left; reflexivity|right]).
Qed.
Lemma out_names : forall n, In n (map s2t documented_out) <-> exists c, n = out_str c /\ c <> O_STOP /\ c <> O_IGNORE.
Proof.
  intros n. split.
  - intros H. apply in_map_iff in H. destruct H as (s & <- & H). exists (out_as_type (s2t s)).
    cbn [documented_out In] in H. repeat (destruct H as [<-|H]; [vm_compute; repeat split; discriminate|]). destruct H.
  - intros (c & -> & A & B). destruct c; try congruence; vm_compute; repeat (first [left; reflexivity|right]).
Qed.

(** ** Attachments *)
Lemma att_col : forall s cs a, columns 44 s cs -> (In a (as_attach s) <-> exists p, In p cs /\ padded (att_str a) p).
Proof.
  intros s cs a C. rewrite att_in. rewrite (columns_fun _ _ _ _ (pieces_columns s) C). split; intros (p & I & T); exists p; (split; [exact I|]).
  - destruct (trim_padded p) as [E|E]; rewrite T in E; [|exact E]. rewrite E. exists [], []. rewrite app_nil_r. repeat split; constructor.
  - exact (solid_trim _ _ (att_solid a) T).
Qed.
Lemma no_att_names : forall p a, no_attachment p -> ~ padded (att_str a) p.
Proof.
  intros p a N K. apply (solid_trim _ _ (att_solid a)) in K. destruct N as [N|[N|N]].
  - assert (T : trimboth p = att_str a) by exact K. destruct (trim_padded p) as [E|(b & c & E & _)].
    + rewrite T in E. rewrite <- E in N. destruct a; inversion N; discriminate.
    + rewrite T in E. rewrite E in N. apply Forall_app in N. destruct N as (_ & N). apply Forall_app in N. destruct N as (N & _). destruct a; inversion N; discriminate.
  - apply solid_trim in N; [|split; [discriminate|split; reflexivity]]. rewrite N in K. destruct a; discriminate K.
  - apply solid_trim in N; [|split; [discriminate|split; reflexivity]]. rewrite N in K. destruct a; discriminate K.
Qed.
Lemma no_att : forall s cs, columns 44 s cs -> Forall no_attachment cs -> as_attach s = [].
Proof.
  intros s cs C F. destruct (as_attach s) as [|a l] eqn:E; [reflexivity|exfalso].
  assert (I : In a (as_attach s)) by (rewrite E; left; reflexivity). apply (proj1 (att_col s cs a C)) in I. destruct I as (p & I & P).
  rewrite Forall_forall in F. exact (no_att_names p a (F p I) P).
Qed.

(** ** Name and language of the header *)
Lemma lines_fun : forall e loc ls a, lines_of e loc ls a -> forall b, lines_of e loc ls b -> a = b.
Proof.
  intros e loc ls a H. induction H as [|ls les H IH|l le ls les B H IH]; intros b K; inversion K as [|? ? K1|? ? ? ? B1 K1]; subst; auto.
  - exfalso. exact (body_line_ne _ _ _ B1).
  - exfalso. exact (body_line_ne _ _ _ B).
  - rewrite (body_line_fun _ _ _ _ _ B B1), (IH _ K1). reflexivity.
Qed.
Lemma load_map : forall e name pre h es y, Forall one_line (pre ++ h :: es) -> Forall (fun l => ~ is_header l) pre -> is_header h ->
  (forall l p, pre = l :: p -> forall t, l <> 0xFEFF :: t) -> load_lexicon e name (file (pre ++ h :: es) []) = Ok y ->
  exists les, lines_of e (x_locale y) es les /\ x_lex y = x_lex (run (new_lexicon []) (map Ins les)).
Proof.
  intros e name pre h es y O F H B Hy. destruct (load_start e name pre h es O F H B) as [(A & a & c & D & E)|(A & m & E)]; rewrite Hy in E; [|discriminate].
  symmetry in E. unfold start_body in E. destruct (header_read h) as (cs & C & Eh). rewrite Eh in E.
  destruct (teqb (nth 0 cs []) (s2t "LEXICON:") || teqb (nth 0 cs []) (s2t "Lexicon:"))%bool eqn:T; [|discriminate].
  rewrite read_body_end in E. destruct (body _ _ _ _) as [x1|m|] eqn:Eb; cbn [obind] in E; try discriminate.
  apply body_lines in Eb. destruct Eb as (les & L & ->). cbn [x_locale] in L. injection E as <-. exists les. cbn [x_locale x_lex fst snd].
  rewrite (proj2 (proj2 (LexLoad_proofs.run_ins_meta les _))). cbn [x_locale]. split; [exact L|]. apply run_ins_same. reflexivity.
Qed.
Lemma other_header : forall e name pre h h' es x lg lg' loc, Forall one_line (pre ++ h :: es) -> one_line h' -> Forall (fun l => ~ is_header l) pre ->
  is_header h -> is_header h' -> (forall l p, pre = l :: p -> forall t, l <> 0xFEFF :: t) -> header_of h lg loc -> header_of h' lg' loc ->
  load_lexicon e name (file (pre ++ h :: es) []) = Ok x ->
  exists y, load_lexicon e name (file (pre ++ h' :: es) []) = Ok y /\ x_lang y = lg' /\
    forall g locale filt address, standardize_addr e g y locale filt address = standardize_addr e g x locale filt address /\
      parse_addr e y locale filt address = parse_addr e x locale filt address /\
      forall sort, match_addr e sort g y locale filt address = match_addr e sort g x locale filt address.
Proof.
  intros e name pre h h' es x lg lg' loc O O' F H H' B HO HO' L.
  assert (O2 : Forall one_line (pre ++ h' :: es)).
  { apply Forall_app in O. destruct O as (O1 & O2). inversion O2; subst. apply Forall_app. split; [exact O1|constructor; assumption]. }
  assert (HF : forall h lg loc lg' loc', header_of h lg loc -> header_of h lg' loc' -> lg = lg' /\ loc = loc').
  { intros h0 a b c d (cs & C & _ & -> & ->) (cs' & C' & _ & -> & ->). rewrite (columns_fun _ _ _ _ C C'). split; reflexivity. }
  assert (AC : accepts e pre h' es).
  { destruct (proj1 (load_iff e name pre h es O F H B) (ex_intro _ x L)) as (A1 & lg0 & loc0 & A2 & A3).
    destruct (HF _ _ _ _ _ HO A2) as (_ & <-). split; [exact A1|]. exists lg', loc. split; assumption. }
  destruct (proj2 (load_iff e name pre h' es O2 F H' B) AC) as (y & Y). exists y. split; [exact Y|].
  destruct (load_entries e name pre h es x O F H B L) as (_ & Hx & _). destruct (load_entries e name pre h' es y O2 F H' B Y) as (_ & Hy & _).
  destruct (HF _ _ _ _ _ Hx HO) as (_ & Lx). destruct (HF _ _ _ _ _ Hy HO') as (Gy & Ly). split; [exact Gy|].
  destruct (load_map e name pre h es x O F H B L) as (l1 & M1 & X1). destruct (load_map e name pre h' es y O2 F H' B Y) as (l2 & M2 & X2).
  rewrite Lx in M1. rewrite Ly in M2. rewrite (lines_fun _ _ _ _ M2 _ M1) in X2.
  destruct (proj1 (loads e name _ x) L) as (? & ? & ? & ? & _ & _ & _ & _ & _ & R1 & P1 & S1 & _).
  destruct (proj1 (loads e name _ y) Y) as (? & ? & ? & ? & _ & _ & _ & _ & _ & R2 & P2 & S2 & _).
  assert (W : x_lex y = x_lex x) by congruence. assert (LL : x_locale y = x_locale x) by congruence.
  assert (P3 : fst (lex_regex y) = fst (lex_regex x) /\ fst (lex_pre y) = fst (lex_pre x) /\ fst (lex_suf y) = fst (lex_suf x)).
  { unfold lex_regex, lex_pre, lex_suf. rewrite R1, P1, S1, R2, P2, S2, W. auto. }
  intros g locale filt address.
  assert (M := same_phrases e y x locale filt address W LL P3). unfold standardize_addr, parse_addr, match_addr. rewrite M. split; [|split; reflexivity].
  destruct (make_phrases e x locale filt address) as [ph| |]; [|reflexivity|reflexivity]. cbn [obind].
  destruct (search_best g ph) as [b| |]; [|reflexivity|reflexivity]. cbn [obind]. rewrite (same_collect y x _ _ W). reflexivity.
Qed.

(** ** Tokens *)
Lemma made_unset : forall u x d w k, made_from u x d w k -> unset k.
Proof. intros u x d w k (_ & _ & _ & R). exact R. Qed.
Lemma all_unset : forall u x d ws ks, Forall2 (made_from u x d) ws ks -> Forall unset ks.
Proof. intros u x d ws ks H. induction H as [|w k ws ks M H IH]; constructor; [exact (made_unset _ _ _ _ _ M)|exact IH]. Qed.
Lemma piece_unset : forall u x p g, tokens_of u x p g -> Forall unset g.
Proof.
  intros u x p g (k1 & k2 & -> & W & Sp). apply Forall_app. split.
  - destruct W as [(_ & ->)|[(k & _ & -> & M)|(w' & ws & _ & _ & _ & F)]]; [constructor| |exact (all_unset _ _ _ _ _ F)].
    constructor; [exact (made_unset _ _ _ _ _ M)|constructor].
  - destruct Sp as [(_ & ->)|(m & k & _ & _ & -> & M)]; [constructor|]. constructor; [exact (made_unset _ _ _ _ _ M)|constructor].
Qed.
Lemma tokens_unset : forall e z str ks, built (z_lex z) -> plain_blank (e_uni e) -> ~ In TAB (search_text e (z_lex z) str) ->
  blank_lines (e_uni e) (search_text e (z_lex z) str) -> get_tokens e z str = Ok ks -> Forall unset ks.
Proof.
  intros e z str ks B PB T BL H. apply tokens_sifted in H. destruct H as (all & H & Sf).
  assert (Fa : Forall unset all).
  { destruct (tokens_made e (z_lex z) str B PB T BL) as [K|(ps & groups & Ep & Ek & F)]; [congruence|]. rewrite H in Ek. injection Ek as ->.
    clear - F. induction F as [|p g ps groups M F IH]; [constructor|]. cbn [concat]. apply Forall_app. split; [exact (piece_unset _ _ p g M)|exact IH]. }
  apply Forall_forall. intros k Hk. rewrite Forall_forall in Fa. apply Fa. exact (sifted_in _ _ _ _ Sf Hk).
Qed.
