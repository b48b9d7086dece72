(** Lemmas about a line of a lexicon text that is written twice. *)
From Coq Require Import String List NArith Bool.
From Verif Require Import Base_model Class_model Uni_model Token_model Lexicon_model Tokenizer_model Archive_model Float_model Rule_model Search_model Wrapper_model Sample_model
  LexText_spec LexFile_spec LexDiag_spec Lexicon_spec End_spec Local_spec Insert_spec Archive_spec Archive_proofs LexDiag_proofs WrapperEx_proofs End_proofs EndEx_proofs Local_proofs InsertEx_proofs LexAdd_proofs.
Import ListNotations.
Local Open Scope N_scope.

Lemma once_double : forall A (x : A) s1 s2 seen k, once seen (s1 ++ x :: s2) k -> once seen (s1 ++ x :: x :: s2) k.
Proof.
  intros A x. induction s1 as [|z s1 IH]; intros s2 seen k H; cbn [app] in *; inversion H as [|seen' a l k' N H' E1 E2 E3|seen' a l k' N H' E1 E2 E3]; subst.
  - apply on_new; [exact N|]. apply on_again; [left; reflexivity|exact H'].
  - apply on_again; [exact N|]. apply on_again; assumption.
  - apply on_new; [exact N|]. apply IH. exact H'.
  - apply on_again; [exact N|]. apply IH. exact H'.
Qed.
Lemma of_word_double : forall w le es1 es2 sub, of_word w (es1 ++ le :: es2) sub -> exists sub', of_word w (es1 ++ le :: le :: es2) sub' /\ forall k, once [] sub k -> once [] sub' k.
Proof.
  intros w le es1 es2 sub O. assert (P : exists s1 s2, (sub = s1 ++ s2 /\ of_word w (es1 ++ le :: le :: es2) (s1 ++ s2)) \/ (sub = s1 ++ le :: s2 /\ of_word w (es1 ++ le :: le :: es2) (s1 ++ le :: le :: s2))).
  { revert sub O. induction es1 as [|z es1 IH]; intros sub O; cbn [app] in *; inversion O as [|z' l' k E O' E1 E2|z' l' k E O' E1 E2]; subst.
    - exists [], k. right. split; [reflexivity|]. cbn [app]. apply ow_this; [reflexivity|]. exact O.
    - exists [], sub. left. split; [reflexivity|]. apply ow_other; [exact E|]. exact O.
    - destruct (IH k O') as (s1 & s2 & [(-> & Q)|(-> & Q)]); exists (z :: s1), s2; [left|right]; (split; [reflexivity|]); cbn [app]; apply ow_this; auto.
    - destruct (IH sub O') as (s1 & s2 & [(-> & Q)|(-> & Q)]); exists s1, s2; [left|right]; (split; [reflexivity|]); apply ow_other; assumption. }
  destruct P as (s1 & s2 & [(-> & Q)|(-> & Q)]); eexists; (split; [exact Q|]); intros k K; [exact K|]. apply once_double. exact K.
Qed.
Lemma entry_accepted : forall e loc l a left, accepted e loc l a left -> is_entry l -> exists le, a = [le].
Proof. intros e loc l a left [(-> & _)|(le & t & _ & _ & -> & _)] (r & E); [discriminate|]. exists le. reflexivity. Qed.
Lemma means_twice : forall e l src src' lg loc es dg, with_line_behind l l src src' -> is_entry l -> lexicon_means e src lg loc es dg ->
  exists es1 le es2 dg', es = es1 ++ le :: es2 /\ lexicon_means e src' lg loc (es1 ++ le :: le :: es2) dg'.
Proof.
  intros e l src src' lg loc es dg (O0 & O & sa & sb & -> & -> & W) M (ls & ended & pre & h & post & L & S & H & Ho & D).
  destruct (lines_behind ls ended sa l l sb L O0 O W) as (la & lb & -> & Lb & L'). destruct (sought_behind la l l lb pre h post S (or_intror M)) as (p & -> & (q & Eq) & S').
  destruct q as [|h' q]; cbn [app] in Eq; injection Eq as <- Eq.
  { exfalso. destruct H as (a & Ea), M as (b & Eb). rewrite Ea in Eb. discriminate. }
  subst p. rewrite <- !app_assoc in *. cbn [app] in *.
  destruct D as [(-> & En & _)|(-> & post' & r & es' & e1 & l1 & e2 & l2 & Ep & En & A1 & A2 & -> & _)].
  - destruct (entries_app _ _ _ _ _ En) as (es1 & es2 & -> & E1 & E2). inversion E2 as [|? ? a left b A B]; subst. destruct (entry_accepted _ _ _ _ _ A M) as (le & ->).
    exists es1, le, b. eexists. split; [reflexivity|]. do 5 eexists. split; [exact L'|]. split; [exact S'|]. split; [exact H|]. split; [exact Ho|]. left. split; [reflexivity|]. split; [|reflexivity].
    apply entries_join; [exact E1|]. apply (eo_line e loc l (l :: lb) [le] left (le :: b)); [exact A|exact E2].
  - destruct Lb as (_ & [(K & _)|(_ & lb' & z & -> & _)]); [discriminate|]. change (q ++ l :: lb' ++ [z]) with (q ++ (l :: lb') ++ [z]) in Ep. rewrite app_assoc in Ep. apply app_inj_tail in Ep. destruct Ep as (<- & ->).
    destruct (entries_app _ _ _ _ _ En) as (es1 & es2 & -> & E1 & E2). inversion E2 as [|? ? a left b A B]; subst. destruct (entry_accepted _ _ _ _ _ A M) as (le & ->).
    exists es1, le, (b ++ e1 ++ e2). eexists. split; [rewrite <- app_assoc; reflexivity|]. do 5 eexists. split; [exact L'|]. split; [exact S'|]. split; [exact H|]. split; [exact Ho|]. right. split; [reflexivity|].
    exists (q ++ l :: l :: lb'), r, (es1 ++ le :: le :: b), e1, l1, e2, l2. split; [rewrite <- app_assoc; reflexivity|]. split; [|split; [exact A1|split; [exact A2|split; [rewrite <- app_assoc; reflexivity|reflexivity]]]].
    apply entries_join; [exact E1|]. apply (eo_line e loc l (l :: lb') [le] left (le :: b)); [exact A|exact E2].
Qed.
Lemma twice_behind : forall e atof sort address gr l lx lx' arg arg' locale filt x, with_line_behind l l lx lx' -> is_entry l -> given_as e lx arg -> given_as e lx' arg' -> lexicon_of e lx x ->
  std_standardize e atof address gr arg locale filt = std_standardize e atof address gr arg' locale filt /\
  std_parse_address e address arg locale filt = std_parse_address e address arg' locale filt /\
  std_match_address e atof sort address gr arg locale filt = std_match_address e atof sort address gr arg' locale filt.
Proof.
  intros e atof sort address gr l lx lx' arg arg' locale filt x W M G G' (lg & loc & es & dg & Me & _). destruct (means_twice e l lx lx' lg loc es dg W M Me) as (es1 & le & es2 & dg' & -> & Me').
  apply (lines_order e atof sort address gr lx lx' arg arg' locale filt _ _ _ _ _ _ _ G G' Me Me'). intros w s s' O O'. destruct (of_word_double w le es1 es2 s O) as (s2 & O2 & K).
  rewrite (of_word_fun _ _ _ _ O' O2). destruct (once_some s []) as (k & Q). exists k. auto.
Qed.
Definition twice_lexicon : text := file (w_lines ++ [add_l0])%list [].
Lemma twice_setting : with_line_behind add_l0 add_l0 w_lexicon twice_lexicon /\ is_entry add_l0 /\ given_as ascii_env w_lexicon w_lexicon /\ given_as ascii_env twice_lexicon twice_lexicon /\ lexicon_of ascii_env w_lexicon w_x.
Proof.
  split. { split; [apply no_lf_in; vm_compute; reflexivity|]. split; [apply no_lf_in; vm_compute; reflexivity|]. exists (file (removelast w_lines) []), []. split; [vm_compute; reflexivity|]. split; [vm_compute; reflexivity|]. right. apply ends_lf. vm_compute. reflexivity. }
  split; [exact add_entry|]. split; [exact w_given|]. split; [|apply lexicon_loads; exact w_x_loaded]. left. split; [reflexivity|].
  assert (E : exists t, twice_lexicon = 76%N :: t) by (eexists; vm_compute; reflexivity). destruct E as (t & ->). apply first_char; [reflexivity|reflexivity|discriminate].
Qed.
