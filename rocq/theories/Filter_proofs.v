(** Lemmas about the text of a filter. *)
From Coq Require Import String List NArith Bool Lia Arith.
From Verif Require Import Read_proofs Base_model Class_model Uni_model Token_model Lexicon_model Tokenizer_model Archive_model Float_model Rule_model Search_model Grammar_model Wrapper_model
  Sample_model Class_spec Grammar_spec LexText_spec LexFile_spec LexDiag_spec Lexicon_spec Tokenizer_spec Split_spec Read_spec Address_spec Answer_spec End_spec Filter_spec
  Class_proofs Bad_proofs Split_proofs SplitEx_proofs TokAlt_proofs Address_proofs Wrapper_proofs WrapperTop_proofs TokPieces_proofs TokExample_proofs WrapperEx_proofs AddressEx_proofs AnswerEx_proofs End_proofs EndEx_proofs.
Import ListNotations.
Local Open Scope N_scope.

Lemma caught_iff : forall f k, is_in_class_set k f = true <-> caught f k.
Proof.
  intros f k. unfold is_in_class_set, caught. rewrite existsb_exists. split; intros (c & A & B); exists c; [apply iset_mem_in in B; auto|split; [exact B|apply iset_mem_in; exact A]].
Qed.
Lemma filter_same : forall f f' ks, (forall k, In k ks -> (caught f k <-> caught f' k)) -> apply_filter f ks = apply_filter f' ks.
Proof.
  intros f f' ks H. unfold apply_filter. apply filter_ext_in. intros k I. f_equal. apply eq_true_iff_eq. rewrite !caught_iff. exact (H k I).
Qed.
Lemma phrases_filter : forall e x locale filt filt' address,
  (forall ks k, all_tokens e x (prepared e locale address) = Ok ks -> In k ks -> ((exists c, In c (t_in k) /\ in_list filt c) <-> exists c, In c (t_in k) /\ in_list filt' c)) ->
  make_phrases e x locale filt address = make_phrases e x locale filt' address.
Proof.
  intros e x locale filt filt' address H. unfold make_phrases, get_tokens. cbn [z_lex z_filter set_filter]. destruct (all_tokens e x (prepared e locale address)) as [ks| |]; cbn [obind]; [|reflexivity|reflexivity].
  rewrite (filter_same (as_type filt) (as_type filt') ks); [reflexivity|]. intros k I. rewrite !filter_iff. exact (H ks k eq_refl I).
Qed.
(** Only the classes named count. *)
Lemma filter_calls : forall e atof sort address gr arg locale filt filt', (forall c, in_list filt c <-> in_list filt' c) ->
  std_standardize e atof address gr arg locale filt = std_standardize e atof address gr arg locale filt' /\
  std_parse_address e address arg locale filt = std_parse_address e address arg locale filt' /\
  std_match_address e atof sort address gr arg locale filt = std_match_address e atof sort address gr arg locale filt'.
Proof.
  intros e atof sort address gr arg locale filt filt' H. assert (P : forall x, make_phrases e x locale filt address = make_phrases e x locale filt' address).
  { intros x. apply phrases_filter. intros ks k _ _. split; intros (c & A & B); exists c; (split; [exact A|apply H; exact B]). }
  unfold std_standardize, std_parse_address, std_match_address, standardize_addr, parse_addr, match_addr. destruct (get_lexicon e arg) as [x| |]; cbn [obind]; [rewrite (P x)|..]; auto.
Qed.
(** And of them only those that a token has. *)
Lemma filter_absent : forall e atof sort address gr lx arg locale filt filt', real_tables (e_uni e) -> given_as e lx arg -> readable_with e lx locale address ->
  (forall c, has_token e lx locale address c -> (in_list filt c <-> in_list filt' c)) ->
  std_standardize e atof address gr arg locale filt = std_standardize e atof address gr arg locale filt' /\
  std_parse_address e address arg locale filt = std_parse_address e address arg locale filt' /\
  std_match_address e atof sort address gr arg locale filt = std_match_address e atof sort address gr arg locale filt'.
Proof.
  intros e atof sort address gr lx arg locale filt filt' (UO & AT & WT & TT) G R H. unfold std_standardize, std_parse_address, std_match_address.
  destruct (lexicon_given e lx arg G) as [(x & y & L & E & Z)|(m & _ & E)]; rewrite E; cbn [obind]; [|auto].
  assert (P : make_phrases e x locale filt address = make_phrases e x locale filt' address).
  { destruct (R x L) as (SW & BL & CC). cbv zeta in BL, CC. apply phrases_filter. intros ks k K I.
    apply (all_tokens_are e x (prepared e locale address) ks (lexicon_built _ _ _ L) SW AT WT BL CC (conj TT (lexicon_tabs _ _ _ L))) in K.
    split; intros (c & A & B); exists c; (split; [exact A|]); (apply H; [exists x, ks, k; auto|exact B]). }
  assert (Q := fun g f => Z g locale f address). split; [|split].
  - destruct (get_grammar e atof gr) as [g| |]; cbn [obind]; try reflexivity. rewrite (proj1 (Q g filt)), (proj1 (Q g filt')). unfold standardize_addr. rewrite P. reflexivity.
  - rewrite (proj1 (proj2 (Q (mkGrammar [] [] []) filt))), (proj1 (proj2 (Q (mkGrammar [] [] []) filt'))). unfold parse_addr. rewrite P. reflexivity.
  - destruct (get_grammar e atof gr) as [g| |]; cbn [obind]; try reflexivity. rewrite (proj2 (proj2 (Q g filt)) sort), (proj2 (proj2 (Q g filt')) sort). unfold match_addr. rewrite P. reflexivity.
Qed.
(** A list of names. *)
Lemma names_in : forall cs c, in_list (join [44] (map in_str cs)) c <-> In c cs.
Proof.
  intros cs c. rewrite <- in_list_iff, as_type_in. destruct cs as [|d cs].
  - split; [|intros []]. intros (p & [<-|[]] & N & _). destruct (N eq_refl).
  - change 44 with COMMA_CH. rewrite comma_pieces_join; [|discriminate|apply Forall_forall; intros p I; apply in_map_iff in I; destruct I as (z & <- & _); exact (proj1 (in_str_plain z))].
    split.
    + intros (p & I & _ & A). apply in_map_iff in I. destruct I as (z & <- & I). rewrite (proj1 (proj2 (proj2 (in_str_plain z)))), in_name_ok in A. subst z. exact I.
    + intros I. exists (in_str c). destruct (in_str_plain c) as (_ & N & T & _). rewrite T. split; [apply in_map; exact I|]. split; [exact N|apply in_name_ok].
Qed.
Lemma names_calls : forall e atof sort address gr arg locale cs cs', (forall c, In c cs <-> In c cs') ->
  let filt := join [44] (map in_str cs) in let filt' := join [44] (map in_str cs') in
  std_standardize e atof address gr arg locale filt = std_standardize e atof address gr arg locale filt' /\
  std_parse_address e address arg locale filt = std_parse_address e address arg locale filt' /\
  std_match_address e atof sort address gr arg locale filt = std_match_address e atof sort address gr arg locale filt'.
Proof. intros e atof sort address gr arg locale cs cs' H filt filt'. apply filter_calls. intros c. unfold filt, filt'. rewrite !names_in. apply H. Qed.
(** A misspelled name. *)
Lemma pieces_more : forall t w, no_comma w -> comma_pieces (t ++ [44] ++ w) = comma_pieces t ++ [w].
Proof.
  intros t w N. destruct (comma_parts t) as (J & F & NE). rewrite <- J. remember (comma_pieces t) as ps. clear t Heqps J. induction ps as [|p ps IH]; [destruct (NE eq_refl)|]. inversion F as [|? ? F1 F2]; subst.
  destruct ps as [|q ps].
  - cbn [join app]. change 44 with COMMA_CH. rewrite comma_pieces_app by exact F1. rewrite (comma_pieces_one w N), (comma_pieces_one p F1). reflexivity.
  - change (join [44] (p :: q :: ps)) with (p ++ [44] ++ join [44] (q :: ps)). rewrite <- !app_assoc. cbn [app] in *. change 44 with COMMA_CH in *. rewrite comma_pieces_app by exact F1. rewrite IH by (try exact F2; discriminate).
    rewrite comma_pieces_app by exact F1. reflexivity.
Qed.
Lemma misspelled_in : forall t w c, misspelled w -> (in_list (t ++ [44] ++ w) c <-> in_list t c \/ c = I_BADTOKEN).
Proof.
  intros t w c (N & H1 & H2 & O). rewrite <- !in_list_iff, !as_type_in, pieces_more by exact N.
  assert (T : trimboth w = w). { symmetry. apply unpadded_iff. right. split; [exists [], []; cbn [app]; rewrite app_nil_r; repeat split; constructor|]. auto. }
  assert (W : w <> []) by (intros ->; destruct H1 as (d & K & _); discriminate). split.
  - intros (p & I & P & A). apply in_app_or in I. destruct I as [I|[<-|[]]]; [left; exists p; auto|]. right. rewrite T in A. subst c. apply in_other. exact O.
  - intros [(p & I & P & A)| ->]; [exists p; split; [apply in_or_app; left; exact I|auto]|]. exists w. rewrite T. split; [apply in_or_app; right; left; reflexivity|]. split; [exact W|apply in_other; exact O].
Qed.
(** No entry of a lexicon is of class BADTOKEN, and no token of an address without tabs. *)
Lemma lexicon_no_bad : forall e lx x w le, lexicon_of e lx x -> In le (lex_find x w) -> ~ In I_BADTOKEN (le_type le).
Proof.
  intros e lx x w le (lg & loc & es & dg & M & _ & _ & _ & _ & _ & _ & _ & _ & F) IL.
  assert (AN : forall l a left le, accepted e loc l a left -> In le a -> ~ In I_BADTOKEN (le_type le)).
  { intros l a left le' [(_ & -> & _)|(le2 & t & (t' & _ & _ & _ & B) & _ & -> & _)] J; [destruct J|]. destruct J as [<-|[]]. exact B. }
  assert (EN : forall ls es le, entries_of e loc ls es -> In le es -> ~ In I_BADTOKEN (le_type le)).
  { intros ls es' le' H. induction H as [|l ls a left b A H IH]; intros J; [destruct J|]. apply in_app_or in J. destruct J as [J|J]; [exact (AN _ _ _ _ A J)|exact (IH J)]. }
  assert (N : forall le, In le es -> ~ In I_BADTOKEN (le_type le)).
  { intros le' I. destruct M as (ls & ended & pre & h & post & _ & _ & _ & _ & [(_ & E & _)|(_ & post' & r & es' & e1 & l1 & e2 & l2 & _ & E & A1 & A2 & -> & _)]).
    - exact (EN _ _ _ E I).
    - rewrite !in_app_iff in I. destruct I as [I|[I|I]]; [exact (EN _ _ _ E I)|exact (AN _ _ _ _ A1 I)|exact (AN _ _ _ _ A2 I)]. }
  destruct (F w) as (sub & W & O). apply N.
  assert (I : In le sub). { assert (G : forall (a : list lexentry) l k', once a l k' -> forall y, In y k' -> In y l). { intros a l k' H. induction H; intros y J; [exact J| |right; auto]. destruct J as [->|J]; [left; reflexivity|right; auto]. }
    exact (G _ _ _ O _ IL). }
  clear - W I. induction W as [|le' l k' Q W IH|le' l k' Q W IH]; [destruct I| |right; exact (IH I)]. destruct I as [->|I]; [left; reflexivity|right; exact (IH I)].
Qed.
Lemma none_bad : forall e lx locale address, real_tables (e_uni e) -> readable_with e lx locale address -> (forall x, lexicon_of e lx x -> ~ In 9 (reading e x locale address)) ->
  ~ has_token e lx locale address I_BADTOKEN.
Proof.
  intros e lx locale address (UO & AT & WT & TT) R NT (x & ks & k & L & T & I & J). destruct (R x L) as (SW & BL & CC). cbv zeta in BL, CC.
  apply (all_tokens_are e x (prepared e locale address) ks (lexicon_built _ _ _ L) SW AT WT BL CC (conj TT (lexicon_tabs _ _ _ L))) in T.
  assert (K : get_tokens e (mkTz x []) (prepared e locale address) = Ok ks). { unfold get_tokens. cbn [z_lex z_filter]. rewrite T. cbn [obind]. f_equal. unfold apply_filter. clear. induction ks as [|k ks IH]; [reflexivity|]. change (filter (fun q : token => negb (is_in_class_set q [])) (k :: ks)) with (k :: filter (fun q : token => negb (is_in_class_set q [])) ks). rewrite IH. reflexivity. }
  assert (C := Bad_proofs.tokens_clean e (mkTz x []) (prepared e locale address) ks (lexicon_built _ _ _ L) (tables_blank _ WT) (NT x L) BL (fun w le => lexicon_no_bad e lx x w le L) K).
  rewrite Forall_forall in C. exact (proj1 (C k I) J).
Qed.
Lemma misspelled_calls : forall e atof sort address gr lx arg locale filt w, real_tables (e_uni e) -> given_as e lx arg -> readable_with e lx locale address ->
  (forall x, lexicon_of e lx x -> ~ In 9 (reading e x locale address)) -> misspelled w ->
  std_standardize e atof address gr arg locale (filt ++ [44] ++ w) = std_standardize e atof address gr arg locale filt /\
  std_parse_address e address arg locale (filt ++ [44] ++ w) = std_parse_address e address arg locale filt /\
  std_match_address e atof sort address gr arg locale (filt ++ [44] ++ w) = std_match_address e atof sort address gr arg locale filt.
Proof.
  intros e atof sort address gr lx arg locale filt w RT G R NT M. apply (filter_absent e atof sort address gr lx arg locale _ _ RT G R). intros c HT. rewrite (misspelled_in filt w c M).
  split; [intros [K| ->]; [exact K|destruct (none_bad e lx locale address RT R NT HT)]|auto].
Qed.

(** ** Examples *)
Lemma w_classes : forall c, has_token ascii_env w_lexicon en w_addr c -> c <> I_BADTOKEN /\ c <> I_RR.
Proof.
  intros c (x & ks & k & L & T & I & J). rewrite (w_only x L) in T. clear x L.
  apply (all_tokens_are ascii_env w_x (prepared ascii_env en w_addr) ks w_x_built w_x_simple ascii_apart ascii_tables w_lines_blank w_exact w_tabs) in T.
  vm_compute in T. injection T as <-. cbn [In] in I. repeat (destruct I as [<-|I]; [cbn [t_in In] in J; intuition (subst; discriminate)|]). destruct I.
Qed.
Lemma set_setting : w_filter <> s2t "SPACE, PUNCT ,SPACE"%string /\ forall c, in_list w_filter c <-> in_list (s2t "SPACE, PUNCT ,SPACE"%string) c.
Proof.
  split; [discriminate|]. intros c. rewrite <- !in_list_iff. vm_compute. tauto.
Qed.
Lemma names_setting : (forall c, In c [I_PUNCT; I_SPACE] <-> In c [I_SPACE; I_PUNCT; I_SPACE]) /\ join [44] (map in_str [I_PUNCT; I_SPACE]) = w_filter.
Proof. split; [intros c; cbn [In]; tauto|vm_compute; reflexivity]. Qed.
Lemma absent_setting : real_tables ascii_uni /\ given_as ascii_env w_lexicon w_lexicon /\ readable_with ascii_env w_lexicon en w_addr /\
  (forall c, has_token ascii_env w_lexicon en w_addr c -> (in_list w_filter c <-> in_list (s2t "RR,PUNCT,SPACE"%string) c)) /\
  has_token ascii_env w_lexicon en w_addr I_PUNCT /\ in_list w_filter I_PUNCT.
Proof.
  split; [exact ascii_real|]. split; [exact w_given|]. split; [exact w_readable|]. split; [|split].
  - intros c H. apply w_classes in H. rewrite <- !in_list_iff. vm_compute. intuition congruence.
  - assert (E : exists ks k, all_tokens ascii_env w_x (prepared ascii_env en w_addr) = Ok ks /\ In k ks /\ In I_PUNCT (t_in k)).
    { destruct (all_tokens ascii_env w_x (prepared ascii_env en w_addr)) as [ks| |] eqn:E; [|exfalso; vm_compute in E; discriminate|exfalso; vm_compute in E; discriminate].
      exists ks. vm_compute in E. injection E as <-. eexists. split; [reflexivity|]. split; [right; right; right; right; right; left; reflexivity|cbn; tauto]. }
    destruct E as (ks & k & E & I & J). exists w_x, ks, k. split; [exact (proj1 (lexicon_loads ascii_env w_lexicon w_x) w_x_loaded)|]. split; [|auto].
    exact (proj1 (all_tokens_are ascii_env w_x (prepared ascii_env en w_addr) ks w_x_built w_x_simple ascii_apart ascii_tables w_lines_blank w_exact w_tabs) E).
  - apply in_list_iff. vm_compute. tauto.
Qed.
Lemma misspelled_setting : real_tables ascii_uni /\ given_as ascii_env w_lexicon w_lexicon /\ readable_with ascii_env w_lexicon en w_addr /\
  (forall x, lexicon_of ascii_env w_lexicon x -> ~ In 9 (reading ascii_env x en w_addr)) /\ misspelled (s2t "PUNKT"%string).
Proof.
  split; [exact ascii_real|]. split; [exact w_given|]. split; [exact w_readable|]. split; [intros x L; rewrite (w_only x L); intros I; vm_compute in I; intuition discriminate|].
  split; [intros I; vm_compute in I; intuition discriminate|]. split; [exists 80; split; [reflexivity|discriminate]|]. split; [exists 84; split; [reflexivity|discriminate]|]. intros d. destruct d; discriminate.
Qed.
(** A misspelled name in the filter drops separators with text between tabs. *)
Definition tab_addr : text := s2t "12"%string ++ [9; 9; 32; 9] ++ s2t "Main st"%string.
Lemma typo : exists ra rb, parse_table (std_parse_address ascii_env tab_addr w_lexicon en w_filter) = Ok ra /\
  parse_table (std_parse_address ascii_env tab_addr w_lexicon en (w_filter ++ [44] ++ s2t "PUNKT"%string)) = Ok rb /\ (List.length rb < List.length ra)%nat.
Proof. do 2 eexists. split; [vm_compute; reflexivity|]. split; [vm_compute; reflexivity|]. vm_compute. lia. Qed.
