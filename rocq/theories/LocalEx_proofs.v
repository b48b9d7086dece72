(** Concrete lexicons for the examples of Local_props. *)
From Coq Require Import String List NArith Bool Lia.
From Verif Require Import Archive_spec Archive_proofs Base_model Class_model Uni_model Token_model Lexicon_model Tokenizer_model Archive_model Wrapper_model Sample_model
  LexText_spec LexDiag_spec Lexicon_spec Tokenizer_spec Split_spec End_spec Local_spec LexMap_proofs LexDiag_proofs TokScan_proofs TokExample_proofs SplitEx_proofs WrapperEx_proofs AddressEx_proofs End_proofs EndEx_proofs.
Import ListNotations.
Local Open Scope string_scope.

(** The same lexicon with one more word. *)
Definition ave_line : text := (s2t "LEXENTRY:" ++ wt ++ s2t "AVE" ++ wt ++ s2t "AVENUE" ++ wt ++ s2t "TYPE" ++ wt ++ wt)%list.
Definition ave_lexicon : text := file (w_lines ++ [ave_line])%list [].
Definition ave_x : lexicon := match load_lexicon ascii_env query_lex ave_lexicon with Ok x => x | _ => new_lexicon [] end.
Lemma ave_loaded : load_lexicon ascii_env query_lex ave_lexicon = Ok ave_x.
Proof. vm_compute. reflexivity. Qed.
Lemma ave_built : built ave_x.
Proof. eapply built_load. exact ave_loaded. Qed.
Lemma ave_listed : forall w, listed ave_x w <-> In w [s2t "AVE"; s2t "PO BOX"; s2t "ST"].
Proof. intros w. apply listed_keys; [exact ave_built|vm_compute; reflexivity]. Qed.
Lemma w_listed : forall w, listed w_x w <-> In w [s2t "PO BOX"; s2t "ST"].
Proof. intros w. apply listed_keys; [exact w_x_built|vm_compute; reflexivity]. Qed.
Lemma ave_simple : simple_words ave_x.
Proof.
  intros w c H K. apply ave_listed in H. cbn [In] in H. destruct H as [<-|[<-|[<-|[]]]]; simpl in K; repeat (destruct K as [<-|K]; [repeat split; discriminate|]); destruct K.
Qed.
Lemma ave_only : forall x, lexicon_of ascii_env ave_lexicon x -> x = ave_x.
Proof. intros x H. exact (lexicon_one ascii_env ave_lexicon x ave_x H (proj1 (lexicon_loads ascii_env ave_lexicon ave_x) ave_loaded)). Qed.
Lemma ave_given : given_as ascii_env ave_lexicon ave_lexicon.
Proof.
  left. split; [reflexivity|]. assert (E : exists t, ave_lexicon = 76%N :: t) by (eexists; vm_compute; reflexivity). destruct E as (t & ->). apply first_char; [reflexivity|reflexivity|discriminate].
Qed.
Lemma ave_readable : readable_with ascii_env ave_lexicon en w_addr.
Proof.
  intros x H. rewrite (ave_only x H). split; [exact ave_simple|]. split; [apply ascii_lines; absent|].
  apply (upper_clear ave_x _ [s2t "AVE"; s2t "PO BOX"; s2t "ST"] ave_built); vm_compute; reflexivity.
Qed.
Lemma ave_apart : ~ concerns ascii_uni (reading ascii_env w_x en w_addr) (s2t "AVE").
Proof.
  intros [(v & (a & b & E) & F)|H]; [|discriminate]. apply Forall2_app_inv_l with (l1 := [65%N]) (l2 := [86%N; 69%N]) in F. destruct F as (v1 & v2 & _ & F & ->). inversion F as [|? d ? v3 H _]; subst.
  assert (I : In d (reading ascii_env w_x en w_addr)) by (rewrite E; apply in_or_app; right; apply in_or_app; left; apply in_or_app; right; left; reflexivity). clear E F.
  destruct H as [H|(H & _)]; [|discriminate]. vm_compute in I. repeat (destruct I as [<-|I]; [vm_compute in H; discriminate H|]). destruct I.
Qed.
Lemma ave_same : same_for ascii_uni (reading ascii_env w_x en w_addr) w_x ave_x.
Proof.
  split; [reflexivity|]. split.
  - split; intros _; exists (s2t "ST"); (split; [|discriminate]); [apply ave_listed; right; right; left; reflexivity|apply w_listed; right; left; reflexivity].
  - intros w C. assert (NL : forall x, ~ listed x w -> lex_find x w = []) by (intros x N; unfold listed in N; destruct (lex_find x w); [reflexivity|destruct N; discriminate]).
    destruct (in_dec (list_eq_dec N.eq_dec) w [s2t "AVE"; s2t "PO BOX"; s2t "ST"]) as [I|I].
    + cbn [In] in I. destruct I as [<-|[<-|[<-|[]]]]; [destruct (ave_apart C)|vm_compute; reflexivity|vm_compute; reflexivity].
    + rewrite (NL w_x), (NL ave_x); [reflexivity| |]; intros L; apply I; [apply ave_listed; exact L|right; apply w_listed; exact L].
Qed.
Lemma ave_setting : real_tables ascii_uni /\ given_as ascii_env w_lexicon w_lexicon /\ given_as ascii_env ave_lexicon ave_lexicon /\ readable_with ascii_env w_lexicon en w_addr /\ readable_with ascii_env ave_lexicon en w_addr /\
  exists x x', lexicon_of ascii_env w_lexicon x /\ lexicon_of ascii_env ave_lexicon x' /\ same_for ascii_uni (reading ascii_env x en w_addr) x x' /\ ~ (forall w, lex_find x w = lex_find x' w).
Proof.
  split; [exact ascii_real|]. split; [exact w_given|]. split; [exact ave_given|]. split; [exact w_readable|]. split; [exact ave_readable|]. exists w_x, ave_x.
  split; [apply lexicon_loads; exact w_x_loaded|]. split; [apply lexicon_loads; exact ave_loaded|]. split; [exact ave_same|]. intros H. specialize (H (s2t "AVE")). vm_compute in H. discriminate H.
Qed.
Definition ave_entry : lexentry := match lex_find ave_x (s2t "AVE") with le :: _ => le | [] => mkLE [] [] [] [] end.
Lemma insert_setting : let t := reading ascii_env w_x en w_addr in blank_lines ascii_uni t /\ tab_tables ascii_uni /\ some_words w_x /\ ~ concerns ascii_uni t (le_word ave_entry) /\
  fit_lexicon ascii_uni w_x t /\ fit_lexicon ascii_uni (lex_insert w_x ave_entry) t.
Proof.
  split; [apply ascii_lines; absent|]. split; [exact ascii_tabs|]. split; [exists (s2t "ST"); split; [apply w_listed; right; left; reflexivity|discriminate]|].
  split; [replace (le_word ave_entry) with (s2t "AVE") by (vm_compute; reflexivity); exact ave_apart|]. split.
  - split; [exact w_x_built|]. split; [exact w_x_simple|]. split; [exact (proj2 w_tabs)|]. apply (upper_clear w_x _ [s2t "PO BOX"; s2t "ST"] w_x_built); vm_compute; reflexivity.
  - assert (B : built (lex_insert w_x ave_entry)) by exact (built_step w_x (Ins ave_entry) w_x_built). split; [exact B|]. split; [|split; [|apply (upper_clear _ _ [s2t "AVE"; s2t "PO BOX"; s2t "ST"] B); vm_compute; reflexivity]].
    + intros w c H K. rewrite (listed_keys (lex_insert w_x ave_entry) w [s2t "AVE"; s2t "PO BOX"; s2t "ST"] B) in H by (vm_compute; reflexivity).
      cbn [In] in H. destruct H as [<-|[<-|[<-|[]]]]; simpl in K; repeat (destruct K as [<-|K]; [repeat split; discriminate|]); destruct K.
    + intros w H. rewrite (listed_keys (lex_insert w_x ave_entry) w [s2t "AVE"; s2t "PO BOX"; s2t "ST"] B) in H by (vm_compute; reflexivity).
      cbn [In] in H. destruct H as [<-|[<-|[<-|[]]]]; absent.
Qed.
(** The first word of a lexicon matters everywhere. *)
Definition bare_lexicon : text := file (firstn 1 w_lines) [].
Definition st_lexicon : text := file (firstn 2 w_lines) [].
Lemma first_word : exists rows, parse_table (std_parse_address ascii_env (s2t ", 12") bare_lexicon en w_filter) = Ok rows /\ map pr_word rows = [s2t "12"] /\
  parse_table (std_parse_address ascii_env (s2t ", 12") st_lexicon en w_filter) = Ok [] /\ forall c, In c (s2t "ST") -> ~ In c (s2t ", 12").
Proof.
  eexists. split; [vm_compute; reflexivity|]. split; [vm_compute; reflexivity|]. split; [vm_compute; reflexivity|]. intros c I J. vm_compute in I, J.
  repeat (destruct I as [<-|I]; [repeat (destruct J as [J|J]; [discriminate J|]); destruct J|]). destruct I.
Qed.
(** A word that occurs matters. *)
Definition main_lexicon : text := file (w_lines ++ [s2t "LEXENTRY:" ++ wt ++ s2t "MAIN" ++ wt ++ s2t "MAIN" ++ wt ++ s2t "CITY" ++ wt ++ wt])%list [].
Lemma occurring_word : std_standardize ascii_env sample_atof w_addr w_grammar main_lexicon en w_filter = Ok None /\
  exists r, std_standardize ascii_env sample_atof w_addr w_grammar w_lexicon en w_filter = Ok (Some r).
Proof. split; [vm_compute; reflexivity|]. eexists. exact w_call. Qed.

(** ** The order of the lines *)
Definition swapped_lexicon : text := file (match w_lines with [h; a; b] => [h; b; a; b] | l => l end) [].
Definition swapped_x : lexicon := match load_lexicon ascii_env query_lex swapped_lexicon with Ok x => x | _ => new_lexicon [] end.
Lemma swapped_loaded : load_lexicon ascii_env query_lex swapped_lexicon = Ok swapped_x.
Proof. vm_compute. reflexivity. Qed.
Lemma swapped_given : given_as ascii_env swapped_lexicon swapped_lexicon.
Proof.
  left. split; [reflexivity|]. assert (E : exists t, swapped_lexicon = 76%N :: t) by (eexists; vm_compute; reflexivity). destruct E as (t & ->). apply first_char; [reflexivity|reflexivity|discriminate].
Qed.
Lemma swapped_setting : given_as ascii_env w_lexicon w_lexicon /\ given_as ascii_env swapped_lexicon swapped_lexicon /\ w_lexicon <> swapped_lexicon /\
  exists lg loc es es' dg dg', lexicon_means ascii_env w_lexicon lg loc es dg /\ lexicon_means ascii_env swapped_lexicon lg loc es' dg' /\ rearranged es es'.
Proof.
  split; [exact w_given|]. split; [exact swapped_given|]. split; [intros H; apply (f_equal (@List.length N)) in H; vm_compute in H; discriminate H|].
  destruct (proj1 (loads _ _ _ _) w_x_loaded) as (lg & loc & es & dg & M & _ & E1 & E2 & _ & _ & _ & _ & _ & F). destruct (proj1 (loads _ _ _ _) swapped_loaded) as (lg' & loc' & es' & dg' & M' & _ & E1' & E2' & _ & _ & _ & _ & _ & F').
  assert (lg' = lg) as -> by (rewrite <- E1, <- E1'; vm_compute; reflexivity). assert (loc' = loc) as -> by (rewrite <- E2, <- E2'; vm_compute; reflexivity).
  exists lg, loc, es, es', dg, dg'. split; [exact M|]. split; [exact M'|]. intros w s s' O O'. destruct (F w) as (s1 & O1 & K1), (F' w) as (s2 & O2 & K2). exists (lex_find w_x w).
  rewrite (of_word_fun _ _ _ _ O O1), (of_word_fun _ _ _ _ O' O2). split; [exact K1|]. replace (lex_find w_x w) with (lex_find swapped_x w); [exact K2|]. unfold lex_find. replace (x_lex swapped_x) with (x_lex w_x) by (vm_compute; reflexivity). reflexivity.
Qed.
(** Two entries of one word. *)
Definition saint : text := (s2t "LEXENTRY:" ++ wt ++ s2t "ST" ++ wt ++ s2t "SAINT" ++ wt ++ s2t "TYPE" ++ wt ++ wt)%list.
Definition street_first : text := file (w_lines ++ [saint])%list [].
Definition saint_first : text := file (match w_lines with h :: l => h :: saint :: l | [] => [] end) [].
Lemma same_word_order : exists p p' r r', std_standardize ascii_env sample_atof w_addr w_grammar street_first en w_filter = Ok (Some r) /\
  std_standardize ascii_env sample_atof w_addr w_grammar saint_first en w_filter = Ok (Some r') /\ p <> p' /\ nth_error (sa_fields r) 6 = Some (Some p) /\ nth_error (sa_fields r') 6 = Some (Some p').
Proof.
  exists (s2t "STREET"), (s2t "SAINT"). eexists _, _. split; [vm_compute; reflexivity|]. split; [vm_compute; reflexivity|]. split; [discriminate|]. split; vm_compute; reflexivity.
Qed.
