(** Lemmas about text that is lost. *)
From Coq Require Import String List NArith Bool Lia Arith.
From Verif Require Import Read_proofs Base_model Class_model Uni_model Token_model Lexicon_model Tokenizer_model Archive_model Float_model Rule_model Search_model Grammar_model Wrapper_model
  Sample_model Class_spec Grammar_spec LexText_spec Lexicon_spec Tokenizer_spec Split_spec Read_spec Address_spec Answer_spec End_spec Local_spec Gap_spec Join_spec Unread_spec Behind_spec
  Loaded_spec Search_spec Loaded_proofs Score_proofs SearchTop_proofs
  TokAlt_proofs Address_proofs Wrapper_proofs WrapperTop_proofs TokPieces_proofs TokExample_proofs WrapperEx_proofs AddressEx_proofs End_proofs EndEx_proofs Edges_proofs Gap_proofs Join_proofs Unread_proofs.
Import ListNotations.
Local Open Scope N_scope.

Lemma lost_tokens : forall e x filt s sa sb g, real_tables (e_uni e) -> built x -> simple_words x -> tab_free x -> some_words x ->
  let t := e_upper e (x_locale x) (e_nfc e s) in let a := e_upper e (x_locale x) (e_nfc e sa) in let b := e_upper e (x_locale x) (e_nfc e sb) in
  t = a ++ g ++ b -> joined_at (e_uni e) x a g b -> blank_lines (e_uni e) t -> case_clear (e_uni e) x t ->
  (forall k, sep_exact (e_uni e) x g [k] -> exists c, In c (t_in k) /\ in_list filt c) -> one_line b -> ~ readable (e_uni e) x b ->
  get_tokens e (mkTz x (as_type filt)) s = get_tokens e (mkTz x (as_type filt)) sa.
Proof.
  intros e x filt s sa sb g RT B SW TF SM t a b E J BL CC D O NR. destruct (join_filtered e x filt s sa sb g RT B SW TF SM E J BL CC D) as (ka & kb & Ka & Kb & K).
  rewrite K, Ka. f_equal. rewrite E in CC. destruct (case_part _ _ _ _ _ CC) as (_ & CB). assert (N := proj2 (none_exact e x sb RT B SW SM O CB) NR).
  unfold get_tokens in Kb. cbn [z_lex z_filter] in Kb. rewrite N in Kb. cbn [obind] in Kb. injection Kb as <-. apply app_nil_r.
Qed.
Lemma lost_unfiltered : forall e x s sa sb g, real_tables (e_uni e) -> built x -> simple_words x -> tab_free x -> some_words x ->
  let t := e_upper e (x_locale x) (e_nfc e s) in let a := e_upper e (x_locale x) (e_nfc e sa) in let b := e_upper e (x_locale x) (e_nfc e sb) in
  t = a ++ g ++ b -> joined_at (e_uni e) x a g b -> blank_lines (e_uni e) t -> case_clear (e_uni e) x t -> one_line b -> ~ readable (e_uni e) x b ->
  exists ka kg, all_tokens e x sa = Ok ka /\ sep_exact (e_uni e) x g kg /\ all_tokens e x s = Ok (ka ++ kg).
Proof.
  intros e x s sa sb g RT B SW TF SM t a b E J BL CC O NR. destruct (join_tokens e x s sa sb g RT B SW TF SM E J BL CC) as (ka & kg & kb & Ka & Kg & Kb & K).
  rewrite E in CC. destruct (case_part _ _ _ _ _ CC) as (_ & CB). rewrite (proj2 (none_exact e x sb RT B SW SM O CB) NR) in Kb. injection Kb as <-. rewrite app_nil_r in K. exists ka, kg. auto.
Qed.
Lemma lost_calls : forall e atof sort address aa ab gr lx arg locale filt, real_tables (e_uni e) -> given_as e lx arg -> readable_with e lx locale address ->
  stops_after e lx locale filt address aa ab ->
  std_standardize e atof address gr arg locale filt = std_standardize e atof aa gr arg locale filt /\
  std_parse_address e address arg locale filt = std_parse_address e aa arg locale filt /\
  std_match_address e atof sort address gr arg locale filt = std_match_address e atof sort aa gr arg locale filt.
Proof.
  intros e atof sort address aa ab gr lx arg locale filt RT G R H. apply (calls_same e atof sort aa address gr lx arg locale filt G). intros x L.
  destruct (H x L) as (SM & g & EQ & J & D & O & NR). destruct (R x L) as (SW & BL & CC). cbv zeta in BL, CC. unfold make_phrases. change (set_filter (mkTz x []) (as_type filt)) with (mkTz x (as_type filt)).
  change (get_tokens e (mkTz x (as_type filt)) (e_upper e locale (e_nfc e address))) with (get_tokens e (mkTz x (as_type filt)) (prepared e locale address)).
  rewrite (lost_tokens e x filt (prepared e locale address) (prepared e locale aa) (prepared e locale ab) g RT (lexicon_built _ _ _ L) SW (lexicon_tabs _ _ _ L) SM EQ J BL CC D O NR). reflexivity.
Qed.

(** ** Examples *)
Definition lost_addr : text := s2t "12 Main st,  $5 PO Box 7"%string.
Definition lost_rest : text := s2t "$5 PO Box 7"%string.
Lemma lost_joint : joined_at ascii_uni w_x (reading ascii_env w_x en front_addr) [44; 32; 32] (reading ascii_env w_x en lost_rest).
Proof.
  destruct join_joint as (A & B & C & D & E & _ & F & _). split; [exact A|]. split; [exact B|]. split; [exact C|]. split; [exact D|]. split; [exact E|]. split; [|split; [exact F|]].
  - let t := eval vm_compute in (reading ascii_env w_x en lost_rest) in change (reading ascii_env w_x en lost_rest) with t. intros K. destruct K as [K|[K|[K|[K|K]]]]; vm_compute in K; discriminate K.
  - apply inside_by_sign. exact no_comma_words.
Qed.
Lemma no_dollar_words : forall w d, word_like ascii_uni w_x w -> hd_error w = Some d -> ~ In d [36].
Proof.
  intros w d (v & L & N & F) E I. apply (listed_keys w_x _ [s2t "PO BOX"; s2t "ST"]%string w_x_built eq_refl) in L.
  assert (K : forall c, hd_error v = Some c -> c = 80 \/ c = 83). { cbn [In] in L. destruct L as [<-|[<-|[]]]; vm_compute; intros c Q; injection Q as <-; auto. }
  inversion F as [|c d' v' w' LK _]; subst; [discriminate|]. injection E as ->. destruct (K c eq_refl) as [-> | ->]; cbn [In] in I; destruct I as [<-|[]]; vm_compute in LK; intuition discriminate.
Qed.
Lemma lost_rest_unread : one_line (reading ascii_env w_x en lost_rest) /\ ~ readable ascii_uni w_x (reading ascii_env w_x en lost_rest).
Proof.
  split; [apply Forall_forall; intros c I K; revert I K; vm_compute; intuition (subst; discriminate)|]. apply (sign_unread _ _ _ ascii_apart w_some).
  exists [], 36, (s2t "5 PO BOX 7"%string). split; [vm_compute; reflexivity|]. split; [constructor|]. split; [intros [Z|Z]; vm_compute in Z; discriminate|]. split; [reflexivity|].
  intros w d W E I. exact (no_dollar_words w d W E I).
Qed.
Lemma lost_readable : readable_with ascii_env w_lexicon en lost_addr.
Proof.
  intros x H. rewrite (w_only x H). split; [exact w_x_simple|]. split; [apply ascii_lines; absent|].
  apply (upper_clear w_x _ [s2t "PO BOX"%string; s2t "ST"%string] w_x_built); vm_compute; reflexivity.
Qed.
Lemma lost_setting : real_tables ascii_uni /\ given_as ascii_env w_lexicon w_lexicon /\ readable_with ascii_env w_lexicon en lost_addr /\
  stops_after ascii_env w_lexicon en w_filter lost_addr front_addr lost_rest /\
  exists r, std_standardize ascii_env sample_atof lost_addr w_grammar w_lexicon en w_filter = Ok (Some r).
Proof.
  split; [exact ascii_real|]. split; [exact w_given|]. split; [exact lost_readable|]. split.
  - intros x L. rewrite (w_only x L). split; [exact w_some|]. exists [44; 32; 32]. split; [vm_compute; reflexivity|]. split; [exact lost_joint|].
    split; [exact (proj2 (proj2 (proj2 (proj2 (gap_drop [44; 32; 32] (or_introl eq_refl))))))|exact lost_rest_unread].
  - eexists. vm_compute. reflexivity.
Qed.
Lemma lost_direct : real_tables ascii_uni /\ built w_x /\ simple_words w_x /\ tab_free w_x /\ some_words w_x /\
  (let t := reading ascii_env w_x en lost_addr in let a := reading ascii_env w_x en front_addr in let b := reading ascii_env w_x en lost_rest in
   t = a ++ [44; 32; 32] ++ b /\ joined_at ascii_uni w_x a [44; 32; 32] b /\ blank_lines ascii_uni t /\ case_clear ascii_uni w_x t /\ one_line b /\ ~ readable ascii_uni w_x b) /\
  forall k, sep_exact ascii_uni w_x [44; 32; 32] [k] -> exists c, In c (t_in k) /\ in_list w_filter c.
Proof.
  destruct join_direct as (A0 & A1 & A2 & A3 & A4 & _ & D). split; [exact A0|]. split; [exact A1|]. split; [exact A2|]. split; [exact A3|]. split; [exact A4|]. split; [|exact D].
  split; [vm_compute; reflexivity|]. split; [exact lost_joint|]. destruct (lost_readable w_x (proj1 (lexicon_loads ascii_env w_lexicon w_x) w_x_loaded)) as (_ & BL & CC). split; [exact BL|]. split; [exact CC|exact lost_rest_unread].
Qed.
(** Behind a line break the tokenizer goes on. *)
Lemma line_goes_on : exists ra rb, parse_table (std_parse_address ascii_env (s2t "12 Main st,  $5"%string) w_lexicon en w_filter) = Ok ra /\
  parse_table (std_parse_address ascii_env (s2t "12 Main st,  $5"%string ++ [10] ++ s2t "PO Box 7"%string) w_lexicon en w_filter) = Ok rb /\ (List.length ra < List.length rb)%nat.
Proof. do 2 eexists. split; [vm_compute; reflexivity|]. split; [vm_compute; reflexivity|]. vm_compute. lia. Qed.
