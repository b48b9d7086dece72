(** Concrete calls for the examples of End_props. *)
From Coq Require Import String List NArith ZArith Bool Lia Arith Floats.SpecFloat.
From Verif Require Import Archive_spec Archive_proofs Base_model Class_model Float_model Uni_model Token_model Rule_model Search_model Grammar_model Lexicon_model Tokenizer_model Md5_model Archive_model Wrapper_model Sample_model
  Search_spec Grammar_spec Diagnosis_spec Loaded_spec Lexicon_spec LexText_spec LexFile_spec LexDiag_spec Tokenizer_spec Wrapper_spec Split_spec Read_spec Address_spec Order_spec Answer_spec End_spec
  Diagnosis_proofs Loaded_proofs LexDiag_proofs SplitEx_proofs Loaded_proofs TokExample_proofs WrapperEx_proofs Address_proofs AddressEx_proofs AnswerEx_proofs End_proofs.
Import ListNotations.

Lemma ok_inj : forall A (a b : A), Ok a = Ok b -> a = b.
Proof. intros A a b H. injection H. auto. Qed.
Lemma ascii_real : real_tables ascii_uni.
Proof. exact (conj ascii_uni_ok (conj ascii_apart (conj ascii_tables ascii_tabs))). Qed.
Lemma w_given : given_as ascii_env w_lexicon w_lexicon.
Proof.
  left. split; [reflexivity|]. assert (E : exists t, w_lexicon = 76%N :: t) by (eexists; vm_compute; reflexivity). destruct E as (t & ->). apply first_char; [reflexivity|reflexivity|discriminate].
Qed.
Lemma w_given_compiled : given_as ascii_env w_lexicon w_archive.
Proof. right. exact (proj1 w_compiled). Qed.
Lemma w_only : forall x, lexicon_of ascii_env w_lexicon x -> x = w_x.
Proof. intros x H. exact (lexicon_one ascii_env w_lexicon x w_x H (proj1 (lexicon_loads ascii_env w_lexicon w_x) w_x_loaded)). Qed.
Lemma w_readable : readable_with ascii_env w_lexicon en w_addr.
Proof. intros x H. rewrite (w_only x H). destruct w_setting as (_ & A1 & _ & _ & A2 & A3 & A4). split; [exact A1|]. split; [exact A2|exact A3]. Qed.
Lemma nan_alike : forall g g', alike g g' -> no_nan_scores g -> no_nan_scores g'.
Proof. intros g g' (_ & B) H sec r I K. rewrite <- B in I. exact (H sec r I K). Qed.
Lemma size_alike : forall g g' ph, alike g g' -> sizes_ok g ph -> sizes_ok g' ph.
Proof.
  intros g g' ph (A & _) (w & H & B). exists w. split; [|exact B]. intros ms refs I K. destruct (plain_in ms _ _ (eq_sym A) I) as (ms' & I' & _ & R).
  apply (in_map (map f_name)) in K. rewrite <- R in K. apply in_map_iff in K. destruct K as (refs' & Q & K). specialize (H ms' refs' I' K).
  rewrite <- (map_length f_name refs). rewrite <- Q. rewrite map_length. exact H.
Qed.
Lemma w_grammar_ok : get_grammar ascii_env sample_atof w_grammar = Ok w_g.
Proof. vm_compute. reflexivity. Qed.
Lemma w_alike : forall g, grammar_of ascii_uni sample_atof w_grammar g -> alike w_g g.
Proof.
  intros g H. destruct (grammar_exists ascii_env sample_atof w_grammar g ascii_uni_ok H) as (g' & E & A). apply (eq_trans (eq_sym w_grammar_ok)), ok_inj in E. subst g'. apply alike_sym. exact A.
Qed.
Lemma w_manageable : manageable ascii_env sample_atof w_grammar w_lexicon en w_filter w_addr.
Proof.
  intros g x phs G L R. rewrite (w_only x L) in R. apply w_alike in G. assert (phs = w_phs) as ->.
  { apply (make_phrases_are ascii_env w_x en w_filter w_addr phs w_x_built w_x_simple ascii_apart ascii_tables w_lines_blank w_exact w_tabs) in R.
    assert (Q := w_phs_read). apply (make_phrases_are ascii_env w_x en w_filter w_addr w_phs w_x_built w_x_simple ascii_apart ascii_tables w_lines_blank w_exact w_tabs) in Q. apply ok_inj. rewrite <- R, <- Q. reflexivity. }
  split; [exact (nan_alike _ _ G w_g_scores)|]. split; [|exact (proj2 w_phs_sizes)]. eapply Forall_impl; [|exact (proj1 w_phs_sizes)]. intros ph. exact (size_alike _ _ ph G).
Qed.
(** An address with 32 phrases. *)
Definition u_addr : text := concat (repeat (s2t "PO Box, "%string) 32).
Lemma u_readable : readable_with ascii_env w_lexicon en u_addr.
Proof.
  intros x H. rewrite (w_only x H). split; [exact w_x_simple|]. split; [apply ascii_lines; absent|].
  apply (upper_clear w_x _ [s2t "PO BOX"%string; s2t "ST"%string] w_x_built); vm_compute; reflexivity.
Qed.
Lemma u_call : std_standardize ascii_env sample_atof u_addr w_grammar w_lexicon en w_filter = UB.
Proof. vm_compute. reflexivity. Qed.
Lemma u_manageable : manageable ascii_env sample_atof w_grammar w_lexicon en w_filter u_addr.
Proof.
  intros g x phs G L R. exfalso. rewrite (w_only x L) in R.
  destruct (u_readable w_x (proj1 (lexicon_loads ascii_env w_lexicon w_x) w_x_loaded)) as (A1 & A2 & A3).
  apply (make_phrases_are ascii_env w_x en w_filter u_addr phs w_x_built w_x_simple ascii_apart ascii_tables A2 A3 w_tabs) in R. vm_compute in R. discriminate.
Qed.
(** A lexicon that is refused. *)
Lemma no_lexicon : rejection ascii_env [] (s2t "Lexicon-Invalid-File-Format"%string).
Proof. apply (rejects ascii_env query_lex []). vm_compute. reflexivity. Qed.
Lemma no_given : given_as ascii_env [] [].
Proof. left. split; [reflexivity|exact empty_source]. Qed.
Lemma no_readable : readable_with ascii_env [] en w_addr.
Proof. intros x H. destruct (lexicon_exclusive _ _ _ _ H no_lexicon). Qed.
Lemma no_manageable : manageable ascii_env sample_atof w_grammar [] en w_filter w_addr.
Proof. intros g x phs _ H. destruct (lexicon_exclusive _ _ _ _ H no_lexicon). Qed.
Lemma no_call : std_standardize ascii_env sample_atof w_addr w_grammar [] en w_filter = Throw (s2t "Lexicon-Invalid-File-Format"%string).
Proof. vm_compute. reflexivity. Qed.
(** Two matches. *)
Lemma v_readable : readable_with ascii_env w_lexicon en v_addr.
Proof. intros x H. rewrite (w_only x H). destruct v_setting as (_ & A1 & _ & _ & A2 & A3 & A4). split; [exact A1|]. split; [exact A2|exact A3]. Qed.
Lemma v_grammar_ok : get_grammar ascii_env sample_atof w_grammar3 = Ok w_g3.
Proof. vm_compute. reflexivity. Qed.
Lemma v_phs : exists phs, make_phrases ascii_env w_x en w_filter v_addr = Ok phs /\ Forall (fun ph => (combinations ph <= 2 ^ 32)%N) phs /\ Forall (sizes_ok w_g3) phs.
Proof.
  eexists. split; [vm_compute; reflexivity|]. split; (constructor; [|constructor]); [vm_compute; discriminate|]. exists 2%nat. split; [apply width_b_ok; vm_compute; reflexivity|vm_compute; reflexivity].
Qed.
Lemma v_manageable : manageable ascii_env sample_atof w_grammar3 w_lexicon en w_filter v_addr.
Proof.
  intros g x phs G L R. rewrite (w_only x L) in R.
  destruct (grammar_exists ascii_env sample_atof w_grammar3 g ascii_uni_ok G) as (g' & E & A). apply (eq_trans (eq_sym v_grammar_ok)), ok_inj in E. subst g'. apply alike_sym in A.
  destruct v_setting as (A1 & A2 & A3 & A4 & A5 & A6 & A7). apply (make_phrases_are ascii_env w_x en w_filter v_addr phs A1 A2 A3 A4 A5 A6 A7) in R.
  destruct v_phs as (phs' & P & C & Z). rewrite R in P. injection P as <-. split; [apply (nan_alike _ _ A); apply nonan_b_ok; vm_compute; reflexivity|]. split; [|exact C].
  eapply Forall_impl; [|exact Z]. intros ph. exact (size_alike _ _ ph A).
Qed.
Lemma v_sorts : forall g x phs rows, get_grammar ascii_env sample_atof w_grammar3 = Ok g -> lexicon_of ascii_env w_lexicon x ->
  read_address ascii_uni x w_filter (reading ascii_env x en v_addr) phs -> search_all g phs = Ok rows -> sorted_rows rows (by_score rows).
Proof.
  intros g x phs rows G L R H. apply (eq_trans (eq_sym v_grammar_ok)), ok_inj in G. subst g. rewrite (w_only x L) in R.
  destruct v_setting as (A1 & A2 & A3 & A4 & A5 & A6 & A7). apply (make_phrases_are ascii_env w_x en w_filter v_addr phs A1 A2 A3 A4 A5 A6 A7) in R.
  destruct w_match as (phs' & r1 & r2 & P & K & _). change (s2t "12 Main") with v_addr in P. rewrite R in P. injection P as <-. exact (K rows H).
Qed.
Lemma v_call : exists r1 r2, std_match_address ascii_env sample_atof by_score v_addr w_grammar3 w_lexicon en w_filter = Ok [r1; r2] /\
  m_matched r1 = s2t "NUMBER WORD -> POSTAL CITY"%string /\ m_matched r2 = s2t "NUMBER WORD -> HOUSE STREET"%string.
Proof. do 2 eexists. split; [vm_compute; reflexivity|]. split; vm_compute; reflexivity. Qed.
