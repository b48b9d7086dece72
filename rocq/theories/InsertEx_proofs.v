From Coq Require Import String List NArith ZArith Bool Lia Permutation.
From Verif Require Import Base_model Class_model Float_model Uni_model Token_model Rule_model Search_model Grammar_model Lexicon_model Tokenizer_model Archive_model Wrapper_model
  Search_spec Grammar_spec Loaded_spec Growth_spec Order_spec End_spec Alike_spec Wrapper_spec Insert_spec Lexicon_spec Sample_model GrammarLine_proofs Loaded_proofs WrapperEx_proofs AnswerEx_proofs Growth_proofs Insert_proofs.
Import ListNotations.
Local Open Scope N_scope.
Local Open Scope string_scope.

Definition ins_a : text := s2t "[ADDRESS]
@house @street @box
@house @street
[house]
NUMBER -> HOUSE -> 0.9
[street]
".
Definition ins_l0 : text := s2t "WORD TYPE -> STREET SUFTYP -> 0.8".
Definition ins_l : text := s2t "WORD -> STREET -> 0.4".
Definition ins_b : text := s2t "[box]
BOXH NUMBER -> BOXH BOXT -> 0.5
".
Local Close Scope string_scope.
Definition ins_grammar : text := (ins_a ++ ins_l0 ++ 10 :: ins_l ++ 10 :: ins_b)%list.
Definition ins_g : grammar := match get_grammar ascii_env sample_atof ins_grammar with Ok g => g | _ => mkGrammar [] [] [] end.
Lemma ends_lf : forall t, last t 0 = 10 -> exists a0, t = (a0 ++ [10])%list.
Proof. intros t H. destruct (exists_last (l := t)) as (a0 & c & E); [intros ->; discriminate|]. exists a0. rewrite E in H |- *. rewrite last_last in H. rewrite H. reflexivity. Qed.
Lemma no_lf_in : forall t, existsb (N.eqb 10) t = false -> ~ In 10 t.
Proof. intros t H I. assert (K : existsb (N.eqb 10) t = true) by (apply existsb_exists; exists 10; split; [exact I|reflexivity]). congruence. Qed.
Lemma no_bom_in : forall t, match t with c :: _ => negb (c =? 0xFEFF) | [] => true end = true -> ~ has_bom t.
Proof. intros t H (t' & ->). discriminate H. Qed.
Lemma data_ok : forall l, is_comment ascii_uni l = false -> section_header ascii_uni l = None -> data_line ascii_uni l.
Proof.
  intros l C S0. split; [intros K; apply is_comment_spec in K; [congruence|exact ascii_uni_ok]|]. apply header_None; [exact ascii_uni_ok|exact S0].
Qed.
Lemma ins_with : with_line_behind ins_l0 ins_l w_grammar ins_grammar.
Proof.
  split; [apply no_lf_in; vm_compute; reflexivity|]. split; [apply no_lf_in; vm_compute; reflexivity|]. exists ins_a, ins_b. split; [vm_compute; reflexivity|]. split; [reflexivity|]. right. apply ends_lf. vm_compute. reflexivity.
Qed.
Lemma ins_line : with_line ins_l w_grammar ins_grammar.
Proof.
  split; [apply no_lf_in; vm_compute; reflexivity|]. exists (ins_a ++ ins_l0 ++ [10])%list, ins_b. split; [vm_compute; reflexivity|]. split; [vm_compute; reflexivity|]. right. apply ends_lf. vm_compute. reflexivity.
Qed.
Lemma ins_marks : ~ has_bom w_grammar /\ ~ has_bom ins_grammar.
Proof. split; apply no_bom_in; vm_compute; reflexivity. Qed.
Lemma ins_rule : uni_ok ascii_uni /\ with_line_behind ins_l0 ins_l w_grammar ins_grammar /\ ~ has_bom w_grammar /\ data_line ascii_uni ins_l0 /\ data_line ascii_uni ins_l /\ ~ at_line ins_l0 /\ ~ at_line ins_l /\
  (exists r0 r, rule_line sample_atof ins_l0 r0 /\ rule_line sample_atof ins_l r) /\ get_grammar ascii_env sample_atof w_grammar = Ok w_g.
Proof.
  split; [exact ascii_uni_ok|]. split; [exact ins_with|]. split; [exact (proj1 ins_marks)|]. split; [apply data_ok; vm_compute; reflexivity|]. split; [apply data_ok; vm_compute; reflexivity|].
  split; [vm_compute; intuition discriminate|]. split; [vm_compute; intuition discriminate|]. split; [|vm_compute; reflexivity].
  eexists. eexists. split; apply rule_parse_spec; vm_compute; reflexivity.
Qed.
Lemma ins_grows : uni_ok ascii_uni /\ with_line ins_l w_grammar ins_grammar /\ ~ has_bom w_grammar /\ ~ has_bom ins_grammar /\ (forall n, ~ header_line ascii_uni ins_l n) /\
  get_grammar ascii_env sample_atof w_grammar = Ok w_g /\ get_grammar ascii_env sample_atof ins_grammar = Ok ins_g.
Proof.
  split; [exact ascii_uni_ok|]. split; [exact ins_line|]. split; [exact (proj1 ins_marks)|]. split; [exact (proj2 ins_marks)|]. split; [apply header_None; [exact ascii_uni_ok|vm_compute; reflexivity]|].
  split; vm_compute; reflexivity.
Qed.
Lemma ok_inj : forall A (o : outcome A) a b, o = Ok a -> o = Ok b -> a = b.
Proof. intros A o a b H K. rewrite H in K. injection K as K. exact K. Qed.
Lemma w_lex_ok : get_lexicon ascii_env w_lexicon = Ok w_x.
Proof. vm_compute. reflexivity. Qed.
Lemma w_gr_ok : get_grammar ascii_env sample_atof w_grammar = Ok w_g.
Proof. vm_compute. reflexivity. Qed.
Lemma ins_phrases : forall x phs, get_lexicon ascii_env w_lexicon = Ok x -> make_phrases ascii_env x en w_filter w_addr = Ok phs -> phs = w_phs.
Proof.
  intros x phs X P. assert (Z := ok_inj _ _ _ _ X w_lex_ok). subst x.
  unfold w_phs. rewrite P. reflexivity.
Qed.
Lemma ins_rows : forall rows, search_all w_g w_phs = Ok rows \/ search_all ins_g w_phs = Ok rows -> sorted_rows rows (by_score rows).
Proof.
  intros rows [H|H]; [apply more_rows; left; exact H|]. vm_compute in H; injection H as <-. split; [vm_compute; apply Permutation_refl|]. intros l1 a l2 b l3 E. vm_compute in E.
  destruct l1 as [|r l1]; [injection E as <- E; destruct l2 as [|r2 l2]; [injection E as <- _; vm_compute; reflexivity|injection E as _ E; destruct l2; discriminate]|].
  injection E as _ E. destruct l1 as [|r2 l1]; [injection E as _ E; destruct l2; discriminate|]. injection E as _ E. destruct l1; discriminate.
Qed.
Lemma ins_call : no_nan_scores ins_g /\
  (forall x phs, get_lexicon ascii_env w_lexicon = Ok x -> make_phrases ascii_env x en w_filter w_addr = Ok phs -> Forall (sizes_ok ins_g) phs /\ Forall (fun ph => (combinations ph <= 2 ^ 32)%N) phs) /\
  (exists r, std_standardize ascii_env sample_atof w_addr w_grammar w_lexicon en w_filter = Ok (Some r)) /\
  std_standardize ascii_env sample_atof v_addr w_grammar w_lexicon en w_filter = Ok None /\ exists r, std_standardize ascii_env sample_atof v_addr ins_grammar w_lexicon en w_filter = Ok (Some r).
Proof.
  split; [apply nonan_b_ok; vm_compute; reflexivity|]. split.
  - intros x phs X P. rewrite (ins_phrases x phs X P). split; [apply (phs_sizes ins_g 3); [vm_compute; reflexivity|lia]|exact (proj2 w_phs_sizes)].
  - split; [eexists; vm_compute; reflexivity|]. split; [vm_compute; reflexivity|]. eexists. vm_compute. reflexivity.
Qed.
Lemma ins_match : (forall x phs, get_lexicon ascii_env w_lexicon = Ok x -> make_phrases ascii_env x en w_filter w_addr = Ok phs -> Forall (fun ph => (combinations ph <= 2 ^ 32)%N) phs /\
     forall g rows, get_grammar ascii_env sample_atof w_grammar = Ok g -> search_all g phs = Ok rows \/ search_all ins_g phs = Ok rows -> sorted_rows rows (by_score rows)) /\
  exists row, std_match_address ascii_env sample_atof by_score w_addr w_grammar w_lexicon en w_filter = Ok [row].
Proof.
  split; [|eexists; vm_compute; reflexivity]. intros x phs X P. rewrite (ins_phrases x phs X P). split; [exact (proj2 w_phs_sizes)|]. intros g rows G.
  rewrite (ok_inj _ _ _ _ G w_gr_ok). apply ins_rows.
Qed.
(** A reference line. *)
Definition ins_m0 : text := s2t "@house @street"%string.
Definition ins_m : text := s2t "  @street	@box"%string.
Definition ins_ma : text := firstn 30 w_grammar.
Definition ins_mb : text := skipn 45 w_grammar.
Definition ins_mgrammar : text := (ins_ma ++ ins_m0 ++ 10 :: ins_m ++ 10 :: ins_mb)%list.
Lemma ins_meta : uni_ok ascii_uni /\ with_line_behind ins_m0 ins_m w_grammar ins_mgrammar /\ ~ has_bom w_grammar /\ meta_line ascii_uni ins_m0 [s2t "house"%string; s2t "street"%string] /\
  meta_line ascii_uni ins_m [s2t "street"%string; s2t "box"%string] /\ Forall (fun n => In n (section_names w_g)) [s2t "street"%string; s2t "box"%string] /\ get_grammar ascii_env sample_atof w_grammar = Ok w_g.
Proof.
  split; [exact ascii_uni_ok|]. split.
  { split; [apply no_lf_in; vm_compute; reflexivity|]. split; [apply no_lf_in; vm_compute; reflexivity|]. exists ins_ma, ins_mb. split; [vm_compute; reflexivity|]. split; [reflexivity|]. right. apply ends_lf. vm_compute. reflexivity. }
  split; [exact (proj1 ins_marks)|].
  assert (W : forall n, existsb (fun c => negb (u_word ascii_uni c)) n = false -> Forall (ident_char ascii_uni) n).
  { intros n H. apply Forall_forall. intros c I. left. destruct (u_word ascii_uni c) eqn:E; [reflexivity|]. assert (K : existsb (fun c => negb (u_word ascii_uni c)) n = true) by (apply existsb_exists; exists c; rewrite E; auto). congruence. }
  split.
  { split; [|discriminate]. apply (rl_ref ascii_uni [] (s2t "house"%string) (s2t " @street"%string) [s2t "street"%string]); [constructor|discriminate|apply W; vm_compute; reflexivity|].
    apply (rl_ref ascii_uni [32] (s2t "street"%string) [] []); [repeat constructor|discriminate|apply W; vm_compute; reflexivity|]. constructor. constructor. }
  split.
  { split; [|discriminate]. apply (rl_ref ascii_uni [32; 32] (s2t "street"%string) (s2t "	@box"%string) [s2t "box"%string]); [repeat constructor|discriminate|apply W; vm_compute; reflexivity|].
    apply (rl_ref ascii_uni [9] (s2t "box"%string) [] []); [repeat constructor|discriminate|apply W; vm_compute; reflexivity|]. constructor. constructor. }
  split; [|vm_compute; reflexivity]. constructor; [vm_compute; tauto|]. constructor; [vm_compute; tauto|constructor].
Qed.
(** A comment. *)
Definition ins_c : text := s2t " # no street without a type"%string.
Definition ins_cgrammar : text := (ins_a ++ ins_c ++ 10 :: ins_l0 ++ 10 :: ins_b)%list.
Lemma ins_comment : uni_ok ascii_uni /\ with_line ins_c w_grammar ins_cgrammar /\ ~ has_bom w_grammar /\ ~ has_bom ins_cgrammar /\ comment_line ascii_uni ins_c /\ get_grammar ascii_env sample_atof w_grammar = Ok w_g.
Proof.
  split; [exact ascii_uni_ok|]. split.
  { split; [apply no_lf_in; vm_compute; reflexivity|]. exists ins_a, (ins_l0 ++ 10 :: ins_b)%list. split; [vm_compute; reflexivity|]. split; [reflexivity|]. right. apply ends_lf. vm_compute. reflexivity. }
  split; [exact (proj1 ins_marks)|]. split; [apply no_bom_in; vm_compute; reflexivity|]. split; [apply is_comment_spec; [exact ascii_uni_ok|vm_compute; reflexivity]|vm_compute; reflexivity].
Qed.
(** A further header. *)
Definition ins_h : text := s2t "[alley]"%string.
Definition ins_alley : text := s2t "[ADDRESS]
@house @street
[house]
NUMBER -> HOUSE -> 0.9
[street]
WORD TYPE -> STREET SUFTYP -> 0.8
[alley]
WORD -> STREET -> 0.4
"%string.
Definition ins_both : text := s2t "[ADDRESS]
@house @street
[house]
NUMBER -> HOUSE -> 0.9
[street]
WORD TYPE -> STREET SUFTYP -> 0.8
WORD -> STREET -> 0.4
"%string.
Lemma ins_header : exists l gr gr' g' r, with_line l gr gr' /\ get_grammar ascii_env sample_atof gr' = Ok g' /\
  std_standardize ascii_env sample_atof v_addr gr w_lexicon en w_filter = Ok (Some r) /\ std_standardize ascii_env sample_atof v_addr gr' w_lexicon en w_filter = Ok None.
Proof.
  exists ins_h, ins_both, ins_alley. eexists. eexists. split.
  { split; [apply no_lf_in; vm_compute; reflexivity|]. exists (firstn 99 ins_both), (skipn 99 ins_both). split; [symmetry; apply firstn_skipn|]. split; [vm_compute; reflexivity|]. right. apply ends_lf. vm_compute. reflexivity. }
  split; [vm_compute; reflexivity|]. split; vm_compute; reflexivity.
Qed.
