(** Grammars for the examples of Alike_props. *)
From Coq Require Import String List NArith ZArith Bool Lia Arith.
From Verif Require Import Base_model Class_model Float_model Uni_model Token_model Rule_model Search_model Grammar_model Lexicon_model Tokenizer_model Archive_model Wrapper_model
  Sample_model Search_spec Grammar_spec Loaded_spec Lexicon_spec Wrapper_spec End_spec Alike_spec Search_proofs SearchTop_proofs Loaded_proofs WrapperEx_proofs AnswerEx_proofs End_proofs EndEx_proofs Alike_proofs.
Import ListNotations.

(** [w_grammar] in another order, with another name for a section and a section that is not used. *)
Definition moved_grammar : text := s2t "[street]
WORD TYPE -> STREET SUFTYP -> 0.8
[spare]
WORD -> CITY -> 0.9
[ADDRESS]
@number @street @box
@number @street
[box]
BOXH NUMBER -> BOXH BOXT -> 0.5
[number]
NUMBER -> HOUSE -> 0.9
"%string.
(** With an alternative and a rule that need the class RR. *)
Definition rural_grammar : text := s2t "[ADDRESS]
@rural @street
@house @street @box
@house @street
[house]
RR NUMBER -> HOUSE HOUSE -> 0.9
NUMBER -> HOUSE -> 0.9
[street]
WORD TYPE -> STREET SUFTYP -> 0.8
[box]
BOXH NUMBER -> BOXH BOXT -> 0.5
[rural]
RR -> HOUSE -> 0.9
"%string.
Definition moved_g : grammar := match get_grammar ascii_env sample_atof moved_grammar with Ok g => g | _ => mkGrammar [] [] [] end.
Definition rural_g : grammar := match get_grammar ascii_env sample_atof rural_grammar with Ok g => g | _ => mkGrammar [] [] [] end.
Definition house : text := s2t "house"%string.
Definition move (n : text) : text := if teqb n house then s2t "number"%string else n.
Lemma grammar_given : forall t, match get_grammar ascii_env sample_atof t with Ok _ => true | _ => false end = true ->
  grammar_of ascii_uni sample_atof t (match get_grammar ascii_env sample_atof t with Ok g => g | _ => mkGrammar [] [] [] end).
Proof.
  intros t H. destruct (get_grammar ascii_env sample_atof t) as [g| |] eqn:E; try discriminate. exact (proj1 (grammar_loads ascii_env sample_atof t g ascii_uni_ok E)).
Qed.
Lemma reached_w : forall n, reached w_g ADDRESS n -> In n [ADDRESS; house; s2t "street"%string; s2t "box"%string].
Proof.
  intros n H. induction H as [|m refs x H IH IM IR IX]; [left; reflexivity|]. clear H IH. vm_compute in IM. destruct IM as [<-|[]]. destruct IR as [<-|[<-|[]]]; vm_compute in IX; vm_compute; tauto.
Qed.
Definition meta_of (g : grammar) (n : text) : metasection := match find (fun m => teqb (ms_name m) n) (g_metas g) with Some m => m | None => mkMeta [] [] end.
Definition rules_of (g : grammar) (n : text) : rulesection := match find (fun m => teqb (rs_name m) n) (g_rules g) with Some m => m | None => mkRules [] [] end.
Lemma moved_lines : forall n, reached w_g ADDRESS n -> same_lines move w_g moved_g n.
Proof.
  intros n H. apply reached_w in H. destruct H as [<-|[<-|[<-|[<-|[]]]]].
  - left. exists (meta_of w_g ADDRESS), (meta_of moved_g ADDRESS). vm_compute. tauto.
  - right. exists (rules_of w_g house), (rules_of moved_g (move house)). vm_compute. tauto.
  - right. exists (rules_of w_g (s2t "street"%string)), (rules_of moved_g (s2t "street"%string)). vm_compute. tauto.
  - right. exists (rules_of w_g (s2t "box"%string)), (rules_of moved_g (s2t "box"%string)). vm_compute. tauto.
Qed.
Lemma moved_setting : uni_ok ascii_uni /\ grammar_of ascii_uni sample_atof w_grammar w_g /\ grammar_of ascii_uni sample_atof moved_grammar moved_g /\ move ADDRESS = ADDRESS /\
  (forall n, reached w_g ADDRESS n -> same_lines move w_g moved_g n) /\ exists r, std_standardize ascii_env sample_atof w_addr moved_grammar w_lexicon en w_filter = Ok (Some r).
Proof.
  split; [exact ascii_uni_ok|]. split; [apply grammar_given; vm_compute; reflexivity|]. split; [apply grammar_given; vm_compute; reflexivity|]. split; [vm_compute; reflexivity|]. split; [exact moved_lines|].
  eexists. vm_compute. reflexivity.
Qed.
Definition has_b (ph : list token) (c : intype) : bool := existsb (fun k => iset_mem c (t_in k)) ph.
Lemma has_b_no : forall ph c, has_b ph c = false -> ~ has_class ph c.
Proof. intros ph c H (k & I & J). assert (has_b ph c = true); [|congruence]. apply existsb_exists. exists k. split; [exact I|]. apply iset_mem_In. exact J. Qed.
Lemma w_phs_no : Forall (fun ph => ~ has_class ph I_RR) w_phs.
Proof.
  assert (H : forallb (fun ph => negb (has_b ph I_RR)) w_phs = true) by (vm_compute; reflexivity). apply Forall_forall. intros ph I. rewrite forallb_forall in H. specialize (H ph I). apply has_b_no. destruct (has_b ph I_RR); [discriminate H|reflexivity].
Qed.
Lemma rural_hopeless : forall ph, ~ has_class ph I_RR -> hopeless rural_g ph (s2t "rural"%string).
Proof.
  intros ph NH k rs D. remember [s2t "rural"%string] as ns eqn:E. destruct D as [|m refs rest k rs IM IR D|s r rest k rs IS IR D]; [discriminate| |].
  - exfalso. injection E as E _. vm_compute in IM. destruct IM as [<-|[]]. vm_compute in E. discriminate E.
  - exists r. split; [left; reflexivity|]. injection E as E _. vm_compute in IS. destruct IS as [<-|[<-|[<-|[<-|[]]]]]; try (vm_compute in E; discriminate E).
    destruct IR as [<-|[]]. exists I_RR. split; [left; reflexivity|exact NH].
Qed.
Lemma rural_same : forall ph, ~ has_class ph I_RR -> say_same ph w_g rural_g.
Proof.
  intros ph NH. exists (fun n n' => n = n' /\ In n [ADDRESS; house; s2t "street"%string; s2t "box"%string]). split; [split; [reflexivity|left; reflexivity]|]. intros n n' (<- & I). destruct I as [<-|[<-|[<-|[<-|[]]]]].
  - left. exists (meta_of w_g ADDRESS), (meta_of rural_g ADDRESS). split; [vm_compute; tauto|]. split; [vm_compute; reflexivity|]. split; [vm_compute; tauto|]. split; [vm_compute; reflexivity|].
    apply (proj1 (aligned_map ref_names ref_names _ (fun ns => exists n, In n ns /\ hopeless w_g ph n) (fun ns => exists n, In n ns /\ hopeless rural_g ph n) _ _)).
    assert (HR := rural_hopeless ph NH). replace (map ref_names (ms_rules (meta_of w_g ADDRESS))) with [[house; s2t "street"%string; s2t "box"%string]; [house; s2t "street"%string]] by (vm_compute; reflexivity).
    replace (map ref_names (ms_rules (meta_of rural_g ADDRESS))) with [[s2t "rural"%string; s2t "street"%string]; [house; s2t "street"%string; s2t "box"%string]; [house; s2t "street"%string]] by (vm_compute; reflexivity).
    apply al_right; [exists (s2t "rural"%string); split; [left; reflexivity|exact HR]|]. 
    apply al_both; [repeat constructor; cbn [In]; tauto|]. apply al_both; [repeat constructor; cbn [In]; tauto|]. constructor.
  - right. exists (rules_of w_g house), (rules_of rural_g house). split; [vm_compute; tauto|]. split; [vm_compute; reflexivity|]. split; [vm_compute; tauto|]. split; [vm_compute; reflexivity|].
    assert (E : exists r x, rs_rules (rules_of w_g house) = [x] /\ rs_rules (rules_of rural_g house) = [r; x] /\ In I_RR (r_in r)) by (do 2 eexists; split; [vm_compute; reflexivity|split; [vm_compute; reflexivity|vm_compute; left; reflexivity]]).
    destruct E as (r & x & -> & -> & E). apply al_right; [exists I_RR; split; assumption|]. apply al_both; [reflexivity|constructor].
  - right. exists (rules_of w_g (s2t "street"%string)), (rules_of rural_g (s2t "street"%string)). split; [vm_compute; tauto|]. split; [vm_compute; reflexivity|]. split; [vm_compute; tauto|]. split; [vm_compute; reflexivity|].
    assert (E : exists x, rs_rules (rules_of w_g (s2t "street"%string)) = [x] /\ rs_rules (rules_of rural_g (s2t "street"%string)) = [x]) by (eexists; split; vm_compute; reflexivity).
    destruct E as (x & -> & ->). apply al_both; [reflexivity|constructor].
  - right. exists (rules_of w_g (s2t "box"%string)), (rules_of rural_g (s2t "box"%string)). split; [vm_compute; tauto|]. split; [vm_compute; reflexivity|]. split; [vm_compute; tauto|]. split; [vm_compute; reflexivity|].
    assert (E : exists x, rs_rules (rules_of w_g (s2t "box"%string)) = [x] /\ rs_rules (rules_of rural_g (s2t "box"%string)) = [x]) by (eexists; split; vm_compute; reflexivity).
    destruct E as (x & -> & ->). apply al_both; [reflexivity|constructor].
Qed.
Lemma rural_setting : uni_ok ascii_uni /\ grammar_of ascii_uni sample_atof w_grammar w_g /\ grammar_of ascii_uni sample_atof rural_grammar rural_g /\
  (forall x phs, get_lexicon ascii_env w_lexicon = Ok x -> make_phrases ascii_env x en w_filter w_addr = Ok phs -> Forall (fun ph => say_same ph w_g rural_g) phs) /\
  exists r, std_standardize ascii_env sample_atof w_addr rural_grammar w_lexicon en w_filter = Ok (Some r).
Proof.
  split; [exact ascii_uni_ok|]. split; [apply grammar_given; vm_compute; reflexivity|]. split; [apply grammar_given; vm_compute; reflexivity|]. split; [|eexists; vm_compute; reflexivity].
  intros x phs EX EP. assert (EX' : get_lexicon ascii_env w_lexicon = Ok w_x) by (vm_compute; reflexivity). rewrite EX' in EX. apply ok_inj in EX. subst x.
  assert (phs = w_phs) by (unfold w_phs; rewrite EP; reflexivity). subst phs. eapply Forall_impl; [|exact w_phs_no]. exact rural_same.
Qed.
(** The order of the lines within a section matters when scores are equal. *)
Definition first_grammar : text := s2t "[ADDRESS]
WORD -> STREET -> 0.5
WORD -> CITY -> 0.5
"%string.
Definition second_grammar : text := s2t "[ADDRESS]
WORD -> CITY -> 0.5
WORD -> STREET -> 0.5
"%string.
Lemma order_matters : exists r r', std_standardize ascii_env sample_atof (s2t "Main"%string) first_grammar w_lexicon en w_filter = Ok (Some r) /\
  std_standardize ascii_env sample_atof (s2t "Main"%string) second_grammar w_lexicon en w_filter = Ok (Some r') /\ sa_pattern r = s2t "WORD -> STREET"%string /\ sa_pattern r' = s2t "WORD -> CITY"%string.
Proof. do 2 eexists. split; [vm_compute; reflexivity|]. split; [vm_compute; reflexivity|]. split; vm_compute; reflexivity. Qed.
Lemma rural_search : linked w_g /\ linked rural_g /\ Forall (fun ph => exists R, corresponds R ph w_g rural_g /\ R ADDRESS ADDRESS) w_phs /\ w_phs <> [] /\ w_g <> rural_g.
Proof.
  split; [apply loaded_linked; exact w_g_loaded|]. destruct (grammar_both ascii_env sample_atof rural_grammar rural_g ascii_uni_ok (grammar_given rural_grammar ltac:(vm_compute; reflexivity))) as (h & E & L & _).
  assert (h = rural_g) by (unfold rural_g; rewrite E; reflexivity). subst h. split; [apply loaded_linked; exact L|]. split; [|split; [vm_compute; discriminate|]].
  - eapply Forall_impl; [|exact w_phs_no]. intros ph NH. destruct (rural_same ph NH) as (R & A & B). exists R. auto.
  - intros Z. apply (f_equal (fun g => List.length (g_rules g))) in Z. vm_compute in Z. discriminate Z.
Qed.
