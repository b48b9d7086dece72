(** The shipped grammars: loading, the limit of the search, class names. *)
From Coq Require Import String List NArith ZArith Lia Bool.
From Verif Require Import Base_model Class_model Float_model Uni_model Token_model Rule_model Grammar_model Search_model Sample_model
  Lexicon_model Lexicon_spec Wrapper_model Shipped_model Shipped_spec Search_spec Grammar_spec Loaded_spec Excess_spec
  Search_proofs SearchTop_proofs Loaded_proofs Excess_proofs.
Import ListNotations.

Definition in_eqb (a b : intype) : bool := Z.eqb (in_code a) (in_code b).
Definition bad_out (o : outtype) : bool := match o with O_BADTOKEN => true | _ => false end.
Definition bad_in (i : intype) : bool := match i with I_BADTOKEN => true | _ => false end.
Definition known_in_b (g : grammar) : bool :=
  forallb (fun m => forallb (fun r => negb (existsb bad_in (r_in r))) (rs_rules m)) (g_rules g).
(** The two misspelled rules. *)
Definition misspelled (r : rule) : Prop :=
  (r_in r = [I_UNITH; I_WORD] /\ r_out r = [O_UNITH; O_BADTOKEN]) \/
  (r_in r = [I_UNITH; I_NUMBER; I_SINGLE] /\ r_out r = [O_UNITH; O_UNITT; O_BADTOKEN]).
Definition misspelled_b (r : rule) : bool :=
  match r_in r, r_out r with
  | [I_UNITH; I_WORD], [O_UNITH; O_BADTOKEN] => true
  | [I_UNITH; I_NUMBER; I_SINGLE], [O_UNITH; O_UNITT; O_BADTOKEN] => true
  | _, _ => false
  end.
Definition known_out_b (g : grammar) : bool :=
  forallb (fun m => forallb (fun r => negb (existsb bad_out (r_out r)) || misspelled_b r) (rs_rules m)) (g_rules g).
Lemma known_in_b_ok : forall g, known_in_b g = true -> known_inputs g.
Proof.
  intros g H sec r I J K. unfold known_in_b in H. rewrite forallb_forall in H. specialize (H sec I).
  rewrite forallb_forall in H. specialize (H r J). apply negb_true_iff in H.
  assert (E : existsb bad_in (r_in r) = true) by (apply existsb_exists; exists I_BADTOKEN; auto). congruence.
Qed.
Lemma misspelled_b_ok : forall r, misspelled_b r = true -> misspelled r.
Proof.
  intros [i o s]. unfold misspelled_b, misspelled. cbn [r_in r_out]. intros H.
  repeat match type of H with context [match ?x with _ => _ end] => destruct x; try discriminate H end; auto.
Qed.
Lemma known_out_b_ok : forall g, known_out_b g = true ->
  forall sec r, In sec (g_rules g) -> In r (rs_rules sec) -> In O_BADTOKEN (r_out r) -> misspelled r.
Proof.
  intros g H sec r I J K. unfold known_out_b in H. rewrite forallb_forall in H. specialize (H sec I).
  rewrite forallb_forall in H. specialize (H r J). apply orb_true_iff in H. destruct H as [H|H].
  - apply negb_true_iff in H.
    assert (E : existsb bad_out (r_out r) = true) by (apply existsb_exists; exists O_BADTOKEN; auto). congruence.
  - apply misspelled_b_ok, H.
Qed.

(** One check of all grammars. *)
Definition shipped_ok (s : string) : bool :=
  match load_sample s with
  | Ok L => nonan_b (gl_grammar L) && width_b (gl_grammar L) 5 && within_b (gl_grammar L) ADDRESS
            && known_in_b (gl_grammar L) && known_out_b (gl_grammar L)
  | _ => false
  end.
Lemma shipped_all : forallb shipped_ok shipped_grammars = true.
Proof. vm_cast_no_check (eq_refl true). Qed.
Lemma shipped_each : forall s, In s shipped_grammars -> exists L, load_sample s = Ok L /\
  no_nan_scores (gl_grammar L) /\ width (gl_grammar L) 5 /\ within_limit (gl_grammar L) ADDRESS /\
  known_inputs (gl_grammar L) /\
  (forall sec r, In sec (g_rules (gl_grammar L)) -> In r (rs_rules sec) -> In O_BADTOKEN (r_out r) -> misspelled r).
Proof.
  intros s I. pose proof (proj1 (forallb_forall _ _) shipped_all s I) as H. unfold shipped_ok in H.
  destruct (load_sample s) as [L| |]; try discriminate H. exists L. split; [reflexivity|].
  repeat rewrite andb_true_iff in H. destruct H as ((((A & B) & C) & D) & E).
  split; [apply nonan_b_ok, A|]. split; [apply width_b_ok, B|]. split; [apply within_b_ok, C|].
  split; [apply known_in_b_ok, D|apply known_out_b_ok, E].
Qed.
Lemma shipped_search : forall s, In s shipped_grammars -> exists L, load_sample s = Ok L /\
  no_nan_scores (gl_grammar L) /\ width (gl_grammar L) 5 /\
  forall phrase, (combinations phrase <= 2 ^ 32)%N -> exists ps, search (gl_grammar L) phrase = Ok ps /\
    forall rs, In rs (map p_rules ps) <-> exists k, derives (gl_grammar L) [ADDRESS] k rs /\ chooses phrase (rule_inputs rs).
Proof.
  intros s I. destruct (shipped_each s I) as (L & E & A & B & C & _). exists L. split; [exact E|]. split; [exact A|]. split; [exact B|].
  assert (HL : is_loaded (gl_grammar L)).
  { exists ascii_uni, sample_atof, (s2t s), L. split; [apply ascii_uni_ok|]. split; [exact E|reflexivity]. }
  intros phrase P. apply search_within; auto. apply loaded_linked, HL. apply loaded_address, HL.
Qed.
Lemma within_search : forall g node phrase, is_loaded g -> within_limit g node -> (combinations phrase <= 2 ^ 32)%N ->
  In node (section_names g) -> exists ps, search_node g node phrase = Ok ps /\
    forall rs, In rs (map p_rules ps) <-> exists k, derives g [node] k rs /\ chooses phrase (rule_inputs rs).
Proof. intros g node phrase H. apply search_within, loaded_linked, H. Qed.
