(** Two texts with one digest. *)
From Coq Require Import String List NArith ZArith Bool Lia.
From Verif Require Utf8_spec Utf8_proofs.
From Verif Require Import Base_model Class_model Float_model Uni_model Token_model Rule_model Search_model Grammar_model Md5_model Lexicon_model Sample_model
  Grammar_spec Lexicon_spec GrammarTop_proofs GrammarMore_proofs LexFileExample_proofs Loaded_proofs WrapperEx_proofs Digest_model Digest_spec Digest_proofs.
Import ListNotations.
Local Open Scope N_scope.

Lemma load_digest_iff : forall u atof src,
  (forall l d, load_grammar_d u atof src = Ok (l, d) <->
     load_grammar u atof src = Ok l /\ exists t, effective src t /\ d = md5_hex (bytes_of (run_together src ++ last_piece t))) /\
  (forall m, load_grammar_d u atof src = Throw m <-> load_grammar u atof src = Throw m).
Proof.
  intros u atof src. split.
  - intros l d. split.
    + intros H. assert (X : exists l0, load_grammar u atof src = Ok l0).
      { unfold load_grammar_d in H. rewrite loop_gather in H. unfold load_grammar, load_sections.
        destruct (load_loop (List.length src + 3) u atof true (open_stream src) [] load0) as [s|m|]; cbn [obind fst snd] in *; [|discriminate H|discriminate H].
        assert (E : (match l_sec s with [] => Ok s | _ => Ok (flush s) end) = Ok (match l_sec s with [] => s | _ => flush s end)) by (destruct (l_sec s); reflexivity).
        rewrite E. cbn [obind]. destruct (update_pointers _) as [[[g st] issues]|m|]; cbn [obind] in *; [|discriminate H|discriminate H].
        destruct st; [discriminate H|eexists; reflexivity|eexists; reflexivity]. }
      destruct X as (l0 & E). destruct (load_grammar_effective u atof src l0 E) as (t & Ef).
      rewrite (load_digest u atof src t Ef), E in H. cbn [obind] in H.
      assert (A := f_equal (fun o => match o with Ok x => fst x | _ => l end) H). assert (B := f_equal (fun o => match o with Ok x => snd x | _ => d end) H).
      cbv beta iota in A, B. cbn [fst snd] in A, B. split; [rewrite E, A; reflexivity|]. exists t. split; [exact Ef|symmetry; exact B].
    + intros (E & t & Ef & ->). rewrite (load_digest u atof src t Ef), E. reflexivity.
  - intros m. unfold load_grammar_d. rewrite loop_gather. unfold load_grammar, load_sections.
    destruct (load_loop (List.length src + 3) u atof true (open_stream src) [] load0) as [s|m'|]; cbn [obind fst snd].
    + assert (E : (match l_sec s with [] => Ok s | _ => Ok (flush s) end) = Ok (match l_sec s with [] => s | _ => flush s end)) by (destruct (l_sec s); reflexivity).
      rewrite E. cbn [obind]. destruct (update_pointers _) as [[[g st] issues]|m'|]; cbn [obind].
      * destruct st; split; intros H; try discriminate H; inversion H; reflexivity.
      * split; intros H; inversion H; reflexivity.
      * split; intros H; discriminate H.
    + split; intros H; inversion H; reflexivity.
    + split; intros H; discriminate H.
Qed.
Lemma same_digest : forall u atof a b ta tb la lb da db, effective a ta -> effective b tb ->
  run_together a = run_together b -> last_piece ta = last_piece tb ->
  load_grammar_d u atof a = Ok (la, da) -> load_grammar_d u atof b = Ok (lb, db) -> da = db.
Proof.
  intros u atof a b ta tb la lb da db Ea Eb R L Ha Hb.
  apply (proj1 (load_digest_iff u atof a)) in Ha. apply (proj1 (load_digest_iff u atof b)) in Hb.
  destruct Ha as (_ & t & Et & ->). destruct Hb as (_ & t' & Et' & ->).
  rewrite (effective_det a t ta Et Ea), (effective_det b t' tb Et' Eb), R, L. reflexivity.
Qed.

Definition dg_1 : text := s2t "[ADDRESS]
@house
@street
[house]
NUMBER -> HOUSE -> 0.9
[street]
WORD TYPE -> STREET SUFTYP -> 0.8
".
Definition dg_2 : text := s2t "[ADDRESS]
@house@street
[house]
NUMBER -> HOUSE -> 0.9
[street]
WORD TYPE -> STREET SUFTYP -> 0.8
".
Definition dg_phrase : list token := [mkToken (s2t "7") [] [I_NUMBER] O_BADTOKEN [] false].
Definition dg_loaded (src : text) : loaded := match load_grammar ascii_uni sample_atof src with Ok l => l | _ => mkLoaded (mkGrammar [] [] []) CHECK_OK [] end.
Lemma dg_load : forall src, match load_grammar ascii_uni sample_atof src with Ok _ => true | _ => false end = true ->
  load_grammar ascii_uni sample_atof src = Ok (dg_loaded src).
Proof. intros src H. unfold dg_loaded. destruct (load_grammar ascii_uni sample_atof src); [reflexivity|discriminate H|discriminate H]. Qed.
Lemma dg_plain : forall c s, c <> 0xFEFF -> effective (c :: s) (c :: s).
Proof. intros c s H. apply eff_plain. intros (t & K). injection K as K _. exact (H K). Qed.
Lemma dg_refuted : exists u atof a b la lb d phrase pa, uni_ok u /\
  load_grammar_d u atof a = Ok (la, d) /\ load_grammar_d u atof b = Ok (lb, d) /\
  search (gl_grammar la) phrase = Ok [pa] /\ search (gl_grammar lb) phrase = Ok [].
Proof.
  exists ascii_uni, sample_atof, dg_1, dg_2, (dg_loaded dg_1), (dg_loaded dg_2), (md5_hex (bytes_of (run_together dg_1 ++ last_piece dg_1))), dg_phrase.
  assert (L1 := dg_load dg_1 ltac:(vm_compute; reflexivity)). assert (L2 := dg_load dg_2 ltac:(vm_compute; reflexivity)).
  eexists. split; [apply ascii_uni_ok|]. split; [|split; [|split]].
  - apply (proj1 (load_digest_iff ascii_uni sample_atof dg_1)). split; [exact L1|]. exists dg_1. split; [apply dg_plain; discriminate|reflexivity].
  - apply (proj1 (load_digest_iff ascii_uni sample_atof dg_2)). split; [exact L2|]. exists dg_2. split; [apply dg_plain; discriminate|].
    replace (run_together dg_2 ++ last_piece dg_2) with (run_together dg_1 ++ last_piece dg_1) by (vm_compute; reflexivity). reflexivity.
  - vm_compute. reflexivity.
  - vm_compute. reflexivity.
Qed.
Definition dx_head : text := cols ["LEXICON:"; "us"; "ENG"; "en"]%string.
Definition dx_line : text := cols ["LEXENTRY:"; "ST"; "STREET"; "TYPE"; "DETACH"]%string.
Definition dx_1 : text := dx_head ++ [10] ++ dx_line ++ [10].
Definition dx_2 : text := dx_head ++ dx_line ++ [10].
Lemma dx_refuted : exists e name a b xa xb, load_lexicon e name a = Ok xa /\ load_lexicon e name b = Ok xb /\ x_md5 xa = x_md5 xb /\
  lex_find xa (s2t "ST") <> [] /\ lex_find xb (s2t "ST") = [].
Proof.
  exists ascii_env, (s2t "us"), dx_1, dx_2. eexists. eexists.
  split; [cbv -[md5_hex]; reflexivity|]. split; [cbv -[md5_hex]; reflexivity|]. split; [reflexivity|]. split; [vm_compute; discriminate|vm_compute; reflexivity].
Qed.
Lemma dg_example : exists l d, load_grammar_d ascii_uni sample_atof dg_2 = Ok (l, d) /\
  d = md5_hex (bytes_of (s2t "[ADDRESS]@house@street[house]NUMBER -> HOUSE -> 0.9[street]WORD TYPE -> STREET SUFTYP -> 0.8")).
Proof.
  exists (dg_loaded dg_2). eexists. split; [|reflexivity]. apply (proj1 (load_digest_iff ascii_uni sample_atof dg_2)).
  split; [apply dg_load; vm_compute; reflexivity|]. exists dg_2. split; [apply dg_plain; discriminate|].
  match goal with |- _ = md5_hex (bytes_of ?x) => let y := eval vm_compute in x in change x with y end. reflexivity.
Qed.

(** The bytes that are digested. *)
Lemma bytes_utf8 : forall t, Forall Utf8_spec.scalar t -> Utf8_spec.utf8_text t (bytes_of t).
Proof.
  intros t H. destruct (Utf8_proofs.encode_text t H) as (s & E & U). unfold bytes_of.
  match goal with |- Utf8_spec.utf8_text _ (match ?o with _ => _ end) => replace o with (Ok s) by (symmetry; exact E) end. exact U.
Qed.
Lemma bytes_utf8_ex : bytes_of [82; 233] = [82; 195; 169].
Proof. vm_compute. reflexivity. Qed.
