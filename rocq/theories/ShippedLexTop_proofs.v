(** Shipped grammars with shipped lexicons. *)
From Coq Require Import String List NArith ZArith Bool Lia.
From Verif Require Import Base_model Class_model Class_spec Uni_model Token_model Grammar_model Lexicon_model Lexicon_spec Tokenizer_model Tokenizer_spec
  Wrapper_model Wrapper_spec Sample_model Loaded_spec Archive_model Shipped_model Shipped_proofs ShippedLex_model ShippedLex_spec Search_spec ShippedLex_proofs
  Loaded_proofs ScoreTop_proofs.
Import ListNotations.
Local Open Scope N_scope.

Lemma sample_loaded : forall s L, load_sample s = Ok L -> is_loaded (gl_grammar L).
Proof. intros s L E. exists ascii_uni, sample_atof, (s2t s), L. split; [exact ascii_uni_ok|]. split; [exact E|reflexivity]. Qed.
Lemma shipped_answer : forall ps t e name x s L locale filt address, In ps shipped_lexicons -> text_of ps t -> shipped_locale_env e ->
  load_lexicon e name t = Ok x -> In s shipped_grammars -> load_sample s = Ok L ->
  blank_lines (e_uni e) (search_text e x (prepared e locale address)) ->
  exists ks, get_tokens e (mkTz x (as_type filt)) (prepared e locale address) = Ok ks /\
    ((phrases ks <= 31)%nat -> exists o, standardize_addr e (gl_grammar L) x locale filt address = Ok o).
Proof.
  intros ps t e name x s L locale filt address I T E X _ G B. destruct (proj2 (shipped_load ps I) t e name T E) as (y & Y & _ & SW & _).
  assert (y = x) by congruence. subst y. destruct (answer_any e (gl_grammar L) x locale filt address (sample_loaded s L G) (built_load _ _ _ _ X) SW B) as (ks & K & P).
  exists ks. split; [exact K|]. intros Q. destruct (P Q) as (alts & o & _ & O & _). exists o. exact O.
Qed.
Lemma rue_cuts : pieces_of (get_tokens ascii_env (mkTz (lex_of (lex_text slex_belgium)) (as_type (s2t "PUNCT,SPACE"))) (prepared ascii_env (s2t "fr_BE") (s2t "Rue Haute 12"))) =
  [(s2t "RUE", [I_TYPE]); (s2t "HAUTE", [I_WORD]); (s2t "12", [I_NUMBER])].
Proof. vm_compute. reflexivity. Qed.
Lemma pieces_ok : forall r l, pieces_of r = l -> [] <> l -> exists ks, r = Ok ks /\ map (fun k => (t_text k, t_in k)) ks = l.
Proof. intros r l E H. destruct r as [ks|m|]; [exists ks; split; [reflexivity|exact E]|exfalso; apply H; exact E..]. Qed.
Lemma rue_ok : exists ks, get_tokens ascii_env (mkTz (lex_of (lex_text slex_belgium)) (as_type (s2t "PUNCT,SPACE"))) (prepared ascii_env (s2t "fr_BE") (s2t "Rue Haute 12")) = Ok ks /\
  map (fun k => (t_text k, t_in k)) ks = [(s2t "RUE", [I_TYPE]); (s2t "HAUTE", [I_WORD]); (s2t "12", [I_NUMBER])].
Proof. exact (pieces_ok _ _ rue_cuts (@nil_cons _ _ _)). Qed.
Lemma belgium_answer : let x := lex_of (lex_text slex_belgium) in
  In slex_belgium shipped_lexicons /\ text_of slex_belgium (lex_text slex_belgium) /\ shipped_locale_env ascii_env /\
  load_lexicon ascii_env query_lex (lex_text slex_belgium) = Ok x /\ In gmr_belgium shipped_grammars /\
  exists L, load_sample gmr_belgium = Ok L /\
  blank_lines (e_uni ascii_env) (search_text ascii_env x (prepared ascii_env (s2t "fr_BE") (s2t "Rue Haute 12"))) /\
  exists ks, get_tokens ascii_env (mkTz x (as_type (s2t "PUNCT,SPACE"))) (prepared ascii_env (s2t "fr_BE") (s2t "Rue Haute 12")) = Ok ks /\
    map (fun k => (t_text k, t_in k)) ks = [(s2t "RUE", [I_TYPE]); (s2t "HAUTE", [I_WORD]); (s2t "12", [I_NUMBER])] /\ (phrases ks <= 31)%nat.
Proof.
  cbv zeta. assert (G : In gmr_belgium shipped_grammars) by (unfold shipped_grammars; do 3 right; left; reflexivity).
  split; [exact in_shipped_belgium|]. split; [exact (shipped_text_of _ in_shipped_belgium)|]. split; [exact ascii_shipped|]. split; [exact (lex_of_ok _ belgium_loads)|].
  split; [exact G|]. destruct (shipped_each gmr_belgium G) as (L & E & _). exists L. split; [exact E|]. split.
  - intros c I K. exfalso. unfold search_text, prepared in I. cbn [e_upper e_nfc ascii_env] in I. vm_compute in I. unfold line_end in K. cbn [In] in K.
    repeat (destruct I as [<-|I]; [repeat (destruct K as [K|K]; [discriminate K|]); exact K|]). exact I.
  - destruct (rue_ok) as (ks & K1 & K2). exists ks. split; [exact K1|]. split; [exact K2|].
    assert (P : phrases ks = 0%nat); [|rewrite P; repeat constructor].
    pose proof (f_equal (map fst) K2) as K3. rewrite map_map in K3. cbn [map fst] in K3. clear - K3.
    destruct ks as [|k1 [|k2 [|k3 [|]]]]; try discriminate K3. cbn [map fst] in K3. injection K3 as A B C. unfold phrases, is_phrase. cbn [filter]. rewrite A, B, C. vm_compute. reflexivity.
Qed.
Lemma andorra_line : In slex_andorra shipped_lexicons /\ text_of slex_andorra (lex_text slex_andorra) /\
  let l := tabbed ["LEXENTRY:"; "AVINGUDA"; "AVINGUDA"; "TYPE"; "ATT_PRE,DET_PRE"]%string in line_of (lex_text slex_andorra) l /\ att_field l (s2t "DET_PRE").
Proof.
  split; [exact in_shipped_andorra|]. split; [exact (shipped_text_of _ in_shipped_andorra)|]. cbv zeta.
  split; [apply (line_has _ _ in_shipped_andorra); vm_compute; reflexivity|].
  eexists _, _. split; [apply cols_ok|]. split; [apply cols_ok|]. vm_compute. right. left. reflexivity.
Qed.
