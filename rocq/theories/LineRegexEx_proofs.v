(** Lines read with the regular expressions of the source. *)
From Coq Require Import String List NArith Lia.
From Verif Require Import Base_model Class_model Float_model Uni_model Rule_model Search_model Grammar_model Regex_model Lexicon_model LineRegex_model
  Sample_model Search_spec Grammar_spec LexFile_spec Lexicon_spec Loaded_proofs WrapperEx_proofs LineRegex_proofs.
Import ListNotations.
Local Open Scope N_scope.

Lemma comment_lines : comment_line ascii_uni (s2t "  # [a]") /\ comment_line ascii_uni (s2t "   ") /\ comment_line ascii_uni [] /\ ~ comment_line ascii_uni (s2t " @A # b").
Proof.
  rewrite <- !comment_iff. vm_compute. split; [reflexivity|]. split; [reflexivity|]. split; [reflexivity|]. intros H. discriminate H.
Qed.
Lemma header_lines : uni_ok ascii_uni /\ header_line ascii_uni (s2t " [a] b] ") (s2t "a] b") /\ header_line ascii_uni (s2t "[]]") (s2t "]") /\
  section_re ascii_uni (s2t "[]") = Ok None /\ section_re ascii_uni (s2t "[a] b") = Ok None.
Proof.
  pose proof ascii_uni_ok as U. split; [exact U|]. rewrite <- !section_iff by exact U. vm_compute. repeat split; reflexivity.
Qed.
Lemma meta_lines : meta_line ascii_uni (s2t " @A@B_1  @C ") [s2t "A"; s2t "B_1"; s2t "C"] /\ ismeta_re ascii_uni (s2t "@A B") = Ok false /\ ismeta_re ascii_uni (s2t "@A @") = Ok false /\
  metarule_re ascii_uni (s2t "x@@A-B @") = Ok [new_ref (s2t "A")].
Proof.
  split; [|vm_compute; repeat split; reflexivity]. split; [|discriminate].
  change (s2t " @A@B_1  @C ") with (s2t " " ++ 64 :: s2t "A" ++ ([] ++ 64 :: s2t "B_1" ++ (s2t "  " ++ 64 :: s2t "C" ++ s2t " "))).
  assert (B : forall t, forallb (u_space ascii_uni) t = true -> blanks ascii_uni t) by (intros t H; apply Forall_forall; intros c Hc; apply (proj1 (forallb_forall _ _) H); exact Hc).
  assert (W : forall t, forallb (u_word ascii_uni) t = true -> Forall (ident_char ascii_uni) t) by (intros t H; apply Forall_forall; intros c Hc; left; apply (proj1 (forallb_forall _ _) H); exact Hc).
  assert (W2 : Forall (ident_char ascii_uni) (s2t "B_1")).
  { constructor; [left; reflexivity|]. constructor; [right; reflexivity|]. constructor; [left; reflexivity|]. constructor. }
  constructor; [apply B; reflexivity|discriminate|apply W; reflexivity|]. constructor; [constructor|discriminate|exact W2|].
  constructor; [apply B; reflexivity|discriminate|apply W; reflexivity|]. constructor. apply B. reflexivity.
Qed.
Lemma blank_lines : one_blank (s2t "  a b   c ") (s2t " a b c ") /\ squeeze_re ascii_uni (9 :: 9 :: s2t "  ") = Ok [9; 9; 32].
Proof. rewrite <- (squeeze_iff ascii_uni). vm_compute. split; reflexivity. Qed.
Lemma dash_text : emdash_re ascii_uni [0x2014] = Ok true /\ emdash_re ascii_uni [0x2014; 0x2014] = Ok false /\ emdash_re ascii_uni (s2t "-") = Ok false.
Proof. vm_compute. repeat split; reflexivity. Qed.
Lemma loads_re : uni_ok ascii_uni /\ load_grammar_re ascii_uni sample_atof w_grammar = Ok (mkLoaded w_g CHECK_OK []) /\
  exists x, load_lexicon_re ascii_env (s2t "x") w_lexicon = Ok x /\ x_lex x <> [].
Proof.
  split; [exact ascii_uni_ok|]. split; [rewrite grammar_same by exact ascii_uni_ok; vm_compute; reflexivity|]. rewrite lexicon_same.
  eexists. split; [vm_compute; reflexivity|]. discriminate.
Qed.
