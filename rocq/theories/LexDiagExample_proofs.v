(** Examples of lexicon texts that are not plain: no final line feed, refused lines. *)
From Coq Require Import String List NArith Bool.
From Verif Require Import Base_model Class_model Uni_model Token_model Lexicon_model Lexicon_spec LexText_spec LexFile_spec
  LexFile_proofs LexFileExample_proofs LexDiag_spec LexDiag_proofs.
Import ListNotations.
Local Open Scope N_scope.

Definition ld_last : text := cols ["LEXENTRY:"; "ave"; "avenue"; "TYPE"]%string.
Definition ld_bad : text := cols ["LEXENTRY:"; "ave"; "avenue"; "TYP"]%string.
Definition ld_said (t : text) : outcome lexicon := load_lexicon ascii_env (s2t "demo") t.
Lemma ld_ex : exists x, ld_said (file (lf_pre ++ lf_head :: lf_body) ld_last) = Ok x /\
  lex_find x (s2t "AVE") = [mkLE (s2t "AVE") (s2t "AVENUE") [I_TYPE] []].
Proof. eexists. split; vm_compute; reflexivity. Qed.
Lemma ld_bad_refused : refused ascii_env (s2t "en_US") ld_bad (cols ["LEXENTRY:"; "AVE"; "AVENUE"; "TYP"]%string).
Proof.
  pose proof (entry_cases ascii_env (s2t "en_US") 1 ld_bad) as C.
  assert (E : entry_line ascii_env (s2t "en_US") 1 ld_bad = Throw (bad_entry 1 (cols ["LEXENTRY:"; "AVE"; "AVENUE"; "TYP"]%string))) by (vm_compute; reflexivity).
  rewrite E in C. destruct C as (shown & R & K). unfold bad_entry in K. apply app_inv_head in K. apply app_inv_head in K. apply app_inv_head in K. rewrite K. exact R.
Qed.
Lemma ld_header : header_of lf_head L_ENG (s2t "en_US").
Proof. apply header_iff. vm_compute. auto. Qed.
Lemma ld_lines : lines (file [lf_head; ld_bad] []) [lf_head; ld_bad] true.
Proof. split; [repeat (constructor; [apply one_line_b; vm_compute; reflexivity|]); constructor|left; auto]. Qed.
Lemma ld_sought : sought [lf_head; ld_bad] [] [lf_head; ld_bad].
Proof. split; [constructor|]. exists lf_head, lf_head, [ld_bad]. split; [reflexivity|]. split; [apply um_plain; discriminate|reflexivity]. Qed.
(** The second line is refused; the message speaks of the third. *)
Lemma ld_number : exists e name src h l lg loc shown k, lines src [h; l] true /\ sought [h; l] [] [h; l] /\ header_of h lg loc /\
  refused e loc l shown /\ decimal 2 k /\ load_lexicon e name src <> Throw (s2t "Lexicon-Invalid-LexEntry: " ++ k ++ s2t ": " ++ shown) /\
  exists k', decimal 3 k' /\ load_lexicon e name src = Throw (s2t "Lexicon-Invalid-LexEntry: " ++ k' ++ s2t ": " ++ shown).
Proof.
  exists ascii_env, (s2t "demo"), (file [lf_head; ld_bad] []), lf_head, ld_bad, L_ENG, (s2t "en_US"), (cols ["LEXENTRY:"; "AVE"; "AVENUE"; "TYP"]%string), (s2t "2").
  split; [exact ld_lines|]. split; [exact ld_sought|]. split; [exact ld_header|]. split; [exact ld_bad_refused|].
  split; [apply decimal_iff; reflexivity|]. split; [vm_compute; discriminate|]. exists (s2t "3"). split; [apply decimal_iff; reflexivity|vm_compute; reflexivity].
Qed.
