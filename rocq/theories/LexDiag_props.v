(** Properties of loading any lexicon text (properties.jsonl C85, C86). *)
From Coq Require Import String List NArith Bool.
From Verif Require Import Base_model Class_model Uni_model Token_model Lexicon_model Md5_model Lexicon_spec LexText_spec LexFile_spec
  LexFileExample_proofs LexDiag_spec LexDiag_proofs LexDiagExample_proofs.
Import ListNotations.
Local Open Scope N_scope.

(** ** C85 *)
Theorem C85_loaded_exactly : forall e name src x, load_lexicon e name src = Ok x <->
  exists lg loc es dg, lexicon_means e src lg loc es dg /\ x_name x = name /\ x_lang x = lg /\ x_locale x = loc /\
    x_md5 x = md5_hex (bytes_of dg) /\ x_regex x = [] /\ x_pre x = [] /\ x_suf x = [] /\ kept (x_lex x) /\
    forall w, exists sub, of_word w es sub /\ once [] sub (lex_find x w).
Proof. exact loads. Qed.
Print Assumptions C85_loaded_exactly.
Theorem C85_no_undefined_behaviour : forall e name src, load_lexicon e name src <> UB.
Proof. exact no_ub. Qed.
Print Assumptions C85_no_undefined_behaviour.
(** A text whose last line has no line feed. *)
Example C85_example : exists x, ld_said (file (lf_pre ++ lf_head :: lf_body) ld_last) = Ok x /\
  lex_find x (s2t "AVE") = [mkLE (s2t "AVE") (s2t "AVENUE") [I_TYPE] []].
Proof. exact ld_ex. Qed.

(** ** C86 *)
Theorem C86_rejection_message : forall e name src m, load_lexicon e name src = Throw m <-> rejection e src m.
Proof. exact rejects. Qed.
Print Assumptions C86_rejection_message.
(** The number shown is not the number of the refused line. *)
Theorem C86_line_number_refuted : exists e name src h l lg loc shown k, lines src [h; l] true /\ sought [h; l] [] [h; l] /\ header_of h lg loc /\
  refused e loc l shown /\ decimal 2 k /\ load_lexicon e name src <> Throw (s2t "Lexicon-Invalid-LexEntry: " ++ k ++ s2t ": " ++ shown) /\
  exists k', decimal 3 k' /\ load_lexicon e name src = Throw (s2t "Lexicon-Invalid-LexEntry: " ++ k' ++ s2t ": " ++ shown).
Proof. exact ld_number. Qed.
Print Assumptions C86_line_number_refuted.
Example C86_example :
  ld_said [] = Throw (s2t "Lexicon-Invalid-File-Format") /\
  ld_said (s2t "# nothing") = Throw (s2t "Lexicon-Invalid-File-Format") /\
  ld_said (file [[]; ld_last; lf_head] []) = Throw (s2t "Lexicon-LexEntry-Before-Lexicon") /\
  ld_said (file [[0xFEFF]; lf_head] []) = Throw (s2t "basic_string::substr") /\
  ld_said (file [0xFEFF :: lf_head] []) = Throw (s2t "Lexicon-Invalid-File-Format") /\
  ld_said (file [[]; s2t "LEXICON: us"] []) = Throw (s2t "Lexicon-Invalid-Data-Format: 3: LEXICON: us") /\
  ld_said (file [[]; lf_head; ld_last; s2t "# two  blanks"; ld_bad] []) = Throw (s2t "Lexicon-Invalid-LexEntry: 5: # two blanks") /\
  ld_said (s2t "LEXICON:") = Throw (s2t "Lexicon-Invalid-LexEntry: 3: LEXICON:").
Proof. repeat split; vm_compute; reflexivity. Qed.
