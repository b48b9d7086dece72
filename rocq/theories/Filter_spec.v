(** What counts in the text of a filter. *)
From Coq Require Import List NArith.
From Verif Require Import Base_model Class_model Uni_model Token_model Lexicon_model Lexicon_spec Wrapper_model Archive_model LexText_spec Tokenizer_spec Class_spec Read_spec Split_spec Address_spec End_spec.
Import ListNotations.
Local Open Scope N_scope.

(** A class that a token of the address has, with a lexicon that the text [lx] can mean. *)
Definition has_token (e : env) (lx locale address : text) (c : intype) : Prop :=
  exists x ks k, lexicon_of e lx x /\ tokens_are (e_uni e) x (reading e x locale address) ks /\ In k ks /\ In c (t_in k).
(** Neither a class nor with blanks around nor with a comma. *)
Definition misspelled (w : text) : Prop :=
  no_comma w /\ (exists c, hd_error w = Some c /\ c <> 32) /\ (exists c, hd_error (rev w) = Some c /\ c <> 32) /\ forall d, w <> in_str d.
