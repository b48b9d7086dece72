(** An example of a lexicon text. *)
From Coq Require Import String List NArith Bool.
From Verif Require Import Base_model Class_model Uni_model Token_model Lexicon_model Lexicon_spec LexText_spec LexFile_spec LexFile_proofs.
Import ListNotations.
Local Open Scope N_scope.

Definition cols (l : list string) : text := join [9] (map s2t l).
Definition lf_pre : list text := [s2t "# words"; []].
Definition lf_head : text := cols ["LEXICON:"; "us"; "ENG"; "en_US"]%string.
Definition lf_body : list text :=
  [cols ["LEXENTRY:"; "st"; "street"; "TYPE"]%string; cols ["LEXENTRY:"; "po   box"; "po box"; "BOXH"; ""]%string; [];
   cols ["LEXENTRY:"; "st"; "saint"; " WORD, STOPWORD "; "ATT_PRE,OTHER"]%string; cols ["LEXENTRY:"; "St"; "Street"; "TYPE"; ""]%string].
Lemma one_line_b : forall t, existsb (N.eqb 10) t = false -> one_line t.
Proof. intros t H K. rewrite <- not_true_iff_false in H. apply H. apply existsb_exists. exists 10. split; [exact K|reflexivity]. Qed.
Lemma lf_ex : Forall one_line (lf_pre ++ lf_head :: lf_body) /\ Forall (fun l => ~ is_header l) lf_pre /\ is_header lf_head /\
  (forall l p, lf_pre = l :: p -> forall t, l <> 0xFEFF :: t) /\
  exists y, load_lexicon ascii_env (s2t "demo") (file (lf_pre ++ lf_head :: lf_body) []) = Ok y /\ x_lang y = L_ENG /\ x_locale y = s2t "en_US" /\
    lex_find y (s2t "ST") = [mkLE (s2t "ST") (s2t "STREET") [I_TYPE] []; mkLE (s2t "ST") (s2t "SAINT") [I_WORD; I_STOPWORD] [ATT_PRE]] /\
    lex_find y (s2t "PO BOX") = [mkLE (s2t "PO BOX") (s2t "PO BOX") [I_BOXH] []].
Proof.
  split; [repeat (constructor; [apply one_line_b; vm_compute; reflexivity|]); constructor|].
  split; [repeat (constructor; [intros (t & K); discriminate|]); constructor|]. split; [eexists; reflexivity|].
  split; [intros l p E t ->; discriminate|]. eexists. split; [vm_compute; reflexivity|]. repeat split.
Qed.
Lemma lf_reject : ~ accepts ascii_env [] lf_head [s2t "LEXENTRY:" ++ [9] ++ s2t "ST" ++ [9] ++ s2t "STREET" ++ [9] ++ s2t "TYP"].
Proof.
  intros A. apply (load_iff ascii_env [] [] lf_head) in A.
  - destruct A as (y & K). vm_compute in K. discriminate.
  - repeat (constructor; [apply one_line_b; vm_compute; reflexivity|]); constructor.
  - constructor.
  - eexists. reflexivity.
  - intros l p E. discriminate.
Qed.
