(** Properties of loading lexicon texts (properties.jsonl C67). *)
From Coq Require Import String List NArith Bool.
From Verif Require Import Base_model Class_model Uni_model Token_model Lexicon_model Md5_model Lexicon_spec LexText_spec LexFile_spec
  LexFile_proofs LexFileExample_proofs.
Import ListNotations.
Local Open Scope N_scope.

(** ** C67 *)
Theorem C67_accepted : forall e name pre h es, Forall one_line (pre ++ h :: es) -> Forall (fun l => ~ is_header l) pre -> is_header h ->
  (forall l p, pre = l :: p -> forall t, l <> 0xFEFF :: t) ->
  ((exists y, load_lexicon e name (file (pre ++ h :: es) []) = Ok y) <-> accepts e pre h es).
Proof. exact load_iff. Qed.
Print Assumptions C67_accepted.
Theorem C67_no_header : forall e name ls, Forall one_line ls -> Forall (fun l => ~ is_header l) ls ->
  (forall l p, ls = l :: p -> forall t, l <> 0xFEFF :: t) -> exists m, load_lexicon e name (file ls []) = Throw m.
Proof. exact load_headless. Qed.
Print Assumptions C67_no_header.
Theorem C67_entries : forall e name pre h es y, Forall one_line (pre ++ h :: es) -> Forall (fun l => ~ is_header l) pre -> is_header h ->
  (forall l p, pre = l :: p -> forall t, l <> 0xFEFF :: t) -> load_lexicon e name (file (pre ++ h :: es) []) = Ok y ->
  x_name y = name /\ header_of h (x_lang y) (x_locale y) /\ x_md5 y = md5_hex (bytes_of (concat (pre ++ h :: es))) /\
  (forall w le, In le (lex_find y w) <-> le_word le = w /\ exists l, In l es /\ body_line e (x_locale y) l le) /\
  (forall w, NoDup (lex_find y w)) /\
  (forall w a b, before (lex_find y w) a b -> exists l1 l l2, es = l1 ++ l :: l2 /\ body_line e (x_locale y) l a /\
     forall l', In l' (l1 ++ [l]) -> ~ body_line e (x_locale y) l' b).
Proof. exact load_entries. Qed.
Print Assumptions C67_entries.
(** The entry of a line is determined by the text of the line. *)
Theorem C67_one_entry : forall e loc l a b, body_line e loc l a -> body_line e loc l b -> a = b.
Proof. exact body_line_fun. Qed.
Print Assumptions C67_one_entry.
Example C67_example : Forall one_line (lf_pre ++ lf_head :: lf_body) /\ Forall (fun l => ~ is_header l) lf_pre /\ is_header lf_head /\
  (forall l p, lf_pre = l :: p -> forall t, l <> 0xFEFF :: t) /\
  exists y, load_lexicon ascii_env (s2t "demo") (file (lf_pre ++ lf_head :: lf_body) []) = Ok y /\ x_lang y = L_ENG /\ x_locale y = s2t "en_US" /\
    lex_find y (s2t "ST") = [mkLE (s2t "ST") (s2t "STREET") [I_TYPE] []; mkLE (s2t "ST") (s2t "SAINT") [I_WORD; I_STOPWORD] [ATT_PRE]] /\
    lex_find y (s2t "PO BOX") = [mkLE (s2t "PO BOX") (s2t "PO BOX") [I_BOXH] []].
Proof. exact lf_ex. Qed.
Example C67_rejected : ~ accepts ascii_env [] lf_head [s2t "LEXENTRY:" ++ [9] ++ s2t "ST" ++ [9] ++ s2t "STREET" ++ [9] ++ s2t "TYP"].
Proof. exact lf_reject. Qed.
