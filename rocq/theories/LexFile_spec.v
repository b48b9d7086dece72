(** Lexicon texts read line by line. *)
From Coq Require Import String List NArith Bool.
From Verif Require Import Base_model Class_model Class_spec Uni_model Token_model Lexicon_model LexText_spec.
Import ListNotations.
Local Open Scope N_scope.

(** The columns of a text. *)
Inductive columns (d : N) : text -> list text -> Prop :=
| col_last : forall t, ~ In d t -> columns d t [t]
| col_more : forall a t cs, ~ In d a -> columns d t cs -> columns d (a ++ d :: t) (a :: cs).
(** The same text with one blank for every run of blanks. *)
Inductive one_blank : text -> text -> Prop :=
| ob_nil : one_blank [] []
| ob_char : forall c t t', c <> 32 -> one_blank t t' -> one_blank (c :: t) (c :: t')
| ob_run : forall n t t', hd_error t <> Some 32 -> one_blank t t' -> one_blank (repeat 32 (S n) ++ t) (32 :: t').

(** The classes named in a column: names between commas, with blanks around them; anything else counts as BADTOKEN. *)
Definition named (s : text) (c : intype) : Prop :=
  exists cs p, columns 44 s cs /\ In p cs /\
    (padded (in_str c) p \/ (c = I_BADTOKEN /\ p <> [] /\ forall c', ~ padded (in_str c') p)).
Definition att_named (s : text) (a : attach) : Prop :=
  exists cs p, columns 44 s cs /\ In p cs /\ padded (att_str a) p.
(** The entry of a line; the mark in front is left out, unless it stands alone. *)
Definition entry_of (t : text) (le : lexentry) : Prop :=
  exists cs cs', columns 9 t cs /\
    ((cs = s2t "LEXENTRY:" :: cs' /\ cs' <> []) \/ (cs' = cs /\ (hd [] cs = s2t "LEXENTRY:" -> tl cs = []))) /\
    le_word le = nth 0 cs' [] /\ le_std le = nth 1 cs' [] /\
    (forall c, In c (le_type le) <-> named (nth 2 cs' []) c) /\ is_inset (le_type le) /\
    (forall a, In a (le_att le) <-> att_named (nth 3 cs' []) a) /\ is_attset (le_att le).
(** A line of the body that is accepted, and its entry. *)
Definition body_line (e : env) (loc : text) (l : text) (le : lexentry) : Prop :=
  exists t, one_blank l t /\ entry_mark t /\ entry_of (norm e loc t) le /\ ~ In I_BADTOKEN (le_type le).
(** The header: mark, name, language, locale; a missing language is replaced by the column before. *)
Definition header_of (h : text) (lg : lang) (loc : text) : Prop :=
  exists cs, columns 9 h cs /\ hd [] cs = s2t "LEXICON:" /\ loc = nth 3 cs [] /\
    lg = as_lang (nth 2 cs (last cs [])).
(** Texts that are accepted: lines before the header, the header, the body. *)
Definition accepts (e : env) (pre : list text) (h : text) (es : list text) : Prop :=
  Forall (fun l => ~ is_entry l) pre /\ exists lg loc, header_of h lg loc /\ Forall (fun l => l = [] \/ exists le, body_line e loc l le) es.
