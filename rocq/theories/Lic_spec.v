(** Lines with their ends, old headers, and the files the license goes into. *)
From Coq Require Import String List NArith.
From Verif Require Import Base_model.
Import ListNotations.
Local Open Scope N_scope.

(** A text as its lines, each with its end; the last one may lack it. *)
Inductive lines_of : text -> list text -> Prop :=
| lo_nil : lines_of [] []
| lo_last : forall s, s <> [] -> ~ In 10 s -> lines_of s [s]
| lo_line : forall s t ls, ~ In 10 s -> lines_of t ls -> lines_of (s ++ 10 :: t) ((s ++ [10]) :: ls).
(** The text is inside the line. *)
Definition inside (p l : text) : Prop := exists a b, l = a ++ p ++ b.
Definition opens (l : text) : Prop := inside (s2t "/**ADDRESS_STANDARDIZER*") l.
Definition closes (l : text) : Prop := inside (s2t "*ADDRESS_STANDARDIZER**/") l.
Definition plain_line (l : text) : Prop := ~ opens l /\ ~ closes l.
(** A header: from a line that opens it to one that closes it, nothing of the kind between, 20 lines at most. *)
Definition header_block (ls : list text) : Prop :=
  exists o mid c, ls = o :: mid ++ [c] /\ opens o /\ ~ closes o /\ closes c /\ ~ opens c /\ Forall plain_line mid /\ (List.length mid <= 18)%nat.
(** A block the script may take for one. *)
Definition loose_block (ls : list text) : Prop :=
  exists o mid c, ls = o :: mid ++ [c] /\ opens o /\ closes c /\ (List.length mid <= 18)%nat.
(** The last part of a path. *)
Definition base_of (p b : text) : Prop := ~ In 47 b /\ (p = b \/ exists d, p = d ++ 47 :: b).
Definition word_char (c : N) : Prop := 48 <= c <= 57 \/ 65 <= c <= 90 \/ 97 <= c <= 122 \/ c = 95.
Definition archived (p : text) : Prop := exists a b, p = a ++ s2t "archive/" ++ b /\ (a = [] \/ exists a' c, a = a' ++ [c] /\ ~ word_char c).
(** The files the header goes into: sources by their endings, not in an archive, not excluded. *)
Definition chosen (excl : list text) (p : text) : Prop :=
  (exists b a s, base_of p b /\ b = a ++ s /\ In s (map s2t [".h"; ".cpp"; ".c"]%string) /\ ~ In b excl) /\ ~ archived p.
