(** Words for the exact forms of C20, C31, C33, C35 and C39. *)
From Coq Require Import List NArith.
From Verif Require Import Base_model Class_model LexText_spec.
Import ListNotations.
Local Open Scope N_scope.
(** Bytes of a text in UTF-8. *)
Definition char_bytes (c : N) : N := if c <? 128 then 1 else if c <? 2048 then 2 else if c <? 65536 then 3 else 4.
Definition text_bytes (t : text) : N := fold_right (fun c n => char_bytes c + n) 0 t.
(** [p] is [n] between blanks; [n] begins and ends with something else. *)
Definition core (n p : text) : Prop := exists a b, p = a ++ n ++ b /\ Forall (eq 32) a /\ Forall (eq 32) b /\
  (exists c t, n = c :: t /\ c <> 32) /\ (exists c t, n = t ++ [c] /\ c <> 32).
(** The class that one piece between commas stands for; the empty piece stands for none. *)
Definition piece_class (p : text) (c : intype) : Prop :=
  (p <> [] /\ Forall (eq 32) p /\ c = I_BADTOKEN) \/
  exists n, core n p /\ (n = in_str c \/ ((forall d, n <> in_str d) /\ c = I_BADTOKEN)).
(** The header is the unfinished last line (with a mark before it if it is the first line), and there is none before. *)
Definition header_last (ls : list text) (r : text) : Prop :=
  (forall h, In h ls -> ~ is_header h) /\ (is_header r \/ (ls = [] /\ exists t, r = 0xFEFF :: t)).
