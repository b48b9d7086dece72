(** Lexicon texts: lines, printable entries, equal results. *)
From Coq Require Import String List NArith Bool.
From Verif Require Import Base_model Class_model Class_spec Uni_model Token_model Lexicon_model.
Import ListNotations.
Local Open Scope N_scope.

(** A text: lines ending in a line feed, and what follows the last line feed. *)
Definition one_line (t : text) : Prop := ~ In 10 t.
Definition file (ls : list text) (r : text) : text := concat (map (fun l => l ++ [10]) ls) ++ r.
(** The same with CR LF line ends. *)
Definition crlf (ls : list text) (r : text) : text := concat (map (fun l => l ++ [13; 10]) ls) ++ r.

Definition begins (w t : text) : Prop := exists r, t = w ++ r.
Definition is_header (t : text) : Prop := begins (s2t "LEXICON:") t.
Definition is_entry (t : text) : Prop := begins (s2t "LEXENTRY:") t.

Definition single_blanks (t : text) : Prop := forall a b, t <> a ++ 32 :: 32 :: b.
(** Normalizing and upper-casing leave the text alone. *)
Definition settled (e : env) (loc t : text) : Prop := e_nfc e t = t /\ (loc <> [] -> e_upper e loc t = t).
(** An entry that can be printed on a line and found again. *)
Definition printable (e : env) (loc : text) (le : lexentry) : Prop :=
  no_tab (le_word le) /\ no_tab (le_std le) /\ one_line (le_word le) /\ one_line (le_std le) /\
  single_blanks (le_word le) /\ single_blanks (le_std le) /\
  is_inset (le_type le) /\ is_attset (le_att le) /\ ~ In I_BADTOKEN (le_type le) /\ settled e loc (lexentry_str le).

(** Equal up to the digest. *)
Definition same_lexicon (x y : lexicon) : Prop :=
  x_name x = x_name y /\ x_lang x = x_lang y /\ x_locale x = x_locale y /\ forall w, lex_find x w = lex_find y w.
Definition same_result (a b : outcome lexicon) : Prop :=
  match a, b with
  | Ok x, Ok y => same_lexicon x y
  | Throw m, Throw m' => m = m'
  | UB, UB => True
  | _, _ => False
  end.

(** A line of the body as it is read: normalized, and upper case when there is a locale. *)
Definition norm (e : env) (loc t : text) : text := match loc with [] => e_nfc e t | _ => e_upper e loc (e_nfc e t) end.
Definition entry_mark (t : text) : Prop := is_entry t \/ begins (s2t "LexEntry:") t.
(** Normalizing a second time changes nothing, and keeps blanks and the mark. *)
Definition steady (e : env) (loc : text) : Prop := forall t, single_blanks t -> entry_mark t ->
  single_blanks (norm e loc t) /\ entry_mark (norm e loc t) /\ norm e loc (norm e loc t) = norm e loc t.
Definition tabs (t : text) : nat := count_occ N.eq_dec t 9.
(** Normalizing does not touch tabs and a final carriage return. *)
Definition keeps_ends (e : env) (loc : text) : Prop :=
  forall t, tabs (norm e loc t) = tabs t /\ norm e loc (t ++ [13]) = norm e loc t ++ [13].
