(** How an address is cut into tokens and separators, exactly. *)
From Coq Require Import List NArith.
From Verif Require Import Base_model Uni_model Lexicon_model Lexicon_spec Tokenizer_model Tokenizer_spec.
Import ListNotations.
Local Open Scope N_scope.

(** What every real table says: letters and digits are no separators and no dashes; the signs inside numbers are no digits. *)
Definition apart_tables (u : uni) : Prop :=
  (forall c, alnum u c -> ~ sep_char u c /\ ~ dash u c) /\ (forall c, like u 47 c \/ like u 44 c \/ like u 46 c -> u_digit u c = false).
(** What can stand at the beginning of [t], with [r] after it: a listed word, in any case; digits, a sign, digits; letters and digits. *)
Definition word_at (x : lexicon) (u : uni) (t w r : text) : Prop := t = w ++ r /\ word_like u x w /\ stops u r.
Definition number_at (u : uni) (t w r : text) : Prop := t = w ++ r /\ number_like u w /\ stops u r.
Definition run_at (u : uni) (t w r : text) : Prop := t = w ++ r /\ w <> [] /\ Forall (alnum u) w /\ stops u r.
(** Without any words the empty text stands before every separator. *)
Definition nothing_at (x : lexicon) (u : uni) (t : text) : Prop := (forall w, listed x w -> w = []) /\ stops u t.
(** The token at the beginning of [t]: the longest listed word, or else a number, or else letters and digits; not before a dash. *)
Inductive token_at (u : uni) (x : lexicon) (t : text) : text -> text -> Prop :=
| ta_word : forall w r, ~ begins_dash u t -> word_at x u t w r -> (forall w' r', word_at x u t w' r' -> (List.length w' <= List.length w)%nat) ->
    token_at u x t w r
| ta_nothing : ~ begins_dash u t -> nothing_at x u t -> token_at u x t [] t
| ta_number : forall w r, ~ begins_dash u t -> (forall w' r', ~ word_at x u t w' r') -> ~ nothing_at x u t -> number_at u t w r -> token_at u x t w r
| ta_run : forall w r, ~ begins_dash u t -> (forall w' r', ~ word_at x u t w' r') -> ~ nothing_at x u t -> (forall w' r', ~ number_at u t w' r') ->
    run_at u t w r -> token_at u x t w r.
(** The token after blanks: as many blanks as possible. *)
Definition read_at (u : uni) (x : lexicon) (t b w r : text) : Prop :=
  t = b ++ w ++ r /\ blanks u b /\ token_at u x (w ++ r) w r /\
  forall b' t', t = b' ++ t' -> blanks u b' -> (List.length b < List.length b')%nat -> forall w' r', ~ token_at u x t' w' r'.
Definition unreadable (u : uni) (x : lexicon) (t : text) : Prop := forall b t' w r, t = b ++ t' -> blanks u b -> ~ token_at u x t' w r.
(** A line begins after [a], before [t]. *)
Definition line_start (a t : text) : Prop := a = [] \/ exists a' c, a = a' ++ [c] /\ line_end c /\ ~ (c = 13 /\ hd_error t = Some 10).
(** One round: the first line that can be read; blanks, token, separator. *)
Definition read_round (u : uni) (x : lexicon) (t : text) (p : piece) (rest : text) : Prop :=
  exists b t', t = pc_skip p ++ t' /\ line_start (pc_skip p) t' /\ read_at u x t' b (pc_tok p) (pc_sep p ++ rest) /\
    separator u (pc_sep p) rest /\ pc_all p = b ++ pc_tok p ++ pc_sep p /\
    forall a1 a2, pc_skip p = a1 ++ a2 -> a2 <> [] -> line_start a1 (a2 ++ t') -> unreadable u x (a2 ++ t').
(** All rounds, until no line can be read or nothing is left; one more round may follow the end of the text. *)
Inductive scanned (u : uni) (x : lexicon) : text -> list piece -> Prop :=
| sc_stop : forall t, (forall a t', t = a ++ t' -> line_start a t' -> unreadable u x t') -> scanned u x t []
| sc_last : forall p, read_round u x [] p [] -> scanned u x [] [p]
| sc_more : forall t p rest ps, t <> [] -> read_round u x t p rest -> scanned u x rest ps -> scanned u x t (p :: ps).
