(** How words are expected to be split. *)
From Coq Require Import List NArith Bool.
From Verif Require Import Base_model Class_model Class_spec Uni_model Token_model Lexicon_model Lexicon_spec Tokenizer_model Tokenizer_spec.
Import ListNotations.
Local Open Scope N_scope.

(** ** Attached words *)
Definition front_word (x : lexicon) (w : text) : Prop := w <> [] /\ exists le, In le (lex_find x w) /\ In ATT_PRE (le_att le).
Definition back_word (x : lexicon) (w : text) : Prop := w <> [] /\ exists le, In le (lex_find x w) /\ In ATT_SUF (le_att le).
(** The cut is not at the edge of a word. *)
Definition within (u : uni) (a b : text) : Prop :=
  exists p c, hd_error (rev a) = Some p /\ hd_error b = Some c /\ u_word u p = u_word u c.
(** [t] begins with the attachable word [a], the longest one. *)
Definition front (u : uni) (x : lexicon) (t a b : text) : Prop :=
  t = a ++ b /\ front_word x a /\ within u a b /\
  forall a' b', t = a' ++ b' -> front_word x a' -> within u a' b' -> (List.length a' <= List.length a)%nat.
(** [t] ends with the attachable word [d], the shortest one. *)
Definition back (x : lexicon) (t c d : text) : Prop :=
  t = c ++ d /\ c <> [] /\ back_word x d /\
  forall c' d', t = c' ++ d' -> c' <> [] -> back_word x d' -> (List.length d <= List.length d')%nat.
Inductive attached (u : uni) (x : lexicon) (t : text) : list text -> Prop :=
| at_none : (forall a b, ~ front u x t a b) -> (forall c d, ~ back x t c d) -> attached u x t [t]
| at_front : forall a b, front u x t a b -> (forall c d, ~ back x t c d) -> attached u x t [a; b]
| at_back : forall c d, (forall a b, ~ front u x t a b) -> back x t c d -> attached u x t [c; d]
| at_touch : forall a b, front u x t a b -> back x t a b -> attached u x t [a; b]
| at_apart : forall a m d, m <> [] -> front u x t a (m ++ d) -> back x t (a ++ m) d -> attached u x t [a; m; d]
| at_overlap : forall a b c d, front u x t a b -> back x t c d -> (List.length c < List.length a)%nat -> attached u x t [c; d].

(** ** Words of digits and letters *)
Definition digits_letter (u : uni) (t a : text) (c : N) : Prop := t = a ++ [c] /\ digits u a /\ u_alpha u c = true.
Definition letter_digits (u : uni) (t : text) (c : N) (a : text) : Prop := t = c :: a /\ u_alpha u c = true /\ digits u a.
Inductive mixed (u : uni) (t : text) : list text -> Prop :=
| mx_digits : forall a c, digits_letter u t a c -> mixed u t [a; [c]]
| mx_letter : forall c a, letter_digits u t c a -> mixed u t [[c]; a]
| mx_none : (forall a c, ~ digits_letter u t a c) -> (forall c a, ~ letter_digits u t c a) -> mixed u t [t].

(** What every real table says: letters and digits are word characters, line ends and the blank are not; no letter is a digit. *)
Definition word_tables (u : uni) : Prop :=
  (forall c, u_alpha u c = true -> u_word u c = true /\ u_digit u c = false) /\ (forall c, u_digit u c = true -> u_word u c = true) /\
  (forall c, latin u c -> u_word u c = true) /\ (forall c, line_end c \/ c = 32 -> u_word u c = false).

(** ** The tokens of a word *)
(** Listed words stay whole; others are split.  [w'] is [w] with the comma of a number replaced. *)
Definition exact_word (u : uni) (x : lexicon) (w : text) (ks : list token) : Prop :=
  (w = [] /\ ks = []) \/
  (w <> [] /\ ~ unlisted x (plain_token w) /\ exists k, ks = [k] /\ made_from u x I_WORD w k) \/
  (w <> [] /\ unlisted x (plain_token w) /\ exists cls w' ws, row_applies (shape_rows u I_WORD) w cls /\
     carries u x w w' /\ (In I_MIXED cls /\ mixed u w' ws \/ ~ In I_MIXED cls /\ attached u x w' ws) /\
     ((ws = [w'] /\ exists k, ks = [k] /\ made_from u x I_WORD w k) \/ (ws <> [w'] /\ Forall2 (made_from u x I_WORD) ws ks))).
(** ** The token of a separator *)
(** A separator is cut at its tabs.  What stands before the first tab, without white space at the ends, is the text of the token; if
    nothing does, the text is empty.  What stands between the first tab and the second is its standard form.  If anything but commas
    stands between the second tab and the third, the token is taken to be a listed one of class BADTOKEN. *)
Definition cells (w : text) (fs : list text) : Prop := fs <> [] /\ Forall no_tab fs /\ w = join [9] fs.
Definition cell (fs : list text) (i : nat) : text := nth i fs [].
Definition sep_text (f m : text) : Prop := (f = [] /\ m = []) \/ (f <> [] /\ trimmed f m).
Definition bad_token (x : lexicon) (m s : text) (k : token) : Prop :=
  t_text k = m /\ t_std k = s /\ t_inlex k = true /\ t_out k = O_BADTOKEN /\ t_att k = [] /\
  forall c, In c (t_in k) <-> c = I_BADTOKEN \/ exists le, In le (lex_find x m) /\ In c (le_type le).
Definition sep_exact (u : uni) (x : lexicon) (w : text) (ks : list token) : Prop :=
  (w = [] /\ ks = []) \/
  exists fs m k, w <> [] /\ cells w fs /\ sep_text (cell fs 0) m /\ ks = [k] /\
    ((Forall (eq 44) (cell fs 2) /\ exists k0, made_from u x I_PUNCT m k0 /\ k = set_std k0 (cell fs 1)) \/
     (~ Forall (eq 44) (cell fs 2) /\ bad_token x m (cell fs 1) k)).
(** What every real table says: a tab is no letter or digit and like no other character; capital letters are no separators. *)
Definition tab_tables (u : uni) : Prop :=
  ~ alnum u 9 /\ (forall c, like u c 9 -> c = 9) /\ forall c, 65 <= c <= 90 -> ~ sep_char u c.
(** No listed word contains a tab. *)
Definition tab_free (x : lexicon) : Prop := forall w, listed x w -> no_tab w.
Definition tabs_apart (u : uni) (x : lexicon) : Prop := tab_tables u /\ tab_free x.

(** The tokens of a round. *)
Definition exact_tokens (u : uni) (x : lexicon) (p : piece) (ks : list token) : Prop :=
  exists k1 k2, ks = k1 ++ k2 /\ exact_word u x (pc_tok p) k1 /\ sep_exact u x (pc_sep p) k2.
(** Tokens that differ in the order of their classes at most. *)
Definition same_token (k k' : token) : Prop :=
  t_text k = t_text k' /\ (forall c, In c (t_in k) <-> In c (t_in k')) /\ t_inlex k = t_inlex k' /\ t_std k = t_std k' /\ t_out k = t_out k' /\ t_att k = t_att k'.
