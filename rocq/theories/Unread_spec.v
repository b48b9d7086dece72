(** Addresses that cannot be read. *)
From Coq Require Import List NArith.
From Verif Require Import Base_model Uni_model Rule_model Lexicon_model Lexicon_spec Wrapper_model Archive_model LexText_spec Tokenizer_spec Local_spec End_spec Join_spec.
Import ListNotations.
Local Open Scope N_scope.

(** With every lexicon that the text [lx] can mean, which has a word, the address is one line in which no token can be read. *)
Definition unread_with (e : env) (lx locale address : text) : Prop :=
  forall x, lexicon_of e lx x -> some_words x /\ one_line (reading e x locale address) /\ ~ readable (e_uni e) x (reading e x locale address).
(** After blanks [b] stands a character [c] that is no letter, digit or blank, and no listed word begins with it or with one of the blanks. *)
Definition sign_first (u : uni) (x : lexicon) (t : text) : Prop :=
  exists b c r, t = b ++ c :: r /\ blanks u b /\ ~ alnum u c /\ u_space u c = false /\
    forall w d, word_like u x w -> hd_error w = Some d -> ~ In d (b ++ [c]).
(** Every rule of the grammar has an input class. *)
Definition full_rules (g : grammar) : Prop := forall sec r, In sec (g_rules g) -> In r (rs_rules sec) -> r_in r <> [].
