(** Separators that can be exchanged. *)
From Coq Require Import List NArith.
From Verif Require Import Base_model Class_model Uni_model Token_model Lexicon_model Lexicon_spec Tokenizer_model Tokenizer_spec Split_spec Address_spec Local_spec.
Import ListNotations.
Local Open Scope N_scope.

(** The signs that join two groups of digits: slash, comma, full stop. *)
Definition joins (u : uni) (c : N) : Prop := like u 47 c \/ like u 44 c \/ like u 46 c.
(** One of the separators [Q], in one line, other than a single joining sign, whose token has a class named in the filter. *)
Definition droppable (u : uni) (x : lexicon) (filt : text) (Q : text -> Prop) (g : text) : Prop :=
  g <> [] /\ Q g /\ Forall (fun c => sep_char u c /\ ~ line_end c) g /\ (forall s, g = [s] -> ~ joins u s) /\
  forall k, sep_exact u x g [k] -> exists c, In c (t_in k) /\ in_list filt c.
Definition begins_sep (u : uni) (t : text) : Prop := match t with [] => False | c :: _ => sep_char u c end.
(** The same text with other separators between the words: whole separators, not at the beginning and not after a dash.  [p] is the
    character before. *)
Inductive regapped (u : uni) (x : lexicon) (filt : text) (Q : text -> Prop) : option N -> text -> text -> Prop :=
| rg_nil : forall p, regapped u x filt Q p [] []
| rg_char : forall p c t t', regapped u x filt Q (Some c) t t' -> regapped u x filt Q p (c :: t) (c :: t')
| rg_gap : forall c g g' t t', ~ sep_char u c -> ~ dash u c -> droppable u x filt Q g -> droppable u x filt Q g' -> ~ begins_sep u t ->
    regapped u x filt Q None t t' -> regapped u x filt Q (Some c) (g ++ t) (g' ++ t').
(** None of the separators begins within a listed word that occurs in the text. *)
Definition begins (v w : text) : Prop := exists z, w = v ++ z.
Definition words_clear (u : uni) (x : lexicon) (Q : text -> Prop) (t : text) : Prop :=
  forall w a b g, word_like u x w -> part t w -> w = a ++ b -> b <> [] -> Q g -> ~ begins g b /\ ~ begins b g.
(** Other numbers of blanks between words. *)
Inductive respaced (u : uni) : option N -> text -> text -> Prop :=
| rs_nil : forall p, respaced u p [] []
| rs_char : forall p c t t', respaced u (Some c) t t' -> respaced u p (c :: t) (c :: t')
| rs_gap : forall c n m t t', ~ sep_char u c -> ~ dash u c -> ~ begins_sep u t -> respaced u None t t' ->
    respaced u (Some c) (32 :: repeat 32 n ++ t) (32 :: repeat 32 m ++ t').
Definition blank_free (u : uni) (x : lexicon) (t : text) : Prop := forall w, word_like u x w -> part t w -> ~ In 32 w.
