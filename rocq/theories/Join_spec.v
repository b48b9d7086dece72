(** Two addresses in one. *)
From Coq Require Import List NArith.
From Verif Require Import Base_model Uni_model Lexicon_model Lexicon_spec Tokenizer_model Token_model Wrapper_model Tokenizer_spec Split_spec Read_spec Address_spec Gap_spec.
Import ListNotations.
Local Open Scope N_scope.

(** Every character of the text belongs to one of its rounds. *)
Definition whole_read (u : uni) (x : lexicon) (t : text) : Prop := exists ps, scanned u x t ps /\ concat (map taken ps) = t.
(** The last character is neither a separator nor a dash. *)
Definition ends_word (u : uni) (t : text) : Prop := exists t' c, t = t' ++ [c] /\ ~ sep_char u c /\ ~ dash u c.
(** One line. *)
Definition one_line (t : text) : Prop := Forall (fun c => ~ line_end c) t.
(** No listed word that begins in [a], with [z] after it, reaches beyond [a]. *)
Definition ends_inside (u : uni) (x : lexicon) (a z : text) : Prop :=
  forall a1 a2 w r, a = a1 ++ a2 -> a2 <> [] -> word_at x u (a2 ++ z) w r -> (List.length w <= List.length a2)%nat.
(** The whole separator [g] stands between [a], a line that is read to its end, and [b]; it is no single slash, comma or full stop. *)
Definition joined_at (u : uni) (x : lexicon) (a g b : text) : Prop :=
  one_line a /\ ends_word u a /\ whole_read u x a /\ g <> [] /\ Forall (sep_char u) g /\ ~ begins_sep u b /\
  (forall s, g = [s] -> ~ joins u s) /\ ends_inside u x a (g ++ b).
(** What as_parse reports about the first tokenization: the text, the classes and the attached classes of its tokens. *)
Definition first_reading (rows : list prow) : list (text * text * text) :=
  map (fun r => (pr_word r, pr_class r, pr_att r)) (filter (fun r => pr_pat r =? 1) rows).
(** Any number of parts, with separators between them whose tokens the filter drops. *)
Inductive in_parts (u : uni) (x : lexicon) (filt : text) : text -> list text -> Prop :=
| ip_last : forall t, in_parts u x filt t [t]
| ip_more : forall a g t ps, joined_at u x a g t -> (forall k, sep_exact u x g [k] -> exists c, In c (t_in k) /\ in_list filt c) -> in_parts u x filt t ps ->
    in_parts u x filt (a ++ g ++ t) (a :: ps).
