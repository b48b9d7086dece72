(** Histories of the event counters. *)
From Coq Require Import List NArith.
From Verif Require Import Base_model Utils_model.
Import ListNotations.

Inductive event := Count (key : text) | Clear (key : text).
Definition apply_event (m : counters) (e : event) : counters :=
  match e with Count k => count m k | Clear k => clear m k end.
Definition after (h : list event) : counters := fold_left apply_event h [].

(** [n] occurrences of [e] in [h]. *)
Inductive occurs (e : event) : list event -> nat -> Prop :=
| occurs_nil : occurs e [] 0
| occurs_same h n : occurs e h n -> occurs e (e :: h) (S n)
| occurs_other x h n : x <> e -> occurs e h n -> occurs e (x :: h) n.
(** [n] counts of [key] since it was last cleared, or since the start. *)
Definition counted (key : text) (h : list event) (n : nat) : Prop :=
  exists h1 h2, h = h1 ++ h2 /\ (h1 = [] \/ exists h0, h1 = h0 ++ [Clear key]) /\ ~ In (Clear key) h2 /\ occurs (Count key) h2 n.
