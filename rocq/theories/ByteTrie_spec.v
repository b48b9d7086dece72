(** Words as bytes. *)
From Coq Require Import String List NArith ZArith Sorting.Sorted.
From Verif Require Import Base_model.
Import ListNotations.
Local Open Scope N_scope.

Definition byte_word (w : text) : Prop := Forall (fun c => c < 256) w.
(** The characters with a meaning in patterns that the class sets out to quote. *)
Definition pattern_char (c : N) : Prop := In c (s2t "-.+*~$()[]\|?").
(** The order of characters of a signed type: bytes from 128 on count as negative numbers. *)
Definition char_before (c d : N) : Prop := (c < 128 /\ d < 128 /\ c < d) \/ (128 <= c /\ d < 128) \/ (128 <= c /\ 128 <= d /\ c < d).
(** What is printed for a trie: the first characters of its words, each with a blank. *)
Definition first_chars (l : list N) : list N := concat (map (fun c => [c; 32]) l).
