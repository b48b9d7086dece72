(** What the SQL functions leave in the heap. *)
From Coq Require Import String List NArith.
From Verif Require Import Base_model Uni_model Token_model Search_model Archive_model Wrapper_model Cache_model Heap_model.
Import ListNotations.
Local Open Scope N_scope.

(** The next address is above all addresses in use; NULL is not in use. *)
Definition heap_ok (h : heap) : Prop := 0 < h_next h /\ forall p b, In (p, b) (h_blocks h) -> 0 < p /\ p < h_next h.
(** The blocks of [h] are as they were; besides, there are blocks with the contents [bs]. *)
Definition left_over (h h' : heap) (bs : list block) : Prop :=
  heap_ok h' /\ exists l, h_blocks h' = l ++ h_blocks h /\ map snd l = bs /\ NoDup (map fst l) /\ forall p b, In (p, b) l -> h_next h <= p.
(** The message of an exception. *)
Definition message {A} (r : outcome A) : list block := match r with Throw m => [B_str m] | _ => [] end.
(** The largest int is 2^31 - 1. *)
Definition int_max : N := 2147483647.
Definition len {A} (l : list A) : N := N.of_nat (List.length l).
(** Tokens and tokenizations of a parse, rows of a match (there is always one) fit into an int. *)
Definition in_range (r : outcome (list (list token))) : Prop :=
  match r with Ok ps => len (concat ps) <= int_max /\ len ps <= int_max | Throw _ => True | UB => False end.
Definition match_in_range (r : outcome (list mresult)) : Prop := match r with Ok rs => rs <> [] /\ len rs <= int_max | Throw _ => True | UB => False end.
(** What a finished as_parse leaves: the message of an exception; without tokens, the array of no bytes or a message. *)
Definition parse_leak (z : bool) (r : outcome (list (list token))) : list block :=
  match r with
  | Ok ps => match concat ps with [] => [if z then B_str (s2t "Out of memory!") else B_toks []] | _ => [] end
  | Throw m => [B_str m]
  | UB => []
  end.
(** What as_standardize computes for the texts of a call, and the messages of all calls. *)
Definition own_outcome (sv : server) (a : args) : outcome (option stdaddr) :=
  std_standardize (sv_env sv) (sv_atof sv) (a_address a) (a_grammar a) (a_lexicon a) (a_locale a) (a_filter a).
Definition session_leaks (sv : server) (calls : list (N * args)) : list block := concat (map (fun fa => message (own_outcome sv (snd fa))) calls).
