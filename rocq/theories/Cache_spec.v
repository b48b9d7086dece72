(** What a cache of standardizers has to do, in terms of what happened. *)
From Coq Require Import List NArith Bool.
From Verif Require Import Base_model Float_model Lexicon_model Lexicon_spec Grammar_model Archive_model Wrapper_model Wrapper_spec Cache_model.
Import ListNotations.
Local Open Scope N_scope.

(** Number [id] was built, and it was freed. *)
Definition was_built (l : list event) (id : N) : Prop := exists f lex gmr, In (Built f id lex gmr) l.
Definition was_freed (l : list event) (id : N) : Prop := In (Freed id) l.
Definition in_use (l : list event) (id : N) : Prop := was_built l id /\ ~ was_freed l id.

(** Nothing is built twice under the same number; only what is in use is freed; an answer is given by a standardizer in use, built
    at the same place from texts with the same digests, and is the answer for the texts it was built from. *)
Inductive sound (sv : server) : list event -> Prop :=
| so_nil : sound sv []
| so_built : forall l f id lex gmr, sound sv l -> ~ was_built l id -> ~ was_freed l id -> sound sv (l ++ [Built f id lex gmr])
| so_freed : forall l id, sound sv l -> in_use l id -> sound sv (l ++ [Freed id])
| so_answered : forall l f a id row lex gmr, sound sv l -> in_use l id -> In (Built f id lex gmr) l ->
    sv_digest sv lex = sv_digest sv (a_lexicon a) -> sv_digest sv gmr = sv_digest sv (a_grammar a) ->
    address_row (std_standardize (sv_env sv) (sv_atof sv) (a_address a) gmr lex (a_locale a) (a_filter a)) = Ok row ->
    sound sv (l ++ [Answered f a id row]).

(** The environment: a new context has an address not in use; answering stores patterns only. *)
Definition fresh_contexts (sv : server) : Prop := forall n l, ~ In (sv_alloc sv n l) l.
Definition stores_patterns (sv : server) : Prop :=
  forall x t, Forall asks (sv_stored sv x t).
(** Both texts of a call load, and the answer for these texts is defined. *)
Definition good_call (sv : server) (a : args) : Prop :=
  (exists x, get_lexicon (sv_env sv) (a_lexicon a) = Ok x) /\
  (exists g, get_grammar (sv_env sv) (sv_atof sv) (a_grammar a) = Ok g).
Definition defined_call (sv : server) (lex gmr : text) (a : args) : Prop :=
  std_standardize (sv_env sv) (sv_atof sv) (a_address a) gmr lex (a_locale a) (a_filter a) <> UB.
Definition called (ops : list op) (a : args) : Prop := exists f, In (Call f a) ops.
(** Texts of calls with equal digests are equal. *)
Definition no_collisions (sv : server) (ops : list op) : Prop :=
  forall a b, called ops a -> called ops b ->
    (sv_digest sv (a_lexicon a) = sv_digest sv (a_lexicon b) -> a_lexicon a = a_lexicon b) /\
    (sv_digest sv (a_grammar a) = sv_digest sv (a_grammar b) -> a_grammar a = a_grammar b).

(** Places for four, the oldest leaving first: the keys kept for call site [f], the oldest first, and all keys built. *)
Definition key_of (sv : server) (a : args) : text * text := (sv_digest sv (a_lexicon a), sv_digest sv (a_grammar a)).
Definition key_eq_dec (a b : text * text) : {a = b} + {a <> b}.
Proof. repeat decide equality. Defined.
Definition shift (q : list (text * text)) : list (text * text) := if Nat.eqb (length q) 4 then tl q else q.
Definition queue_step (sv : server) (f : N) (s : list (text * text) * list (text * text)) (o : op) : list (text * text) * list (text * text) :=
  match o with
  | Call f' a => if f' =? f then
                   if in_dec key_eq_dec (key_of sv a) (fst s) then s else (shift (fst s) ++ [key_of sv a], snd s ++ [key_of sv a])
                 else s
  | End f' => if f' =? f then ([], snd s) else s
  end.
Definition queue (sv : server) (f : N) (ops : list op) : list (text * text) * list (text * text) := fold_left (queue_step sv f) ops ([], []).

(** The keys in the four places of call site [f], and the keys built there. *)
Definition item_key (i : item) : list (text * text) := match ci_lex i, ci_gmr i with Some l, Some g => [(l, g)] | _, _ => [] end.
Definition keys_held (b : backend) (f : N) : list (text * text) := concat (map item_key (pc_items (site b f))).
Definition keys_built (sv : server) (f : N) (l : list event) : list (text * text) :=
  concat (map (fun e => match e with Built f' _ lex gmr => if f' =? f then [(sv_digest sv lex, sv_digest sv gmr)] else [] | _ => [] end) l).
(** The texts of every call load, and the answer of every call is defined, also with texts of another call that have the same digests. *)
Definition fine (sv : server) (ops : list op) : Prop :=
  (forall a, called ops a -> good_call sv a) /\
  (forall a a', called ops a -> called ops a' -> key_of sv a' = key_of sv a -> defined_call sv (a_lexicon a') (a_grammar a') a).
(** The calls answered, the calls made, the standardizers built and freed, in order; the standardizers in the four places of [f]. *)
Definition answered_calls (l : list event) : list (N * args) := concat (map (fun e => match e with Answered f a _ _ => [(f, a)] | _ => [] end) l).
Definition calls_of (ops : list op) : list (N * args) := concat (map (fun o => match o with Call f a => [(f, a)] | End _ => [] end) ops).
Definition ids_built (l : list event) : list N := concat (map (fun e => match e with Built _ id _ _ => [id] | _ => [] end) l).
Definition ids_freed (l : list event) : list N := concat (map (fun e => match e with Freed id => [id] | _ => [] end) l).
Definition ids_held (b : backend) (f : N) : list N := concat (map (fun i => match ci_std i with Some id => [id] | None => [] end) (pc_items (site b f))).
Definition rows_of (l : list event) : list (list (option text)) := concat (map (fun e => match e with Answered _ _ _ row => [row] | _ => [] end) l).
