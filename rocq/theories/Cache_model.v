(** src/std_pg_hash.c: the cache of standardizers, and as_standardize of src/address_standardizer.c with it. *)
From Coq Require Import String List NArith ZArith Bool.
From Verif Require Import Base_model Float_model Uni_model Token_model Rule_model Search_model Grammar_model Lexicon_model Tokenizer_model
  Archive_model Wrapper_model Lexicon_spec.
Import ListNotations.
Local Open Scope N_scope.

(** What the code uses from outside: the oracles of the parsing code; getMd5, src/as_wrapper.cpp:630-639 (see Md5_model; here any
    function); the address of a new memory context, given the number of standardizers built so far and the addresses in use; the
    patterns a lexicon stores while an address is tokenized (src/lexicon.cpp stores a pattern when it is asked for). *)
Record server := mkServer {
  sv_env : env; sv_atof : text -> flt; sv_digest : text -> text; sv_alloc : N -> list N -> N; sv_stored : lexicon -> text -> list lexop }.

(** Finite maps with numbers as keys (pointers). *)
Fixpoint nget {A} (k : N) (l : list (N * A)) : option A :=
  match l with [] => None | (i, a) :: l' => if i =? k then Some a else nget k l' end.
Fixpoint nset {A} (k : N) (v : A) (l : list (N * A)) : list (N * A) :=
  match l with [] => [(k, v)] | (i, a) :: l' => if i =? k then (k, v) :: l' else (i, a) :: nset k v l' end.
Fixpoint ndel {A} (k : N) (l : list (N * A)) : list (N * A) :=
  match l with [] => [] | (i, a) :: l' => if i =? k then l' else (i, a) :: ndel k l' end.

(** StdCacheItem and StdPortalCache, src/std_pg_hash.c:59-74.  A standardizer is a number, NULL is [None]; [pc_children] are the
    contexts below StdCacheContext, the newest first. *)
Record item := mkItem { ci_lex : option text; ci_gmr : option text; ci_std : option N; ci_mcxt : option N }.
Record portal := mkPortal { pc_items : list item; pc_next : nat; pc_children : list N }.
(** The memory of a standardizer (STANDARDIZER, src/address_standardizer.h:39-44): its lexicon and grammar, or freed. *)
Record object := mkObject { ob_lex : lexicon; ob_gmr : grammar }.
(** What happens, in order. *)
Record args := mkArgs { a_address : text; a_grammar : text; a_lexicon : text; a_locale : text; a_filter : text }.
Inductive event :=
| Built (site id : N) (lex gmr : text)
| Freed (id : N)
| Answered (site : N) (a : args) (id : N) (row : list (option text)).
(** The backend: the fn_extra of the call sites, StdHash (lines 55, 76-81), the standardizers in memory, the number of standardizers
    built so far (the next one gets this number), what happened. *)
Record backend := mkBackend {
  be_sites : list (N * portal); be_hash : list (N * N); be_objects : list (N * object); be_count : N; be_log : list event }.
Definition new_backend : backend := mkBackend [] [] [] 0 [].

Definition set_site (b : backend) (f : N) (c : portal) : backend :=
  mkBackend (nset f c (be_sites b)) (be_hash b) (be_objects b) (be_count b) (be_log b).
Definition note (b : backend) (ev : event) : backend :=
  mkBackend (be_sites b) (be_hash b) (be_objects b) (be_count b) (be_log b ++ [ev]).

(** GetStdPortalCache, src/std_pg_hash.c:515-555. *)
Definition empty_item : item := mkItem None None None None.
Definition new_portal : portal := mkPortal (repeat empty_item 4) 0 [].
Definition site (b : backend) (f : N) : portal := match nget f (be_sites b) with Some c => c | None => new_portal end.

(** IsInStdPortalCache (300-339) and GetStdFromPortalCache (349-379), with the digests of the arguments. *)
Definition otext_is (o : option text) (t : text) : bool := match o with Some s => teqb s t | None => false end.
Definition item_is (l g : text) (i : item) : bool := otext_is (ci_lex i) l && otext_is (ci_gmr i) g.
Definition is_in_cache (c : portal) (l g : text) : bool := existsb (item_is l g) (pc_items c).
Definition get_from_cache (c : portal) (l g : text) : option N :=
  match find (item_is l g) (pc_items c) with Some i => ci_std i | None => None end.

(** std_free, lines 114-126; freeing twice is undefined. *)
Definition std_free (b : backend) (id : N) : outcome backend :=
  match nget id (be_objects b) with
  | Some _ => Ok (note (mkBackend (be_sites b) (be_hash b) (ndel id (be_objects b)) (be_count b) (be_log b)) (Freed id))
  | None => UB
  end.
(** StdCacheDelete, lines 129-155, with GetStdHashEntry and DeleteStdHashEntry (264-290). *)
Definition context_callback (b : backend) (ctx : N) : outcome backend :=
  match nget ctx (be_hash b) with
  | None => Throw (s2t "StdCacheDelete: Trying to delete non-existant hash entry object with MemoryContext key")
  | Some id =>
      obind (std_free b id) (fun b1 => Ok (mkBackend (be_sites b1) (ndel ctx (be_hash b1)) (be_objects b1) (be_count b1) (be_log b1)))
  end.
(** MemoryContextDelete of a child of the context of call site [f]: the callback, then it is no longer a child. *)
Definition drop_child (c : portal) (ctx : N) : portal :=
  mkPortal (pc_items c) (pc_next c) (filter (fun d => negb (d =? ctx)) (pc_children c)).
Definition context_delete (b : backend) (f ctx : N) : outcome backend :=
  if existsb (N.eqb ctx) (pc_children (site b f)) then
    obind (context_callback b ctx) (fun b1 => Ok (set_site b1 f (drop_child (site b1 f) ctx)))
  else UB.

Definition set_nth {A} (n : nat) (v : A) (l : list A) : list A := firstn n l ++ v :: skipn (S n) l.
Definition set_item (c : portal) (i : item) : portal := mkPortal (set_nth (pc_next c) i (pc_items c)) (pc_next c) (pc_children c).
(** DeleteNextSlotFromStdCache, lines 382-405. *)
Definition delete_next (b : backend) (f : N) : outcome backend :=
  let i := nth (pc_next (site b f)) (pc_items (site b f)) empty_item in
  match ci_std i, ci_mcxt i with
  | None, _ => Ok b
  | Some _, None => UB
  | Some _, Some ctx =>
      obind (context_delete b f ctx) (fun b1 => Ok (set_site b1 f (set_item (site b1 f) (mkItem None None None (ci_mcxt i)))))
  end.

(** CreateStd, lines 584-642: [err_msg] is NULL, so storing the message of an exception is undefined. *)
Definition create_std (sv : server) (b : backend) (f : N) (lex gmr : text) : outcome (N * backend) :=
  match get_lexicon (sv_env sv) lex with
  | Ok x =>
      match get_grammar (sv_env sv) (sv_atof sv) gmr with
      | Ok g => Ok (be_count b, note (mkBackend (be_sites b) (be_hash b) (nset (be_count b) (mkObject x g) (be_objects b)) (be_count b + 1)
                                                (be_log b)) (Built f (be_count b) lex gmr))
      | _ => UB
      end
  | _ => UB
  end.
Definition all_contexts (b : backend) : list N := concat (map (fun s => pc_children (snd s)) (be_sites b)).
(** AddToStdPortalCache, lines 415-505, with AddStdHashEntry (241-262). *)
Definition add_to_cache (sv : server) (b : backend) (f : N) (lex gmr : text) : outcome backend :=
  obind (create_std sv b f lex gmr) (fun '(id, b1) =>
  obind (delete_next b1 f) (fun b2 =>
    let ctx := sv_alloc sv (be_count b2) (all_contexts b2) in
    match nget ctx (be_hash b2) with
    | Some _ => Throw (s2t "AddStdHashEntry: This memory context is already in use!")
    | None =>
        let c := site b2 f in
        let i := mkItem (Some (sv_digest sv lex)) (Some (sv_digest sv gmr)) (Some id) (Some ctx) in
        Ok (set_site (mkBackend (be_sites b2) (nset ctx id (be_hash b2)) (be_objects b2) (be_count b2) (be_log b2)) f
              (mkPortal (set_nth (pc_next c) i (pc_items c)) (Nat.modulo (pc_next c + 1) 4) (ctx :: pc_children c)))
    end)).
(** GetStdUsingFCInfo, lines 558-581. *)
Definition get_std (sv : server) (b : backend) (f : N) (lex gmr : text) : outcome (option N * backend) :=
  let b0 := set_site b f (site b f) in
  let l := sv_digest sv lex in
  let g := sv_digest sv gmr in
  obind (if is_in_cache (site b0 f) l g then Ok b0 else add_to_cache sv b0 f lex gmr) (fun b1 =>
  Ok (get_from_cache (site b1 f) l g, b1)).
(** as_standardize, src/address_standardizer.c:181-282, with USE_QUERY_CACHE (line 23); using a freed standardizer is undefined. *)
Definition as_standardize (sv : server) (b : backend) (f : N) (a : args) : outcome backend :=
  obind (get_std sv b f (a_lexicon a) (a_grammar a)) (fun '(o, b1) =>
    match o with
    | None => Throw (s2t "as_standardize() failed to create the address standardizer object!")
    | Some id =>
        match nget id (be_objects b1) with
        | None => UB
        | Some s =>
            obind (address_row (standardize_addr (sv_env sv) (ob_gmr s) (ob_lex s) (a_locale a) (a_filter a) (a_address a))) (fun row =>
            Ok (note (mkBackend (be_sites b1) (be_hash b1)
                        (nset id (mkObject (run (ob_lex s) (sv_stored sv (ob_lex s) (a_address a))) (ob_gmr s)) (be_objects b1))
                        (be_count b1) (be_log b1)) (Answered f a id row)))
        end
    end).
(** The end of a call site (its context is deleted): its children go first, the newest first; then fn_extra is gone. *)
Fixpoint delete_all (b : backend) (f : N) (ctxs : list N) : outcome backend :=
  match ctxs with
  | [] => Ok b
  | ctx :: rest => obind (context_delete b f ctx) (fun b1 => delete_all b1 f rest)
  end.
Definition end_site (b : backend) (f : N) : outcome backend :=
  obind (delete_all b f (pc_children (site b f))) (fun b1 =>
  Ok (mkBackend (ndel f (be_sites b1)) (be_hash b1) (be_objects b1) (be_count b1) (be_log b1))).

(** A session. *)
Inductive op := Call (f : N) (a : args) | End (f : N).
Definition do_op (sv : server) (b : backend) (o : op) : outcome backend :=
  match o with Call f a => as_standardize sv b f a | End f => end_site b f end.
Fixpoint session (sv : server) (b : backend) (ops : list op) : outcome backend :=
  match ops with [] => Ok b | o :: ops' => obind (do_op sv b o) (fun b1 => session sv b1 ops') end.
