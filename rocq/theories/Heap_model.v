(** The C heap (malloc, free) under the SQL functions: src/as_wrapper.cpp and src/address_standardizer.c with the digests of
    src/std_pg_hash.c. *)
From Coq Require Import String List NArith ZArith Bool.
From Verif Require Import Base_model Class_model Float_model Uni_model Token_model Rule_model Search_model Grammar_model Lexicon_model
  Tokenizer_model Archive_model Wrapper_model Lexicon_spec Cache_model.
Import ListNotations.
Local Open Scope N_scope.

(** A block: a C string, a STDADDR (seventeen pointers), an array of TOKENS, an array of MTOKEN; src/address_standardizer.h:18-63.  NULL
    is 0.  The objects of C++ (strings, Lexicon, Grammar) are not blocks here; the standardizers are in Cache_model. *)
Record trow := mkTRow { tr_pat : Z; tr_seq : Z; tr_word : N; tr_class : N; tr_att : N }.
Record mrow := mkMRow { mr_text : N; mr_score : flt; mr_nrules : flt }.
Inductive block :=
| B_str (t : text)
| B_std (fields : list N)
| B_toks (rows : list trow)
| B_mtoks (rows : list mrow).
(** The blocks not freed, by address; addresses are not used again, so that a use of a freed block is seen.  [h_next] is the next one. *)
Record heap := mkHeap { h_next : N; h_blocks : list (N * block) }.

(** Commands on the heap; after [Throw] (elog(ERROR)) the heap stays as it is. *)
Definition cmd A := heap -> outcome A * heap.
Definition ret {A} (a : A) : cmd A := fun h => (Ok a, h).
Definition lift {A} (o : outcome A) : cmd A := fun h => (o, h).
Definition bind {A B} (m : cmd A) (k : A -> cmd B) : cmd B := fun h =>
  match m h with
  | (Ok a, h1) => k a h1
  | (Throw t, h1) => (Throw t, h1)
  | (UB, h1) => (UB, h1)
  end.
Fixpoint each {A} (f : A -> cmd unit) (l : list A) : cmd unit :=
  match l with [] => ret tt | a :: l' => bind (f a) (fun _ => each f l') end.
Fixpoint collect_each {A B} (f : A -> cmd B) (l : list A) : cmd (list B) :=
  match l with [] => ret [] | a :: l' => bind (f a) (fun b => bind (collect_each f l') (fun bs => ret (b :: bs))) end.

(** malloc, calloc, strdup; they do not fail. *)
Definition alloc (b : block) : cmd N := fun h => (Ok (h_next h), mkHeap (h_next h + 1) ((h_next h, b) :: h_blocks h)).
Definition strdup (t : text) : cmd N := alloc (B_str t).
(** free: NULL is fine, a block that is not there is undefined. *)
Definition free (p : N) : cmd unit := fun h =>
  if p =? 0 then (Ok tt, h)
  else match nget p (h_blocks h) with Some _ => (Ok tt, mkHeap (h_next h) (ndel p (h_blocks h))) | None => (UB, h) end.
(** Reading through a pointer. *)
Definition load (p : N) : cmd block := fun h => match nget p (h_blocks h) with Some b => (Ok b, h) | None => (UB, h) end.
Definition store (p : N) (b : block) : cmd unit := fun h =>
  match nget p (h_blocks h) with Some _ => (Ok tt, mkHeap (h_next h) (nset p b (h_blocks h))) | None => (UB, h) end.
Definition load_str (p : N) : cmd text := bind (load p) (fun b => match b with B_str t => ret t | _ => lift UB end).
Definition at_index {A} (l : list A) (i : nat) : cmd A := match nth_error l i with Some a => ret a | None => lift UB end.
Definition put_index {A} (l : list A) (i : nat) (a : A) : cmd (list A) := if Nat.ltb i (List.length l) then ret (set_nth i a l) else lift UB.
(** Fields and elements. *)
Definition get_field (p : N) (i : nat) : cmd N := bind (load p) (fun b => match b with B_std l => at_index l i | _ => lift UB end).
Definition set_field (p : N) (i : nat) (v : N) : cmd unit :=
  bind (load p) (fun b => match b with B_std l => bind (put_index l i v) (fun l' => store p (B_std l')) | _ => lift UB end).
Definition get_tok (p : N) (i : nat) : cmd trow := bind (load p) (fun b => match b with B_toks l => at_index l i | _ => lift UB end).
Definition set_tok (p : N) (i : nat) (v : trow) : cmd unit :=
  bind (load p) (fun b => match b with B_toks l => bind (put_index l i v) (fun l' => store p (B_toks l')) | _ => lift UB end).
Definition get_mtok (p : N) (i : nat) : cmd mrow := bind (load p) (fun b => match b with B_mtoks l => at_index l i | _ => lift UB end).
Definition set_mtok (p : N) (i : nat) (v : mrow) : cmd unit :=
  bind (load p) (fun b => match b with B_mtoks l => bind (put_index l i v) (fun l' => store p (B_mtoks l')) | _ => lift UB end).
(** ++i of an int. *)
Definition incr (i : Z) : cmd Z := if (i <? 2147483647)%Z then ret (i + 1)%Z else lift UB.

(** ** as_standardize *)
(** src/as_wrapper.cpp:192-268: a string for each text with content. *)
Fixpoint fill_fields (a : N) (i : nat) (fs : list (option text)) : cmd unit :=
  match fs with
  | [] => ret tt
  | None :: fs' => fill_fields a (S i) fs'
  | Some t :: fs' => bind (strdup t) (fun p => bind (set_field a i p) (fun _ => fill_fields a (S i) fs'))
  end.
Definition new_stdaddr (s : stdaddr) : cmd N :=
  bind (alloc (B_std (repeat 0 17))) (fun a =>
  bind (fill_fields a 0 (sa_fields s)) (fun _ =>
  bind (strdup (sa_pattern s)) (fun p =>
  bind (set_field a 16 p) (fun _ => ret a)))).
(** The STDADDR pointer and err_msg of standardize_addr, src/as_wrapper.cpp:101-287, given what is computed. *)
Definition standardize_ptr (r : outcome (option stdaddr)) : cmd (N * N) :=
  match r with
  | Ok (Some s) => bind (new_stdaddr s) (fun a => ret (a, 0))
  | Ok None => ret (0, 0)
  | Throw m => bind (strdup m) (fun p => ret (0, p))
  | UB => lift UB
  end.
(** stdaddr_free, src/address_standardizer.c:62-84. *)
Definition stdaddr_free (a : N) : cmd unit :=
  if a =? 0 then ret tt
  else bind (each (fun i => bind (get_field a i) (fun p => if p =? 0 then ret tt else free p)) (List.seq 0 17)) (fun _ => free a).
(** The values of src/address_standardizer.c:241-263 (pstrdup copies them to memory of the server). *)
Definition field_value (a : N) (i : nat) : cmd (option text) :=
  bind (get_field a i) (fun p => if p =? 0 then ret None else bind (load_str p) (fun t => ret (Some t))).
Definition read_values (a : N) : cmd (list (option text)) :=
  if a =? 0 then ret (repeat None 17) else collect_each (field_value a) (List.seq 0 17).
(** src/address_standardizer.c:229-281; the message is only logged. *)
Definition standardize_row (r : outcome (option stdaddr)) : cmd (list (option text)) :=
  bind (standardize_ptr r) (fun '(a, _) => bind (read_values a) (fun v => bind (stdaddr_free a) (fun _ => ret v))).

(** The digests: getMd5, src/as_wrapper.cpp:630-639; both are freed after the search (src/std_pg_hash.c:300-339, 349-379). *)
Definition with_digests {A} (sv : server) (lex gmr : text) (k : text -> text -> cmd A) : cmd A :=
  bind (strdup (sv_digest sv lex)) (fun pl =>
  bind (strdup (sv_digest sv gmr)) (fun pg =>
  bind (load_str pl) (fun l =>
  bind (load_str pg) (fun g =>
  bind (k l g) (fun a =>
  bind (free pl) (fun _ => bind (free pg) (fun _ => ret a))))))).
(** AddToStdPortalCache, src/std_pg_hash.c:415-505: as in Cache_model, with the digests as strings, freed when copied. *)
Definition add_to_cache_h (sv : server) (b : backend) (f : N) (lex gmr : text) : cmd backend :=
  bind (lift (create_std sv b f lex gmr)) (fun '(id, b1) =>
  bind (strdup (sv_digest sv lex)) (fun pl =>
  bind (strdup (sv_digest sv gmr)) (fun pg =>
  bind (lift (delete_next b1 f)) (fun b2 =>
    let ctx := sv_alloc sv (be_count b2) (all_contexts b2) in
    match nget ctx (be_hash b2) with
    | Some _ => lift (Throw (s2t "AddStdHashEntry: This memory context is already in use!"))
    | None =>
        let c := site b2 f in
        bind (load_str pl) (fun l => bind (free pl) (fun _ =>
        bind (load_str pg) (fun g => bind (free pg) (fun _ =>
        let i := mkItem (Some l) (Some g) (Some id) (Some ctx) in
        ret (set_site (mkBackend (be_sites b2) (nset ctx id (be_hash b2)) (be_objects b2) (be_count b2) (be_log b2)) f
               (mkPortal (set_nth (pc_next c) i (pc_items c)) (Nat.modulo (pc_next c + 1) 4) (ctx :: pc_children c)))))))
    end)))).
(** GetStdUsingFCInfo, src/std_pg_hash.c:558-581. *)
Definition get_std_h (sv : server) (b : backend) (f : N) (lex gmr : text) : cmd (option N * backend) :=
  let b0 := set_site b f (site b f) in
  bind (with_digests sv lex gmr (fun l g => ret (is_in_cache (site b0 f) l g))) (fun hit =>
  bind (if hit then ret b0 else add_to_cache_h sv b0 f lex gmr) (fun b1 =>
  bind (with_digests sv lex gmr (fun l g => ret (get_from_cache (site b1 f) l g))) (fun o => ret (o, b1)))).
(** as_standardize, src/address_standardizer.c:181-282. *)
Definition as_standardize_h (sv : server) (b : backend) (f : N) (a : args) : cmd backend :=
  bind (get_std_h sv b f (a_lexicon a) (a_grammar a)) (fun '(o, b1) =>
    match o with
    | None => lift (Throw (s2t "as_standardize() failed to create the address standardizer object!"))
    | Some id =>
        match nget id (be_objects b1) with
        | None => lift UB
        | Some s =>
            bind (standardize_row (standardize_addr (sv_env sv) (ob_gmr s) (ob_lex s) (a_locale a) (a_filter a) (a_address a))) (fun row =>
            ret (note (mkBackend (be_sites b1) (be_hash b1)
                        (nset id (mkObject (run (ob_lex s) (sv_stored sv (ob_lex s) (a_address a))) (ob_gmr s)) (be_objects b1))
                        (be_count b1) (be_log b1)) (Answered f a id row)))
        end
    end).
(** A session. *)
Definition do_op_h (sv : server) (b : backend) (o : op) : cmd backend :=
  match o with Call f a => as_standardize_h sv b f a | End f => lift (end_site b f) end.
Fixpoint session_h (sv : server) (b : backend) (ops : list op) : cmd backend :=
  match ops with [] => ret b | o :: ops' => bind (do_op_h sv b o) (fun b1 => session_h sv b1 ops') end.

(** ** Set-returning functions *)
(** FuncCallContext: max_calls, call_cntr, user_fctx. *)
Record srf := mkSrf { sf_max : nat; sf_cntr : nat; sf_user : N }.
(** The server calls until the function says it is done, or gives up earlier: [n] calls at most.  The rows; the context if it is not
    done. *)
Fixpoint calls {A} (next : srf -> cmd (option A * srf)) (n : nat) (s : srf) : cmd (list A * option srf) :=
  match n with
  | O => ret ([], Some s)
  | S n' => bind (next s) (fun '(o, s1) =>
              match o with
              | None => ret ([], None)
              | Some a => bind (calls next n' s1) (fun '(l, e) => ret (a :: l, e))
              end)
  end.
Definition oom : text := s2t "Out of memory!".

(** The loops of src/as_wrapper.cpp:379-391; the five members of a row are assigned together here. *)
Fixpoint fill_phrase (a : N) (i j k : Z) (ks : list token) : cmd (Z * Z) :=
  match ks with
  | [] => ret (j, k)
  | t :: ks' =>
      bind (strdup (t_text t)) (fun w =>
      bind (strdup (iset_str (t_in t))) (fun c =>
      bind (strdup (aset_str (t_att t))) (fun d =>
      bind (set_tok a (Z.to_nat k) (mkTRow i j w c d)) (fun _ =>
      bind (incr j) (fun j1 => bind (incr k) (fun k1 => fill_phrase a i j1 k1 ks'))))))
  end.
Fixpoint fill_toks (a : N) (i j k : Z) (phrases : list (list token)) : cmd unit :=
  match phrases with
  | [] => ret tt
  | p :: ps => bind (fill_phrase a i j k p) (fun '(j1, k1) => bind (incr i) (fun i1 => fill_toks a i1 j1 k1 ps))
  end.
Definition count (phrases : list (list token)) : nat := fold_left (fun n p => (n + List.length p)%nat) phrases 0%nat.
(** parse_addr, src/as_wrapper.cpp:347-408, given the tokenizations; [z]: calloc of no bytes gives NULL.  The pointer, nrec (which is
    0 before) and err_msg. *)
Definition parse_ptr (z : bool) (r : outcome (list (list token))) : cmd (N * nat * N) :=
  match r with
  | Ok phrases =>
      if z && Nat.eqb (count phrases) 0 then bind (strdup oom) (fun m => ret (0, 0%nat, m))
      else bind (alloc (B_toks (repeat (mkTRow 0 0 0 0 0) (count phrases)))) (fun a =>
           bind (fill_toks a 0 0 0 phrases) (fun _ => ret (a, count phrases, 0)))
  | Throw m => bind (strdup m) (fun p => ret (0, 0%nat, p))
  | UB => lift UB
  end.
(** tokens_free, src/address_standardizer.c:87-99. *)
Definition free_if (p : N) : cmd unit := if p =? 0 then ret tt else free p.
Definition tokens_free (a : N) (nrec : nat) : cmd unit :=
  if Nat.ltb nrec 1 || (a =? 0) then ret tt
  else bind (each (fun i => bind (get_tok a i) (fun t =>
         bind (free_if (tr_word t)) (fun _ => bind (free_if (tr_class t)) (fun _ => free_if (tr_att t))))) (List.seq 0 nrec)) (fun _ => free a).
(** as_parse, src/address_standardizer.c:305-428: the first call, then every call. *)
Definition parse_first (z : bool) (r : outcome (list (list token))) : cmd srf :=
  bind (parse_ptr z r) (fun '(a, nrec, _) => ret (mkSrf nrec 0 a)).
Definition int_plus_one (i : Z) : cmd N := bind (incr i) (fun j => ret (Z.to_N j)).
Definition parse_next (s : srf) : cmd (option prow * srf) :=
  if Nat.ltb (sf_cntr s) (sf_max s) then
    bind (get_tok (sf_user s) (sf_cntr s)) (fun t =>
    bind (int_plus_one (tr_pat t)) (fun pat =>
    bind (int_plus_one (tr_seq t)) (fun sq =>
    bind (load_str (tr_word t)) (fun w =>
    bind (load_str (tr_class t)) (fun c =>
    bind (load_str (tr_att t)) (fun d => ret (Some (mkRow pat sq w c d), mkSrf (sf_max s) (S (sf_cntr s)) (sf_user s))))))))
  else bind (tokens_free (sf_user s) (sf_max s)) (fun _ => ret (None, s)).
Definition as_parse_h (z : bool) (r : outcome (list (list token))) (n : nat) : cmd (list prow * option srf) :=
  bind (parse_first z r) (calls parse_next n).

(** as_parse with std_parse_address, src/as_wrapper.cpp:302-364: the tokenizations of the address. *)
Definition std_phrases (e : env) (address lx locale filt : text) : outcome (list (list token)) :=
  obind (get_lexicon e lx) (fun x => make_phrases e x locale filt address).
Definition as_parse (z : bool) (e : env) (address lx locale filt : text) (n : nat) : cmd (list prow * option srf) :=
  as_parse_h z (std_phrases e address lx locale filt) n.

(** The end of match_addr, src/as_wrapper.cpp:493-508, given the sorted rows. *)
Fixpoint fill_mtoks (a : N) (i : Z) (rows : list mresult) : cmd unit :=
  match rows with
  | [] => ret tt
  | r :: rs => bind (strdup (m_matched r)) (fun p =>
               bind (set_mtok a (Z.to_nat i) (mkMRow p (m_score r) (m_nrules r))) (fun _ =>
               bind (incr i) (fun i1 => fill_mtoks a i1 rs)))
  end.
Definition match_ptr (z : bool) (r : outcome (list mresult)) : cmd (N * nat * N) :=
  match r with
  | Ok rows =>
      if z && Nat.eqb (List.length rows) 0 then bind (strdup oom) (fun m => ret (0, 0%nat, m))
      else bind (alloc (B_mtoks (repeat (mkMRow 0 f_zero f_zero) (List.length rows)))) (fun a =>
           bind (fill_mtoks a 0 rows) (fun _ => ret (a, List.length rows, 0)))
  | Throw m => bind (strdup m) (fun p => ret (0, 0%nat, p))
  | UB => lift UB
  end.
(** as_match, src/address_standardizer.c:451-560. *)
Definition match_first (z : bool) (r : outcome (list mresult)) : cmd srf :=
  bind (match_ptr z r) (fun '(a, nrec, _) => ret (mkSrf nrec 0 a)).
Definition match_next (s : srf) : cmd (option mresult * srf) :=
  if Nat.ltb (sf_cntr s) (sf_max s) then
    bind (get_mtok (sf_user s) (sf_cntr s)) (fun t =>
    bind (load_str (mr_text t)) (fun w =>
    ret (Some (mkMR w (mr_score t) (mr_nrules t)), mkSrf (sf_max s) (S (sf_cntr s)) (sf_user s))))
  else
    bind (each (fun i => bind (get_mtok (sf_user s) i) (fun t => free (mr_text t))) (List.seq 0 (sf_max s))) (fun _ =>
    bind (free (sf_user s)) (fun _ => ret (None, s))).
Definition as_match_h (z : bool) (r : outcome (list mresult)) (n : nat) : cmd (list mresult * option srf) :=
  bind (match_first z r) (calls match_next n).
Definition as_match (z : bool) (e : env) (atof : text -> flt) (sort : list mresult -> list mresult) (address gr lx locale filt : text) (n : nat)
  : cmd (list mresult * option srf) := as_match_h z (std_match_address e atof sort address gr lx locale filt) n.

(** ** as_compile_lexicon *)
(** serialize_lexicon, src/as_wrapper.cpp:641-682, given the text of the archive. *)
Definition serialize_ptr (r : outcome text) : cmd (N * N) :=
  match r with
  | Ok [] => bind (strdup (s2t "Compiled lexicon should not be size=0!")) (fun m => ret (0, m))
  | Ok t => bind (strdup t) (fun p => ret (p, 0))
  | Throw m => bind (strdup m) (fun p => ret (0, p))
  | UB => lift UB
  end.
(** as_compile_lexicon, src/address_standardizer.c:112-136. *)
Definition as_compile_h (r : outcome text) : cmd text :=
  bind (serialize_ptr r) (fun '(c, m) =>
  if negb (m =? 0) then bind (load_str m) (fun t => lift (Throw (s2t "std_standardize threw an error: " ++ t)))
  else if c =? 0 then lift (Throw (s2t "lexicon failed to compile!"))
  else bind (load_str c) (fun t => bind (free c) (fun _ => ret t))).
Definition as_compile_lexicon (e : env) (src : text) : cmd text := as_compile_h (serialize_lexicon e src).
