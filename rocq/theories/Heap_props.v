(** Properties of the C heap under the SQL functions (properties.jsonl C74, C75). *)
From Coq Require Import String List NArith ZArith.
From Verif Require Import Base_model Float_model Uni_model Token_model Search_model Lexicon_spec LexText_spec Grammar_model Archive_model Wrapper_model Wrapper_spec
  Sample_model Cache_model Cache_spec WrapperEx_proofs CacheTop_proofs Heap_model Heap_spec HeapStd_proofs HeapTop_proofs.
Import ListNotations.
Local Open Scope N_scope.

(** ** C74 *)
(** A session with the heap is a session without: no double free, no use of a freed block, no use of NULL is added. *)
Theorem C74_standardize : forall sv ops b h, heap_ok h -> fst (session_h sv b ops h) = session sv b ops.
Proof. exact heap_session. Qed.
Print Assumptions C74_standardize.
(** as_parse called [k] times gives the first [k] rows of the table, and is done when there are fewer. *)
Theorem C74_parse : forall z e address lx locale filt k h rows, heap_ok h -> in_range (std_phrases e address lx locale filt) ->
  parse_table (std_parse_address e address lx locale filt) = Ok rows ->
  exists s h', as_parse z e address lx locale filt k h = (Ok (firstn k rows, s), h') /\ (s = None <-> (List.length rows < k)%nat).
Proof. exact parse_safe. Qed.
Print Assumptions C74_parse.
(** Beyond the range of int it is undefined. *)
Theorem C74_parse_overflow : forall z e address lx locale filt ps k h, std_phrases e address lx locale filt = Ok ps -> concat ps <> [] ->
  int_max < len (concat ps) \/ int_max < len ps -> fst (as_parse z e address lx locale filt k h) = UB.
Proof. exact parse_too_many. Qed.
Print Assumptions C74_parse_overflow.
Theorem C74_match : forall z e atof sort address gr lx locale filt k h rows, heap_ok h -> match_in_range (std_match_address e atof sort address gr lx locale filt) ->
  match_table (std_match_address e atof sort address gr lx locale filt) = Ok rows ->
  exists s h', as_match z e atof sort address gr lx locale filt k h = (Ok (firstn k rows, s), h') /\ (s = None <-> (List.length rows < k)%nat).
Proof. exact match_safe. Qed.
Print Assumptions C74_match.
Theorem C74_match_overflow : forall z e atof sort address gr lx locale filt rows k h, std_match_address e atof sort address gr lx locale filt = Ok rows ->
  int_max < len rows -> fst (as_match z e atof sort address gr lx locale filt k h) = UB.
Proof. exact match_too_many. Qed.
Print Assumptions C74_match_overflow.
(** as_compile_lexicon gives the archive, or an SQL error with the message. *)
Theorem C74_compile : forall e src h, heap_ok h -> fst (as_compile_lexicon e src h) =
  match serialize_lexicon e src with Ok a => Ok a | Throw m => Throw (s2t "std_standardize threw an error: " ++ m) | UB => UB end.
Proof. exact compile_safe. Qed.
Print Assumptions C74_compile.
Example C74_example : heap_ok h0 /\ session c_server new_backend h_ops = Ok h_end /\
  map c_view (be_log h_end) = [(0, 1, 0); (2, 1, 0); (0, 1, 1); (2, 1, 1); (0, 2, 2); (2, 2, 2); (1, 0, 1); (1, 0, 0)] /\
  (exists rows, parse_table (std_parse_address ascii_env w_addr w_lexicon en w_filter) = Ok rows /\ List.length rows = 11%nat /\
     in_range (std_phrases ascii_env w_addr w_lexicon en w_filter)) /\
  (exists rows, match_table (std_match_address ascii_env sample_atof by_score w_addr w_grammar w_lexicon en w_filter) = Ok rows /\ List.length rows = 1%nat /\
     match_in_range (std_match_address ascii_env sample_atof by_score w_addr w_grammar w_lexicon en w_filter)).
Proof. exact heap_example. Qed.

(** ** C75 *)
(** Not everything is freed: the message of an exception stays. *)
Theorem C75_all_freed_refuted : exists sv ops b h h', fresh_contexts sv /\ stores_patterns sv /\ heap_ok h /\
  session_h sv new_backend ops h = (Ok b, h') /\ h_blocks h = [] /\ h_blocks h' = [(26, B_str (s2t "regex_error")); (19, B_str (s2t "regex_error"))].
Proof. exact leak_witness. Qed.
Print Assumptions C75_all_freed_refuted.
(** Also the empty array of a parse without tokens, and all blocks of a parse that is not read to its end. *)
Theorem C75_empty_parse_refuted : exists e address lx locale filt rows h', as_parse false e address lx locale filt 100 h0 = (Ok (rows, None), h') /\ h_blocks h' = [(1, B_toks [])].
Proof. exact empty_witness. Qed.
Print Assumptions C75_empty_parse_refuted.
Theorem C75_limit_refuted : exists e address lx locale filt row s h', as_parse false e address lx locale filt 1 h0 = (Ok ([row], Some s), h') /\ List.length (h_blocks h') = 34%nat.
Proof. exact limit_witness. Qed.
Print Assumptions C75_limit_refuted.
(** What stays, exactly. *)
Theorem C75_standardize_left : forall sv ops b h, fresh_contexts sv -> stores_patterns sv -> no_collisions sv ops -> heap_ok h ->
  session sv new_backend ops = Ok b ->
  exists h', session_h sv new_backend ops h = (Ok b, h') /\ left_over h h' (rev (session_leaks sv (calls_of ops))) /\ h_next h <= h_next h'.
Proof. exact session_left. Qed.
Print Assumptions C75_standardize_left.
Theorem C75_parse_left : forall z e address lx locale filt k h rows h', heap_ok h -> in_range (std_phrases e address lx locale filt) ->
  as_parse z e address lx locale filt k h = (Ok (rows, None), h') -> left_over h h' (parse_leak z (std_phrases e address lx locale filt)).
Proof. exact parse_left. Qed.
Print Assumptions C75_parse_left.
Theorem C75_parse_abandoned : forall z e address lx locale filt k h rows s h', heap_ok h -> in_range (std_phrases e address lx locale filt) ->
  parse_table (std_parse_address e address lx locale filt) = Ok rows -> rows <> [] ->
  as_parse z e address lx locale filt k h = (Ok (firstn k rows, Some s), h') ->
  exists bs, left_over h h' bs /\ List.length bs = (3 * List.length rows + 1)%nat.
Proof. exact parse_abandoned. Qed.
Print Assumptions C75_parse_abandoned.
Theorem C75_match_left : forall z e atof sort address gr lx locale filt k h rows s h', heap_ok h -> match_in_range (std_match_address e atof sort address gr lx locale filt) ->
  match_table (std_match_address e atof sort address gr lx locale filt) = Ok rows ->
  as_match z e atof sort address gr lx locale filt k h = (Ok (firstn k rows, s), h') ->
  (s = None -> left_over h h' (message (std_match_address e atof sort address gr lx locale filt))) /\
  (s <> None -> rows <> [] -> exists bs, left_over h h' bs /\ List.length bs = (List.length rows + 1)%nat).
Proof. exact match_left. Qed.
Print Assumptions C75_match_left.
Theorem C75_compile_left : forall e src h, heap_ok h -> left_over h (snd (as_compile_lexicon e src h)) (message (serialize_lexicon e src)).
Proof. exact compile_left. Qed.
Print Assumptions C75_compile_left.
Example C75_example : fresh_contexts c_server /\ stores_patterns c_server /\ no_collisions c_server h_ops /\ heap_ok h0 /\ session c_server new_backend h_ops = Ok h_end /\
  session_leaks c_server (calls_of h_ops) = [B_str (s2t "regex_error"); B_str (s2t "regex_error")] /\
  message (serialize_lexicon ascii_env (s2t "junk")) = [B_str (s2t "Lexicon-Invalid-File-Format")] /\ message (serialize_lexicon ascii_env w_lexicon) = [] /\
  parse_leak false (std_phrases ascii_env w_addr w_lexicon en w_filter) = [].
Proof. exact left_example. Qed.
