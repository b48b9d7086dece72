(** Properties of the standardizer cache (properties.jsonl C48-C51, C66). *)
From Coq Require Import String List NArith ZArith Sorting.Permutation.
From Verif Require Import Base_model Float_model Lexicon_model Lexicon_spec Grammar_model Archive_model Wrapper_model Wrapper_spec Cache_model Cache_spec
  Cache_proofs CacheTop_proofs.
Import ListNotations.
Local Open Scope N_scope.

(** ** C48 *)
(** Every call is answered, by a standardizer that was built at the same call site, is not freed, and was built from texts with the
    same digests. *)
Theorem C48_right_standardizer : forall sv ops b l1 f a id row l2, fresh_contexts sv -> stores_patterns sv -> session sv new_backend ops = Ok b ->
  be_log b = l1 ++ Answered f a id row :: l2 ->
  exists lex gmr, In (Built f id lex gmr) l1 /\ ~ was_freed l1 id /\ sv_digest sv lex = sv_digest sv (a_lexicon a) /\ sv_digest sv gmr = sv_digest sv (a_grammar a) /\
    address_row (std_standardize (sv_env sv) (sv_atof sv) (a_address a) gmr lex (a_locale a) (a_filter a)) = Ok row.
Proof. exact answer_right. Qed.
Print Assumptions C48_right_standardizer.
Theorem C48_exact_texts : forall sv ops b l1 f a id row l2, fresh_contexts sv -> stores_patterns sv -> no_collisions sv ops -> session sv new_backend ops = Ok b ->
  be_log b = l1 ++ Answered f a id row :: l2 ->
  In (Built f id (a_lexicon a) (a_grammar a)) l1 /\
  address_row (std_standardize (sv_env sv) (sv_atof sv) (a_address a) (a_grammar a) (a_lexicon a) (a_locale a) (a_filter a)) = Ok row.
Proof. exact answer_exact. Qed.
Print Assumptions C48_exact_texts.
Theorem C48_all_answered : forall sv ops b, fresh_contexts sv -> stores_patterns sv -> session sv new_backend ops = Ok b -> answered_calls (be_log b) = calls_of ops.
Proof. exact all_answered. Qed.
Print Assumptions C48_all_answered.
(** Five grammars at one call site, one of them also at another: (0, f, i) is [i] built at [f], (1, 0, i) freed, (2, f, i) an answer. *)
Example C48_example : session c_server new_backend c_ops = Ok c_end /\ fresh_contexts c_server /\ stores_patterns c_server /\ no_collisions c_server c_ops /\
  map c_view (be_log c_end) = [(0, 1, 0); (2, 1, 0); (0, 1, 1); (2, 1, 1); (0, 2, 2); (2, 2, 2); (2, 1, 0); (0, 1, 3); (2, 1, 3); (0, 1, 4); (2, 1, 4);
    (0, 1, 5); (1, 0, 0); (2, 1, 5); (2, 1, 1); (0, 1, 6); (1, 0, 1); (2, 1, 6); (1, 0, 2)].
Proof. split; [exact c_runs|]. split; [exact c_fresh|]. split; [exact c_stores|]. split; [exact c_no_collisions|]. vm_compute. reflexivity. Qed.

(** ** C49 *)
Theorem C49_at_most_four : forall sv ops b f, fresh_contexts sv -> stores_patterns sv -> session sv new_backend ops = Ok b ->
  (List.length (ids_held b f) <= 4)%nat /\ NoDup (keys_held b f) /\ List.length (keys_held b f) = List.length (ids_held b f).
Proof. exact four_places. Qed.
Print Assumptions C49_at_most_four.
(** The standardizers in memory are those built and not freed, and those in the places of one call site. *)
Theorem C49_in_memory : forall sv ops b id, fresh_contexts sv -> stores_patterns sv -> session sv new_backend ops = Ok b ->
  (In id (map fst (be_objects b)) <-> in_use (be_log b) id) /\ (in_use (be_log b) id <-> exists f, In id (ids_held b f)) /\
  (forall f g, In id (ids_held b f) -> In id (ids_held b g) -> f = g) /\ (forall f, NoDup (ids_held b f)).
Proof. exact held_in_use. Qed.
Print Assumptions C49_in_memory.
(** Only what is in use is freed. *)
Theorem C49_free_in_use : forall sv ops b l1 id l2, fresh_contexts sv -> stores_patterns sv -> session sv new_backend ops = Ok b ->
  be_log b = l1 ++ Freed id :: l2 -> in_use l1 id.
Proof. exact free_order. Qed.
Print Assumptions C49_free_in_use.
Theorem C49_freed_once : forall sv ops b, fresh_contexts sv -> stores_patterns sv -> session sv new_backend ops = Ok b ->
  NoDup (ids_built (be_log b)) /\ NoDup (ids_freed (be_log b)) /\ incl (ids_freed (be_log b)) (ids_built (be_log b)).
Proof. exact freed_once. Qed.
Print Assumptions C49_freed_once.
(** When all call sites have ended, everything built has been freed. *)
Theorem C49_all_freed : forall sv ops b fs, fresh_contexts sv -> stores_patterns sv -> session sv new_backend ops = Ok b -> (forall f a, In (Call f a) ops -> In f fs) ->
  exists b', session sv new_backend (ops ++ map End fs) = Ok b' /\ be_objects b' = [] /\ be_hash b' = [] /\
    Permutation (ids_freed (be_log b')) (ids_built (be_log b')) /\ ids_built (be_log b') = ids_built (be_log b).
Proof. exact all_freed. Qed.
Print Assumptions C49_all_freed.
(** The errors of the cache itself (no entry for a context, a context used twice, no standardizer found) do not occur; nor does a
    use or release of a freed standardizer, if all texts load and all answers are defined. *)
Theorem C49_no_error : forall sv ops, fresh_contexts sv -> stores_patterns sv ->
  (forall m, session sv new_backend ops <> Throw m) /\ (fine sv ops -> session sv new_backend ops <> UB).
Proof. exact never_throws. Qed.
Print Assumptions C49_no_error.
Example C49_example : session c_server new_backend c_ops = Ok c_end /\ fine c_server c_ops /\ ids_held c_end 1 = [5; 6; 3; 4] /\ ids_held c_end 2 = [] /\
  ids_built (be_log c_end) = [0; 1; 2; 3; 4; 5; 6] /\ ids_freed (be_log c_end) = [0; 1; 2].
Proof. split; [exact c_runs|]. split; [exact c_fine|]. vm_compute. auto. Qed.

(** ** C50 *)
(** The keys kept and built are those of a queue of four. *)
Theorem C50_oldest_leaves : forall sv ops b f, fresh_contexts sv -> stores_patterns sv -> session sv new_backend ops = Ok b ->
  Permutation (keys_held b f) (fst (queue sv f ops)) /\ keys_built sv f (be_log b) = snd (queue sv f ops).
Proof. exact places_queue. Qed.
Print Assumptions C50_oldest_leaves.
Theorem C50_built_once : forall sv ops b f ks, fresh_contexts sv -> stores_patterns sv -> session sv new_backend ops = Ok b ->
  (List.length ks <= 4)%nat -> ~ In (End f) ops -> (forall a, In (Call f a) ops -> In (key_of sv a) ks) ->
  NoDup (keys_built sv f (be_log b)) /\ (forall k, In k (keys_built sv f (be_log b)) <-> exists a, In (Call f a) ops /\ key_of sv a = k).
Proof. exact built_once. Qed.
Print Assumptions C50_built_once.
(** The first six operations use four grammars at call site 1, one of them twice. *)
Example C50_example : exists b, session c_server new_backend (firstn 6 c_ops) = Ok b /\ List.length (keys_built c_server 1 (be_log b)) = 4%nat /\
  (forall a, In (Call 1 a) (firstn 6 c_ops) -> In (key_of c_server a) (map (fun n => key_of c_server (c_call n [])) [0; 1; 2; 3]%nat)).
Proof.
  exists (match session c_server new_backend (firstn 6 c_ops) with Ok b => b | _ => new_backend end). split; [vm_compute; reflexivity|]. split; [vm_compute; reflexivity|].
  intros a [H|[H|[H|[H|[H|[H|[]]]]]]]; try discriminate H; injection H as <-; vm_compute; auto.
Qed.

(** ** C51 *)
(** If a text does not load, the message is stored through a null pointer. *)
Theorem C51_error_defined_refuted : exists sv f a m, fresh_contexts sv /\ stores_patterns sv /\ get_grammar (sv_env sv) (sv_atof sv) (a_grammar a) = Throw m /\
  session sv new_backend [Call f a] = UB.
Proof. exact error_undefined. Qed.
Print Assumptions C51_error_defined_refuted.
Theorem C51_lexicon_error_defined_refuted : exists sv f a m, fresh_contexts sv /\ stores_patterns sv /\ get_lexicon (sv_env sv) (a_lexicon a) = Throw m /\
  session sv new_backend [Call f a] = UB.
Proof. exact error_undefined2. Qed.
Print Assumptions C51_lexicon_error_defined_refuted.
(** It always is, unless a standardizer with the same digests is in the cache. *)
Theorem C51_always_undefined : forall sv b f a, is_in_cache (site b f) (sv_digest sv (a_lexicon a)) (sv_digest sv (a_grammar a)) = false ->
  ~ good_call sv a -> as_standardize sv b f a = UB.
Proof. exact bad_texts. Qed.
Print Assumptions C51_always_undefined.
(** If all texts load and the answers are defined, all calls are answered; missing: the error for texts that do not load. *)
Theorem C51_good_texts_partial : forall sv ops, fresh_contexts sv -> stores_patterns sv -> fine sv ops -> exists b, session sv new_backend ops = Ok b.
Proof. exact good_session. Qed.
Print Assumptions C51_good_texts_partial.
Example C51_example : fine c_server c_ops.
Proof. exact c_fine. Qed.

(** ** C66 *)
(** The rows are those of the uncached function on the texts of the calls. *)
Theorem C66_same_rows : forall sv ops b, fresh_contexts sv -> stores_patterns sv -> no_collisions sv ops -> session sv new_backend ops = Ok b ->
  map (fun fa => address_row (std_standardize (sv_env sv) (sv_atof sv) (a_address (snd fa)) (a_grammar (snd fa)) (a_lexicon (snd fa)) (a_locale (snd fa)) (a_filter (snd fa))))
      (calls_of ops) = map (fun r => Ok r) (rows_of (be_log b)).
Proof. exact same_rows. Qed.
Print Assumptions C66_same_rows.
Example C66_example : session c_server new_backend c_ops = Ok c_end /\ no_collisions c_server c_ops /\ List.length (rows_of (be_log c_end)) = 9%nat.
Proof. split; [exact c_runs|]. split; [exact c_no_collisions|]. vm_compute. reflexivity. Qed.
