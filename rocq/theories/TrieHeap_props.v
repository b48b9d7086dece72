(** Properties of the nodes of tries in memory (properties.jsonl C107). *)
From Coq Require Import String List NArith.
From Verif Require Import Base_model Trie_model Trie_spec TrieHeap_model TrieHeap_spec TrieHeap_proofs.
Import ListNotations.
Local Open Scope N_scope.

(** ** C107 *)
Theorem C107_words : forall alloc, fresh alloc -> forall ws h, exists p h', h_build alloc ws h = MDone (p, h') /\ kept_memory h h' /\
  (forall x, h_find n_end x h' p = MDone true <-> x <> [] /\ In x ws) /\
  (forall x, h_find n_end x h' p = MDone false <-> ~ (x <> [] /\ In x ws)) /\
  (forall x, h_find (fun _ => true) x h' p = MDone true <-> x = [] \/ exists w, In w ws /\ prefix_of x w) /\
  (forall x, h_find (fun _ => true) x h' p = MDone false <-> ~ (x = [] \/ exists w, In w ws /\ prefix_of x w)) /\
  (forall fuel, (longest ws < fuel)%nat -> h_tree fuel h' p = MDone (trie_of ws)).
Proof. exact heap_trie_words. Qed.
Print Assumptions C107_words.
Theorem C107_nodes : forall alloc, fresh alloc -> forall ws h p h', h_build alloc ws h = MDone (p, h') ->
  (forall w, (exists a, reaches h' p w a) <-> w = [] \/ exists x, In x ws /\ prefix_of w x) /\
  (forall w a b, reaches h' p w a -> reaches h' p w b -> a = b) /\
  (forall w v a, reaches h' p w a -> reaches h' p v a -> w = v) /\
  (forall a, hget a h' <> None <-> hget a h <> None \/ exists w, reaches h' p w a).
Proof. exact heap_trie_nodes. Qed.
Print Assumptions C107_nodes.
Theorem C107_freed : forall alloc, fresh alloc -> forall ws h p h' fuel, h_build alloc ws h = MDone (p, h') -> (longest ws < fuel)%nat ->
  exists h2, h_delete fuel h' p = MDone h2 /\ same_memory h h2.
Proof. exact heap_trie_freed. Qed.
Print Assumptions C107_freed.
Theorem C107_copy : forall alloc, fresh alloc -> forall ws h p h' fuel, h_build alloc ws h = MDone (p, h') -> (longest ws < fuel)%nat ->
  (exists w, In w ws /\ w <> []) ->
  exists q h1 h2, h_copy alloc h' p = MDone (q, h1) /\ h_delete fuel h1 p = MDone h2 /\ h_delete fuel h2 q = MBad.
Proof. exact heap_trie_copy. Qed.
Print Assumptions C107_copy.
Theorem C107_copy_refuted : exists ws,
  let '(p, h) := match h_build (fun l => fold_right N.max 0 l + 1) ws [] with MDone x => x | _ => (0, []) end in
  mbind (h_copy (fun l => fold_right N.max 0 l + 1) h p) (fun '(q, h) => mbind (h_delete 9 h p) (fun h => h_delete 9 h q)) = MBad /\
  mbind (h_delete 9 h p) (fun h => MDone h) = MDone [].
Proof. exact trie_copy_refuted. Qed.
Print Assumptions C107_copy_refuted.
Example C107_example : fresh (fun l => fold_right N.max 0 l + 1) /\
  (let ws := [s2t "ST"; s2t "S"; s2t "SA"; s2t "ST"; []] in
   let h := [(7, mkCell 0 true [])] in
   exists h', h_build (fun l => fold_right N.max 0 l + 1) ws h = MDone (8, h') /\ longest ws = 2%nat /\
   hget 8 h' = Some (mkCell 4 false [(83, Some 9)]) /\ hget 9 h' = Some (mkCell 3 true [(65, Some 11); (84, Some 10)]) /\
   hget 10 h' = Some (mkCell 0 true []) /\ hget 7 h' = Some (mkCell 0 true []) /\ hget 12 h' = None /\
   h_find n_end (s2t "S") h' 8 = MDone true /\ h_find n_end (s2t "SAT") h' 8 = MDone false /\
   h_delete 3 h' 8 = MDone h).
Proof. split; [exact max_fresh|]. eexists. vm_compute. repeat split. Qed.
