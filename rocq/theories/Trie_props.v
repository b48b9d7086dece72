(** Properties of the word trie (properties.jsonl C43). *)
From Coq Require Import String List NArith.
From Verif Require Import Base_model Uni_model Regex_model Trie_model Trie_spec Trie_proofs TrieWords_proofs.
Import ListNotations.
Local Open Scope N_scope.

(** ** C43 *)
Theorem C43_trie_words : forall ws,
  (forall x, is_word x (trie_of ws) = true <-> x <> [] /\ In x ws) /\
  (forall p, is_prefix p (trie_of ws) = true <-> p = [] \/ exists w, In w ws /\ prefix_of p w) /\
  t_size (trie_of ws) = N.of_nat (List.length (filter (fun w => match w with [] => false | _ => true end) ws)).
Proof. exact trie_words. Qed.
Print Assumptions C43_trie_words.
Theorem C43_trie_listing : forall ws p,
  let all := get_words (trie_of ws) [] [] in
  let some := get_words_starting p (trie_of ws) [] [] in
  sorted_words all /\ (forall x, In x all <-> x <> [] /\ In x ws) /\
  sorted_words some /\ (forall x, In x some <-> x <> [] /\ In x ws /\ prefix_of p x).
Proof. exact trie_listing. Qed.
Print Assumptions C43_trie_listing.
(** The words are added to the set of the caller. *)
Theorem C43_collect : forall ws p held, sorted_words held ->
  let all := get_words (trie_of ws) [] held in
  let some := get_words_starting p (trie_of ws) held [] in
  sorted_words all /\ (forall x, In x all <-> In x held \/ x <> [] /\ In x ws) /\
  sorted_words some /\ (forall x, In x some <-> In x held \/ x <> [] /\ In x ws /\ prefix_of p x).
Proof. exact trie_collect. Qed.
Print Assumptions C43_collect.
Example C43_collect_example : let ws := [s2t "WEST"; s2t "W"; s2t "ST"; s2t "WE"] in
  get_words_starting (s2t "WE") (trie_of ws) [s2t "ROAD"; s2t "WE"; s2t "WOOD"] [] = [s2t "ROAD"; s2t "WE"; s2t "WEST"; s2t "WOOD"].
Proof. reflexivity. Qed.
Example C43_example : let ws := [s2t "WEST"; s2t "W"; s2t "ST"; s2t "WE"; s2t "W"; []] in
  get_words (trie_of ws) [] [] = [s2t "ST"; s2t "W"; s2t "WE"; s2t "WEST"] /\
  get_words_starting (s2t "WE") (trie_of ws) [] [] = [s2t "WE"; s2t "WEST"] /\
  is_word (s2t "WES") (trie_of ws) = false /\ is_prefix (s2t "WES") (trie_of ws) = true /\ t_size (trie_of ws) = 5.
Proof. repeat split. Qed.

(** ** C44 *)
Theorem C44_trie_pattern : forall u ws s,
  (forall w, In w ws -> forall c, In c w -> c <> 94 /\ c <> 123 /\ c <> 125) -> (exists w, In w ws /\ w <> []) ->
  exists b, u32regex_match u false (get_regexp (trie_of ws)) s = Ok b /\ (b = true <-> s <> [] /\ In s ws).
Proof. exact trie_match. Qed.
Print Assumptions C44_trie_pattern.
Example C44_example : let ws := [s2t "ST."; s2t "ST"; s2t "STREET"; s2t "(A)"; s2t "SA"] in
  get_regexp (trie_of ws) = s2t "(?:\(A\)|S(?:T(?:(?:REET|\.))?|A))" /\
  u32regex_match ascii_uni false (get_regexp (trie_of ws)) (s2t "ST.") = Ok true /\
  u32regex_match ascii_uni false (get_regexp (trie_of ws)) (s2t "STR") = Ok false.
Proof. repeat split; vm_compute; reflexivity. Qed.

(** ** C45 *)
Theorem C45_missed_word_refuted : exists ws s,
  (forall w, In w ws -> w <> []) /\ ws <> [] /\ In s ws /\ forall u, u32regex_match u false (get_regexp (trie_of ws)) s = Ok false.
Proof. exact trie_match_refuted. Qed.
Print Assumptions C45_missed_word_refuted.
Theorem C45_extra_word_refuted : exists ws s, (forall w, In w ws -> w <> []) /\ (In s ws -> False) /\
  forall u, u32regex_match u false (get_regexp (trie_of ws)) s = Ok true.
Proof. exact trie_extra_refuted. Qed.
Print Assumptions C45_extra_word_refuted.
(** Holds for words without carets and braces: every other character stands for itself, also those with a meaning in patterns. *)
Theorem C45_literal_partial : forall u w s, w <> [] -> (forall c, In c w -> c <> 94 /\ c <> 123 /\ c <> 125) ->
  exists b, u32regex_match u false (get_regexp (trie_of [w])) s = Ok b /\ (b = true <-> s = w).
Proof. exact word_literal. Qed.
Print Assumptions C45_literal_partial.
Example C45_example : let w := s2t "a-.+*~$()[]\|?z" in (forall c, In c w -> c <> 94 /\ c <> 123 /\ c <> 125) /\
  get_regexp (trie_of [w]) = s2t "a\-\.\+\*\~\$\(\)\[\]\\\|\?z" /\
  u32regex_match ascii_uni false (get_regexp (trie_of [w])) w = Ok true /\
  u32regex_match ascii_uni false (get_regexp (trie_of [s2t "a.b"])) (s2t "axb") = Ok false.
Proof.
  cbv zeta. split; [intros c H; vm_compute in H; repeat (destruct H as [<-|H]; [repeat split; discriminate|]); destruct H|].
  repeat split; vm_compute; reflexivity.
Qed.
