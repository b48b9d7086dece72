(** Properties of the trie over bytes (properties.jsonl C94). *)
From Coq Require Import String List NArith ZArith Sorting.Sorted.
From Verif Require Import Base_model Uni_model Regex_model Utf8_spec Trie_model ByteTrie_model TextOrder_spec Trie_spec LexDiag_spec ByteTrie_spec ByteTrie_proofs.
Import ListNotations.
Local Open Scope N_scope.

(** ** C94 *)
Theorem C94_words : forall ws,
  (forall x, b_is_word x (b_trie_of ws) = true <-> x <> [] /\ In x ws) /\
  (forall p, b_is_prefix p (b_trie_of ws) = true <-> p = [] \/ exists w, In w ws /\ prefix_of p w) /\
  t_size (b_trie_of ws) = N.of_nat (List.length (filter (fun w => match w with [] => false | _ => true end) ws)).
Proof. exact b_trie_words. Qed.
Print Assumptions C94_words.
Theorem C94_listing : forall ws p, Forall byte_word ws ->
  let all := b_get_words (b_trie_of ws) [] [] in
  let some := b_get_words_starting p (b_trie_of ws) [] [] in
  sorted_words all /\ (forall x, In x all <-> x <> [] /\ In x ws) /\
  sorted_words some /\ (forall x, In x some <-> x <> [] /\ In x ws /\ prefix_of p x).
Proof. exact b_trie_listing. Qed.
Print Assumptions C94_listing.
(** The words are added to the set of the caller. *)
Theorem C94_collect : forall ws p held, Forall byte_word ws -> sorted_words held ->
  let all := b_get_words (b_trie_of ws) [] held in
  let some := b_get_words_starting p (b_trie_of ws) held [] in
  sorted_words all /\ (forall x, In x all <-> In x held \/ x <> [] /\ In x ws) /\
  sorted_words some /\ (forall x, In x some <-> In x held \/ x <> [] /\ In x ws /\ prefix_of p x).
Proof. exact b_trie_collect. Qed.
Print Assumptions C94_collect.
Example C94_collect_example : let ws := [[0xC3; 0x89; 65]; s2t "W"; [0xC3; 0x88]] in
  b_get_words_starting [0xC3] (b_trie_of ws) [s2t "ROAD"; [0xC3; 0x88]] [] = [s2t "ROAD"; [0xC3; 0x88]; [0xC3; 0x89; 65]].
Proof. reflexivity. Qed.
(** Words in UTF-8 are stored as in the trie over code points. *)
Theorem C94_as_utf8 : forall ws bs x y, Forall2 utf8_text ws bs -> utf8_text x y ->
  b_is_word y (b_trie_of bs) = is_word x (trie_of ws) /\ b_is_prefix y (b_trie_of bs) = is_prefix x (trie_of ws) /\
  t_size (b_trie_of bs) = t_size (trie_of ws) /\
  Forall2 utf8_text (get_words (trie_of ws) [] []) (b_get_words (b_trie_of bs) [] []) /\
  Forall2 utf8_text (get_words_starting x (trie_of ws) [] []) (b_get_words_starting y (b_trie_of bs) [] []).
Proof. exact b_as_utf8. Qed.
Print Assumptions C94_as_utf8.
Example C94_example : let ws := [s2t "WEST"; [0xC3; 0x89]; s2t "W"; [0x80]; [0xC3; 0x89; 65]; s2t "W"; []] in
  b_get_words (b_trie_of ws) [] [] = [s2t "W"; s2t "WEST"; [0x80]; [0xC3; 0x89]; [0xC3; 0x89; 65]] /\
  b_get_words_starting [0xC3] (b_trie_of ws) [] [] = [[0xC3; 0x89]; [0xC3; 0x89; 65]] /\
  b_is_word [0xC3] (b_trie_of ws) = false /\ b_is_prefix [0xC3] (b_trie_of ws) = true /\ t_size (b_trie_of ws) = 6.
Proof. repeat split. Qed.
Example C94_utf8_example : utf8_text [0xC9; 65] [0xC3; 0x89; 65].
Proof.
  change [0xC3; 0x89; 65] with ([0xC0 + 3; 0x80 + 9] ++ [65] ++ []). change 0xC9 with (64 * 3 + 9).
  repeat constructor; discriminate.
Qed.

(** The pattern: no program for it as soon as one word has a character that would have to be quoted. *)
Theorem C94_pattern_undefined : forall ws, Forall byte_word ws ->
  (b_get_regexp (b_trie_of ws) = UB <-> exists w c, In w ws /\ In c w /\ pattern_char c) /\
  (b_get_regexp (b_trie_of ws) = UB \/ exists r, b_get_regexp (b_trie_of ws) = Ok r).
Proof. exact b_regexp_ub. Qed.
Print Assumptions C94_pattern_undefined.
Theorem C94_ascii_pattern : forall u ws s, Forall (Forall (fun c => c < 128)) ws ->
  (forall w c, In w ws -> In c w -> ~ pattern_char c /\ c <> 94 /\ c <> 123 /\ c <> 125) -> (exists w, In w ws /\ w <> []) ->
  exists r b, b_get_regexp (b_trie_of ws) = Ok r /\ u32regex_match u false r s = Ok b /\ (b = true <-> s <> [] /\ In s ws).
Proof. exact ascii_matches. Qed.
Print Assumptions C94_ascii_pattern.
Theorem C94_same_pattern : forall ws, Forall (Forall (fun c => c < 128)) ws -> (forall w c, In w ws -> In c w -> ~ pattern_char c) ->
  b_get_regexp (b_trie_of ws) = Ok (get_regexp (trie_of ws)).
Proof. exact ascii_pattern. Qed.
Print Assumptions C94_same_pattern.
Theorem C94_utf8_pattern_refuted : exists ws bs r, Forall2 utf8_text ws bs /\ b_get_regexp (b_trie_of bs) = Ok r /\ forall t, ~ utf8_text t r.
Proof. exact split_pattern. Qed.
Print Assumptions C94_utf8_pattern_refuted.
Example C94_pattern_example :
  b_get_regexp (b_trie_of [s2t "STREET"; s2t "ST"; s2t "SA"]) = Ok (s2t "S(?:T(?:REET)?|A)") /\
  b_get_regexp (b_trie_of [s2t "STREET"; s2t "ST."]) = UB /\ pattern_char 46.
Proof. repeat split. right. left. reflexivity. Qed.

(** Printing: the first characters in the order of their type. *)
Theorem C94_print : forall ws k, Forall byte_word ws -> decimal (t_size (b_trie_of ws)) k -> exists heads,
  b_print (b_trie_of ws) = (s2t "0, " ++ k ++ s2t ", [" ++ first_chars heads ++ s2t "]" ++ [10])%list /\
  StronglySorted char_before heads /\ forall c, In c heads <-> exists w, In (c :: w) ws.
Proof. exact b_print_spec. Qed.
Print Assumptions C94_print.
Theorem C94_print_utf8 : forall ws k, decimal (t_size (trie_of ws)) k -> exists heads,
  print_trie (trie_of ws) = (s2t "0, " ++ k ++ s2t ", [" ++ first_chars heads ++ s2t "]" ++ [10])%list /\
  StronglySorted N.lt heads /\ forall c, In c heads <-> exists w, In (c :: w) ws.
Proof. exact print_spec. Qed.
Print Assumptions C94_print_utf8.
Example C94_print_example : let ws := [s2t "b"; s2t "ax"; [0xE9]; s2t "ay"; []] in
  b_print (b_trie_of ws) = ([48; 44; 32; 52; 44; 32; 91] ++ [0xE9; 32; 97; 32; 98; 32] ++ [93; 10])%list /\
  print_trie (trie_of ws) = ([48; 44; 32; 52; 44; 32; 91] ++ [97; 32; 98; 32; 0xE9; 32] ++ [93; 10])%list.
Proof. split; reflexivity. Qed.
