(** Properties of the iterator and the trie on arbitrary bytes (properties.jsonl C101). *)
From Coq Require Import String List NArith ZArith Sorting.Sorted.
From Verif Require Import Base_model Utf8_model Utf8_spec Trie_model ByteTrie_model TextOrder_spec Trie_spec TrieBytes_model TrieBytes_spec TrieBytes_proofs TrieBytesList_proofs.
Import ListNotations.
Local Open Scope N_scope.

(** ** C101 *)
(** Reading: only the leading bytes are looked at. *)
Theorem C101_read : forall s, Forall is_byte s ->
  (forall cs, walk_forward (List.length s) s 0 = Ok cs <-> codes s cs) /\
  (walk_forward (List.length s) s 0 = UB <-> exists cs, cut_after s cs) /\
  (forall m, walk_forward (List.length s) s 0 <> Throw m).
Proof. exact walk_exact. Qed.
Print Assumptions C101_read.
Theorem C101_valid : forall cs s, utf8_text cs s -> codes s cs.
Proof. exact utf8_codes. Qed.
Print Assumptions C101_valid.
Theorem C101_reported_refuted : exists s cs, Forall is_byte s /\ walk_forward (List.length s) s 0 = Ok cs /\ forall ds, ~ utf8_text ds s.
Proof. exact w_reported_refuted. Qed.
Print Assumptions C101_reported_refuted.
Theorem C101_back_refuted : exists s cs ds, walk_forward (List.length s) s 0 = Ok cs /\ walk_backward (List.length s) s (List.length s) = Ok ds /\ ds <> rev cs.
Proof. exact w_back_refuted. Qed.
Print Assumptions C101_back_refuted.
Theorem C101_back_defined_refuted : exists s cs, walk_forward (List.length s) s 0 = Ok cs /\ walk_backward (List.length s) s (List.length s) = UB.
Proof. exact w_back_defined_refuted. Qed.
Print Assumptions C101_back_defined_refuted.
Example C101_read_example :
  walk_forward 4 [0xC3; 0x89; 0x2C; 0x41] 0 = Ok [0xC9; 0x2C; 0x41] /\ walk_forward 3 [0x89; 0x2C; 0x41] 0 = Ok [0x26C; 0x41] /\
  walk_forward 2 [0x41; 0xC3] 0 = UB /\ cut_after [0x41; 0xC3] [0x41] /\ walk_forward 4 [0xF7; 0xBF; 0xBF; 0xBF] 0 = Ok [0x1FFFFF].
Proof.
  repeat split. exists [0x41], 0xC3, [], 2%nat. repeat split.
  - apply (cd_cons [0x41] 0x41 [] []); [apply oc_1, w_1; reflexivity|constructor].
  - apply w_2. right. split; discriminate || reflexivity.
  - constructor.
Qed.

(** Adding and looking up a word in the form of bytes. *)
Theorem C101_add : forall w t, Forall is_byte w ->
  (forall cs, codes w cs -> u_add_word w t = Ok (add_word cs t)) /\ ((exists cs, cut_after w cs) -> u_add_word w t = UB).
Proof. exact u_add_exact. Qed.
Print Assumptions C101_add.
Theorem C101_find : forall w t, Forall is_byte w ->
  (forall cs, codes w cs -> u_is_word w t = Ok (is_word cs t) /\ u_is_prefix w t = Ok (is_prefix cs t)) /\
  (forall cs, cut_after w cs -> u_is_word w t = (if is_prefix cs t then UB else Ok false) /\ u_is_prefix w t = (if is_prefix cs t then UB else Ok false)).
Proof. exact u_find_exact. Qed.
Print Assumptions C101_find.
Theorem C101_fill : forall ws, Forall (Forall is_byte) ws ->
  (u_trie_of ws = UB <-> exists w cs, In w ws /\ cut_after w cs) /\
  (forall t, u_trie_of ws = Ok t <-> exists css, Forall2 codes ws css /\ t = trie_of css) /\
  (forall m, u_trie_of ws <> Throw m).
Proof. exact u_trie_exact. Qed.
Print Assumptions C101_fill.
Theorem C101_member : forall ws t w, Forall (Forall is_byte) ws -> Forall is_byte w -> u_trie_of ws = Ok t ->
  (u_is_word w t = Ok true <-> exists v cs, In v ws /\ cs <> [] /\ codes v cs /\ codes w cs) /\
  (u_is_prefix w t = Ok true <-> w = [] \/ exists v cs ds, In v ws /\ codes v (cs ++ ds) /\ codes w cs).
Proof. exact u_member. Qed.
Print Assumptions C101_member.
Theorem C101_foreign_refuted : exists ws t w, Forall (Forall is_byte) ws /\ u_trie_of ws = Ok t /\ u_is_word w t = Ok true /\ ~ In w ws.
Proof. exact w_foreign_refuted. Qed.
Print Assumptions C101_foreign_refuted.

(** Lists and patterns: numbers beyond the code points are noticed only now. *)
Theorem C101_listing : forall ws t, Forall (Forall is_byte) ws -> u_trie_of ws = Ok t ->
  ((exists w cs c, In w ws /\ codes w cs /\ In c cs /\ too_big c) ->
     u_get_words t [] [] = Throw (s2t "Invalid-Unicode-Code-Point") /\ u_get_regexp t = Throw (s2t "Invalid-Unicode-Code-Point")) /\
  (~ (exists w cs c, In w ws /\ codes w cs /\ In c cs /\ too_big c) -> exists css xs r,
     Forall2 codes ws css /\ u_get_words t [] [] = Ok xs /\ Forall2 utf8_text (get_words (trie_of css) [] []) xs /\
     u_get_regexp t = Ok r /\ utf8_text (get_regexp (trie_of css)) r).
Proof. exact u_listing. Qed.
Print Assumptions C101_listing.
Theorem C101_starting : forall ws t p cs held held_codes, Forall (Forall is_byte) ws -> Forall is_byte p -> u_trie_of ws = Ok t -> codes p cs ->
  Forall2 utf8_text held_codes held -> ~ (exists w cs c, In w ws /\ codes w cs /\ In c cs /\ too_big c) -> exists css xs,
  Forall2 codes ws css /\ u_get_words_starting p t held [] = Ok xs /\ Forall2 utf8_text (get_words_starting cs (trie_of css) held_codes []) xs.
Proof. exact u_starting_filled. Qed.
Print Assumptions C101_starting.
Theorem C101_print : forall ws t, Forall (Forall is_byte) ws -> u_trie_of ws = Ok t ->
  ((exists w c cs, In w ws /\ codes w (c :: cs) /\ too_big c) -> u_print t = Throw (s2t "Invalid-Unicode-Code-Point")) /\
  (~ (exists w c cs, In w ws /\ codes w (c :: cs) /\ too_big c) -> exists css h,
     Forall2 codes ws css /\ u_print t = Ok h /\ utf8_text (print_trie (trie_of css)) h).
Proof. exact u_print_filled. Qed.
Print Assumptions C101_print.
Theorem C101_usable_refuted : exists ws t, Forall (Forall is_byte) ws /\ u_trie_of ws = Ok t /\ u_get_regexp t = Throw (s2t "Invalid-Unicode-Code-Point").
Proof. exact w_usable_refuted. Qed.
Print Assumptions C101_usable_refuted.
Theorem C101_same_bytes_refuted : exists ws t xs w, Forall (Forall is_byte) ws /\ u_trie_of ws = Ok t /\ u_get_words t [] [] = Ok xs /\ In w xs /\ ~ In w ws.
Proof. exact w_same_bytes_refuted. Qed.
Print Assumptions C101_same_bytes_refuted.

(** Valid words: the bytes given are the bytes found and listed, and the pattern is the one of the code points. *)
Theorem C101_valid_words : forall css ws p q, Forall2 utf8_text css ws -> utf8_text q p -> exists t some r,
  u_trie_of ws = Ok t /\
  u_get_words_starting p t [] [] = Ok some /\ sorted_words some /\ (forall x, In x some <-> x <> [] /\ In x ws /\ prefix_of p x) /\
  u_is_word p t = Ok (is_word q (trie_of css)) /\ u_is_prefix p t = Ok (is_prefix q (trie_of css)) /\
  (is_word q (trie_of css) = true <-> p <> [] /\ In p ws) /\
  (is_prefix q (trie_of css) = true <-> p = [] \/ exists w, In w ws /\ prefix_of p w) /\
  u_get_regexp t = Ok r /\ utf8_text (get_regexp (trie_of css)) r.
Proof. exact u_utf8. Qed.
Print Assumptions C101_valid_words.
Example C101_example : exists t, u_trie_of [[0xC3; 0x89; 65]; s2t "ST."; [0xC3; 0x88]; s2t "S"; [0xE2; 0x82; 0xAC]] = Ok t /\
  u_is_word [0xC3; 0x89] t = Ok false /\ u_is_prefix [0xC3; 0x89] t = Ok true /\ u_is_word [0xC3] t = UB /\ u_is_word [65; 0xC3] t = Ok false /\
  u_get_words t [] [] = Ok [s2t "S"; s2t "ST."; [0xC3; 0x88]; [0xC3; 0x89; 65]; [0xE2; 0x82; 0xAC]] /\
  u_get_words_starting [0xC3; 0x89] t [s2t "A"; s2t "S"] [] = Ok [s2t "A"; s2t "S"; [0xC3; 0x89; 65]] /\
  u_get_words_starting [0xC3] t [] [] = UB /\ u_get_words_starting [0xC3; 0x89] t [] [] = Ok [[0xC3; 0x89; 65]] /\
  u_get_regexp t = Ok (s2t "(?:S(?:T\.)?|" ++ [0xC3; 0x89] ++ s2t "A|[" ++ [0xC3; 0x88; 0xE2; 0x82; 0xAC] ++ s2t "])") /\
  u_print t = Ok (s2t "0, 5, [S " ++ [0xC3; 0x88; 32; 0xC3; 0x89; 32; 0xE2; 0x82; 0xAC; 32] ++ s2t "]" ++ [10]).
Proof. eexists. split; [reflexivity|]. vm_compute. repeat split. Qed.
