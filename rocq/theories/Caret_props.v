From Coq Require Import NArith String List.
From Verif Require Import Base_model Uni_model Regex_model Trie_model Trie_spec Caret_spec Caret_proofs.
Import ListNotations.
Local Open Scope N_scope.

(** ** C45 *)
(** What the pattern of a word without braces matches, with and without carets. *)
Theorem C45_caret : forall u w s, w <> [] -> (forall c, In c w -> c <> 123 /\ c <> 125) ->
  exists b, u32regex_match u false (get_regexp (trie_of [w])) s = Ok b /\ (b = true <-> caret_reads [] w s).
Proof. exact caret_match. Qed.
Print Assumptions C45_caret.
(** A word of one line: the carets it begins with are left out, and one further on makes it unmatchable. *)
Theorem C45_caret_line : forall u w s, w <> [] -> (forall c, In c w -> c <> 123 /\ c <> 125 /\ ~ ends_line c) ->
  exists b, u32regex_match u false (get_regexp (trie_of [w])) s = Ok b /\ (b = true <-> exists n, w = repeat 94 n ++ s /\ ~ In 94 s).
Proof. exact caret_line. Qed.
Print Assumptions C45_caret_line.
Theorem C45_itself : forall u w, w <> [] -> (forall c, In c w -> c <> 123 /\ c <> 125 /\ ~ ends_line c) ->
  exists b, u32regex_match u false (get_regexp (trie_of [w])) w = Ok b /\ (b = true <-> ~ In 94 w).
Proof. exact caret_itself. Qed.
Print Assumptions C45_itself.
Example C45_caret_example :
  (forall c, In c (s2t "^^ST.") -> c <> 123 /\ c <> 125 /\ ~ ends_line c) /\
  u32regex_match ascii_uni false (get_regexp (trie_of [s2t "^^ST."])) (s2t "ST.") = Ok true /\
  u32regex_match ascii_uni false (get_regexp (trie_of [s2t "^^ST."])) (s2t "^^ST.") = Ok false /\
  u32regex_match ascii_uni false (get_regexp (trie_of [65 :: 10 :: s2t "^B"])) (65 :: 10 :: s2t "B") = Ok true /\
  u32regex_match ascii_uni false (get_regexp (trie_of [65 :: 13 :: 94 :: [10]])) (65 :: 13 :: [10]) = Ok false.
Proof.
  split; [|repeat split; vm_compute; reflexivity]. intros c H. vm_compute in H. unfold ends_line.
  repeat (destruct H as [<-|H]; [repeat split; try discriminate; intros K; vm_compute in K; repeat (destruct K as [K|K]; [discriminate K|]); destruct K|]). destruct H.
Qed.
