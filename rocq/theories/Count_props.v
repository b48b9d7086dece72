(** Properties of the number of matches (properties.jsonl C115). *)
From Coq Require Import String List NArith Arith.
From Verif Require Import Base_model Class_model Class_spec Token_model Rule_model Search_model Sample_model Search_spec Loaded_spec Order_spec Count_spec Count_proofs.
Import ListNotations.

(** ** C115 *)
(** With at most [a] lines in a section and at most [w] references in a line. *)
Theorem C115_at_most : forall g a w node phrase ps, is_loaded g -> lines_at_most g a -> width g w -> (combinations phrase <= 2 ^ 32)%N -> Forall (fun k => is_inset (t_in k)) phrase ->
  search_node g node phrase = Ok ps ->
  (N.of_nat (List.length ps) <= combinations phrase * N.of_nat (S a) ^ N.of_nat (2 * ((List.length phrase + 2) * w + 1)))%N.
Proof. exact count_bound. Qed.
Print Assumptions C115_at_most.
Example C115_at_most_example : is_loaded many_g /\ lines_at_most many_g 2 /\ width many_g 2 /\ (combinations (word_phrase 3) <= 2 ^ 32)%N /\ Forall (fun k => is_inset (t_in k)) (word_phrase 3) /\
  exists ps, search_node many_g ADDRESS (word_phrase 3) = Ok ps /\ List.length ps = 32.
Proof. exact count_setting. Qed.
(** One grammar and any number of words: there are 2^n readings, and the search lists 2^(2n-1) of them. *)
Theorem C115_exactly : forall phrase, only_words phrase -> phrase <> [] -> exists ps, search many_g phrase = Ok ps /\
  List.length ps = 2 ^ (2 * List.length phrase - 1) /\
  exists ds, NoDup ds /\ List.length ds = 2 ^ List.length phrase /\ forall rs, In rs (map p_rules ps) <-> In rs ds.
Proof. exact count_exact. Qed.
Print Assumptions C115_exactly.
Theorem C115_rows : forall phrase, only_words phrase -> phrase <> [] -> exists rows, search_all many_g [phrase] = Ok rows /\ List.length rows = 2 ^ (2 * List.length phrase - 1).
Proof. exact count_rows. Qed.
Print Assumptions C115_rows.
Example C115_exactly_example : only_words [tk "MAIN" [I_WORD]; tk "OAK" [I_WORD]] /\ exists rows, search_all many_g [[tk "MAIN" [I_WORD]; tk "OAK" [I_WORD]]] = Ok rows /\
  map m_matched rows = [s2t "WORD WORD -> STREET STREET"; s2t "WORD WORD -> STREET CITY"; s2t "WORD WORD -> CITY STREET"; s2t "WORD WORD -> CITY CITY";
                        s2t "WORD WORD -> STREET STREET"; s2t "WORD WORD -> STREET CITY"; s2t "WORD WORD -> CITY STREET"; s2t "WORD WORD -> CITY CITY"].
Proof. split; [repeat constructor|]. eexists. split; [vm_compute; reflexivity|]. vm_compute. reflexivity. Qed.
(** No polynomial in the number of tokens bounds the number of matches of a fixed grammar. *)
Theorem C115_polynomial_refuted : exists g, is_loaded g /\ forall c d, exists phrase ps, search g phrase = Ok ps /\ c * List.length phrase ^ d < List.length ps.
Proof. exact no_polynomial. Qed.
Print Assumptions C115_polynomial_refuted.
