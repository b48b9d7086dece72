(** Properties of the script that adds the license (properties.jsonl C122). *)
From Coq Require Import String List NArith.
From Verif Require Import Base_model Lic_model Lic_spec Lic_proofs.
Import ListNotations.
Local Open Scope N_scope.

(** ** C122 *)
(** No file is renamed, files that are not chosen stay as they are; a chosen file that begins with the header stays as it is, one without marks gets it, one with an old header has it replaced, and one with half of a header stays as it is. *)
Theorem C122_files : forall hd excl fs, Forall2 (fun f f' => fst f' = fst f /\ (~ chosen excl (fst f) -> snd f' = snd f) /\
  (chosen excl (fst f) -> forall H ls, lines_of hd H -> lines_of (snd f) ls ->
    ((exists r, ls = H ++ r) -> snd f' = snd f) /\
    (~ (exists r, ls = H ++ r) ->
      (Forall plain_line ls -> snd f' = hd ++ snd f) /\
      (forall a b c, ls = a ++ b ++ c -> Forall plain_line a -> header_block b -> a <> [] \/ Forall plain_line c -> snd f' = hd ++ concat (a ++ c)) /\
      (Exists opens ls /\ ~ Exists closes ls \/ Exists closes ls /\ ~ Exists opens ls -> snd f' = snd f)))) fs (add_lic hd excl fs).
Proof. exact add_is. Qed.
Print Assumptions C122_files.
(** Nothing else is ever removed than 20 lines from one with an opening mark to one with a closing mark. *)
Theorem C122_safe : forall (hd : text) excl (fs : list (text * text)), Forall2 (fun f f' => snd f' = snd f \/ snd f' = hd ++ snd f \/
  exists a b c, lines_of (snd f) (a ++ b ++ c) /\ loose_block b /\ snd f' = hd ++ concat (a ++ c)) fs (add_lic hd excl fs).
Proof. exact add_safe. Qed.
Print Assumptions C122_safe.
(** A second run changes nothing, if the last line of the header is ended. *)
Theorem C122_again : forall s excl fs, add_lic (s ++ [10]) excl (add_lic (s ++ [10]) excl fs) = add_lic (s ++ [10]) excl fs.
Proof. exact add_again. Qed.
Print Assumptions C122_again.
Theorem C122_again_refuted : exists hd fs, (forall s, hd <> s ++ [10]) /\ add_lic hd [] (add_lic hd [] fs) <> add_lic hd [] fs.
Proof. exact no_end_twice. Qed.
Print Assumptions C122_again_refuted.
(** An old header stays if it has more than 20 lines, or if a second one follows. *)
Theorem C122_long_refuted : exists p o mid c r, chosen [] p /\ opens o /\ closes c /\ Forall plain_line mid /\ List.length mid = 19%nat /\ Forall plain_line r /\ lines_of (concat ((o :: mid ++ [c]) ++ r)) ((o :: mid ++ [c]) ++ r) /\
  add_lic shipped_header [] [(p, concat ((o :: mid ++ [c]) ++ r))] = [(p, shipped_header ++ concat ((o :: mid ++ [c]) ++ r))].
Proof. exact long_stays. Qed.
Print Assumptions C122_long_refuted.
Theorem C122_second_refuted : exists p b x d y, chosen [] p /\ header_block b /\ header_block d /\ Forall plain_line x /\ Forall plain_line y /\ lines_of (concat (b ++ x ++ d ++ y)) (b ++ x ++ d ++ y) /\
  add_lic shipped_header [] [(p, concat (b ++ x ++ d ++ y))] = [(p, shipped_header ++ concat (b ++ x ++ d ++ y))].
Proof. exact later_stays. Qed.
Print Assumptions C122_second_refuted.
(** Code between the header and a later line with the closing mark is lost. *)
Theorem C122_code_kept_refuted : exists p b x c y, chosen [] p /\ header_block b /\ Forall plain_line x /\ x <> [] /\ closes c /\ ~ opens c /\ Forall plain_line y /\ lines_of (concat (b ++ x ++ c :: y)) (b ++ x ++ c :: y) /\
  add_lic shipped_header [] [(p, concat (b ++ x ++ c :: y))] = [(p, shipped_header ++ concat y)].
Proof. exact code_lost. Qed.
Print Assumptions C122_code_kept_refuted.
Example C122_example : chosen [s2t "trie.h"] (s2t "src/a.cpp") /\ chosen [s2t "trie.h"] (s2t "src/b.h") /\ ~ chosen [s2t "trie.h"] (s2t "src/archive/c.c") /\ ~ chosen [s2t "trie.h"] (s2t "src/trie.h") /\
  ~ chosen [s2t "trie.h"] (s2t "README.md") /\ chosen [s2t "trie.h"] (s2t "src/myarchive/d.c") /\
  lines_of (concat ((old_o :: old_m ++ [old_c]) ++ code)) ([] ++ (old_o :: old_m ++ [old_c]) ++ code) /\ header_block (old_o :: old_m ++ [old_c]) /\ Forall plain_line code /\
  add_lic shipped_header [s2t "trie.h"] lic_files =
    [(s2t "src/a.cpp", shipped_header ++ concat code); (s2t "src/b.h", shipped_header ++ concat code); (s2t "src/archive/c.c", concat code); (s2t "src/trie.h", concat code); (s2t "README.md", concat code);
     (s2t "src/myarchive/d.c", shipped_header ++ concat code); (s2t "src/e.c", concat (old_o :: code))].
Proof. exact lic_ex. Qed.
