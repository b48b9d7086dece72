(** The format of compiled lexicons (properties.jsonl C56). *)
From Coq Require Import String List NArith ZArith.
From Verif Require Import Base_model Class_model Lexicon_model Archive_model Format_spec Format_proofs.
Import ListNotations.
Theorem C56_format : forall v x t, save_archive v x = s2t "22 serialization::archive 17" ++ t <-> written [] (lexicon_fields v x) t.
Proof. exact format_iff. Qed.
Print Assumptions C56_format.
Example C56_format_example :
  let e := mkLE (s2t "ST") (s2t "STREET") [I_TYPE; I_STOPWORD] [DET_SUF] in let f := mkLE (s2t "5") (s2t "5") [I_NUMBER] [] in
  save_archive 2 (mkLex (s2t "n") L_ENG (s2t "en_US") [(s2t "5", [f]); (s2t "ST", [e])] [] [] [] (s2t "d")) =
  s2t "22 serialization::archive 17 0 2 1 n 18 5 en_US 0 0 2 0 0 0 1 5 0 0 1 0 0 0 1 5 1 5 0 0 1 0 0 0 0 0 0 2 ST 1 0 2 ST 6 STREET 2 0 2 7 1 0 1 0  0  0  1 d".
Proof. vm_compute. reflexivity. Qed.
