(** The numbers in archives (properties.jsonl C56). *)
From Coq Require Import String List ZArith.
From Verif Require Import Base_model Class_model Archive_model Codes_spec Codes_proofs.
(** Classes, attachments and languages are written with the numbers that the headers give to their names. *)
Theorem C56_numbers :
  (forall c, number_of class_numbers (in_name c) = Some (in_code c)) /\ (forall a, number_of attach_numbers (att_name a) = Some (att_code a)) /\
  (forall l, number_of language_numbers (lang_code l) = Some (lang_num l)) /\ (forall c, number_of out_numbers (out_name c) = Some (out_code c)).
Proof. exact codes_ok. Qed.
Print Assumptions C56_numbers.
Example C56_numbers_example : number_of language_numbers (lang_code L_SPA) = Some 66%Z /\ put_num (lang_num L_SPA) = s2t " 66".
Proof. split; vm_compute; reflexivity. Qed.
