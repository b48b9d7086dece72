(** The numbers of the enumerations. *)
From Coq Require Import String List ZArith.
From Verif Require Import Base_model Class_model Archive_model Codes_spec.
Lemma codes_ok :
  (forall c, number_of class_numbers (in_name c) = Some (in_code c)) /\ (forall a, number_of attach_numbers (att_name a) = Some (att_code a)) /\
  (forall l, number_of language_numbers (lang_code l) = Some (lang_num l)) /\ (forall c, number_of out_numbers (out_name c) = Some (out_code c)).
Proof. repeat split; intros []; reflexivity. Qed.
