(** Properties of the message digest (properties.jsonl C46, C47). *)
From Coq Require Import String List NArith.
From Verif Require Import Base_model Md5_model Md5_spec Md5_proofs Md5Rfc_proofs.
Import ListNotations.
Local Open Scope N_scope.

(** ** C46 *)
(** [junk], [junkd]: what the uninitialized arrays of the object happen to contain. *)
Theorem C46_feeding : forall junk junkd pieces, List.length junk = 64%nat ->
  N.of_nat (List.length (concat pieces)) < 2 ^ 32 - 64 ->
  md_hexdigest (md_finalize (fold_left md_update pieces (md_init junk junkd))) = md5_hex (concat pieces).
Proof. exact feeding. Qed.
Print Assumptions C46_feeding.
Theorem C46_digest_shape : forall junk junkd pieces, List.length junk = 64%nat ->
  Forall (fun p => N.of_nat (List.length p) < 2 ^ 32 - 64) pieces ->
  let h := md_hexdigest (md_finalize (fold_left md_update pieces (md_init junk junkd))) in
  List.length h = 32%nat /\ Forall (fun c => 48 <= c <= 57 \/ 97 <= c <= 102) h.
Proof. exact hex_shape. Qed.
Print Assumptions C46_digest_shape.
Theorem C46_finalize_again : forall m, md_finalize (md_finalize m) = md_finalize m.
Proof. exact final_twice. Qed.
Print Assumptions C46_finalize_again.
Example C46_example :
  md_hexdigest (md_finalize (fold_left md_update [repeat 65 70; []; repeat 66 3] (md_init (repeat 7 64) []))) =
  s2t "b208398ae65a37c706caeb67da8fc361".
Proof. vm_compute. reflexivity. Qed.

(** ** C47 *)
Theorem C47_is_md5_refuted : exists M, Forall byte M /\ md5_hex M <> rfc_md5 M.
Proof. exact md5_refuted. Qed.
Print Assumptions C47_is_md5_refuted.
(** What is computed instead: RFC 1321 with F = ((X and Y) or not X) and Z and G = ((X and Z) or Y) and not Z. *)
Theorem C47_digest_partial : forall M, Forall (fun b => b < 256) M -> N.of_nat (List.length M) < 2 ^ 32 - 64 ->
  md5_hex M = lower_hex (digest_bytes
    (fun x y z => N.land (N.lor (N.land x y) (compl x)) z) (fun x y z => N.land (N.lor (N.land x z) y) (compl z)) rfc_H rfc_I M).
Proof. exact digest_eq. Qed.
Print Assumptions C47_digest_partial.
(** The specification on the test suite of RFC 1321, A.5. *)
Example C47_example :
  rfc_md5 [] = s2t "d41d8cd98f00b204e9800998ecf8427e" /\
  rfc_md5 (s2t "a") = s2t "0cc175b9c0f1b6a831c399e269772661" /\
  rfc_md5 (s2t "message digest") = s2t "f96b697d7cb7938d525a2f31aaf161d0" /\
  rfc_md5 (s2t "12345678901234567890123456789012345678901234567890123456789012345678901234567890") = s2t "57edf4a22be3c955ac49da2e2107b67a" /\
  md5_hex [] = s2t "e3e75805b0a47ad0511e4139f5264728".
Proof. repeat split; vm_compute; reflexivity. Qed.
