(** Properties of the arrays and loops of the message digest (properties.jsonl C106). *)
From Coq Require Import String List NArith.
From Verif Require Import Base_model Md5_model Md5Mem_model Md5Mem_spec Md5Mem_proofs.
Import ListNotations.
Local Open Scope N_scope.

(** ** C106 *)
(** Which accesses are within an array. *)
Theorem C106_bounds : forall a i, (i < size a <-> exists x, read_at a i = Done x) /\ (size a <= i <-> read_at a i = OutOfBounds) /\
  forall b j n, (i + n <= size a /\ j + n <= size b <-> exists c, mem_copy a i b j n = Done c) /\ (size a < i + n \/ size b < j + n <-> mem_copy a i b j n = OutOfBounds).
Proof. exact bounds_checked. Qed.
Print Assumptions C106_bounds.
Example C106_bounds_example : read_at [7; 8] 1 = Done 8 /\ read_at [7; 8] 2 = OutOfBounds /\ mem_copy [1; 2; 3] 1 [7; 8] 0 2 = Done [1; 7; 8] /\ mem_copy [1; 2; 3] 1 [7; 8] 1 2 = OutOfBounds /\ mem_copy [1; 2; 3] 2 [7; 8] 0 2 = OutOfBounds.
Proof. repeat split. Qed.
(** Every access is within its array, every loop ends, and the result is that of the functions over lists. *)
Theorem C106_update : forall fuel fr m input length, List.length (f_x fr) = 16%nat -> List.length (m_buffer m) = 64%nat ->
  (16 < fuel)%nat -> length < 64 * N.of_nat fuel -> length <= size input -> length < too_long m ->
  update_mem fuel fr m input length = Done (md_update m (firstn (N.to_nat length) input)).
Proof. exact update_ok. Qed.
Print Assumptions C106_update.
(** Exactly the lengths for which it does. *)
Theorem C106_update_ends : forall fr m input length, List.length (f_x fr) = 16%nat -> List.length (m_buffer m) = 64%nat ->
  length <= size input -> length < 2 ^ 32 ->
  ((exists fuel m', update_mem fuel fr m input length = Done m') <-> length < too_long m).
Proof. exact update_ends_iff. Qed.
Print Assumptions C106_update_ends.
Theorem C106_finalize : forall fuel fr m, sizes_ok fr -> members_ok m -> (16 < fuel)%nat ->
  finalize_mem fuel fr m = Done (md_finalize m).
Proof. exact finalize_ok. Qed.
Print Assumptions C106_finalize.
Theorem C106_hexdigest : forall fuel fr m, List.length (f_buf fr) = 33%nat -> List.length (m_digest m) = 16%nat -> (16 < fuel)%nat ->
  hexdigest_mem fuel fr m = Done (md_hexdigest m).
Proof. exact hexdigest_ok. Qed.
Print Assumptions C106_hexdigest.
(** The digest of a text; its length counts modulo 2^32. *)
Theorem C106_md5 : forall fuel fr bytes, sizes_ok fr -> (16 < fuel)%nat -> size bytes mod 2 ^ 32 < 64 * N.of_nat fuel ->
  size bytes mod 2 ^ 32 < 2 ^ 32 - 64 ->
  md5_mem fuel fr bytes = Done (md5_hex (firstn (N.to_nat (size bytes mod 2 ^ 32)) bytes)).
Proof. exact md5_ok. Qed.
Print Assumptions C106_md5.
(** Not every text gets a digest, and not every byte of a text is digested. *)
Theorem C106_ends_refuted : exists bytes, forall fuel fr t, md5_mem fuel fr bytes <> Done t.
Proof. exact ends_refuted. Qed.
Print Assumptions C106_ends_refuted.
Theorem C106_whole_text_refuted : exists a b, size b < size a /\ forall fr fuel, sizes_ok fr -> (16 < fuel)%nat ->
  md5_mem fuel fr a = md5_mem fuel fr b /\ exists t, md5_mem fuel fr b = Done t.
Proof. exact whole_refuted. Qed.
Print Assumptions C106_whole_text_refuted.
Example C106_example : let fr := mkFrame (repeat 1 16) (repeat 2 8) (repeat 3 33) (repeat 4 64) (repeat 5 16) in
  sizes_ok fr /\ md5_mem 17 fr (repeat 65 70 ++ repeat 66 3) = Done (s2t "b208398ae65a37c706caeb67da8fc361") /\
  md5_mem 16 fr [65] = OutOfFuel /\
  update_mem 17 fr (md_init (repeat 4 64) (repeat 5 16)) [65; 66] 3 = OutOfBounds.
Proof. exact mem_example. Qed.
