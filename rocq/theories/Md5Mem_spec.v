(** The sizes of the arrays of src/md5.cpp and the lengths for which the loop of update ends. *)
From Coq Require Import List NArith.
From Verif Require Import Md5_model Md5Mem_model.
Local Open Scope N_scope.

(** src/md5.h:76,79, src/md5.cpp:162, 304, 335. *)
Definition sizes_ok (fr : frame) : Prop :=
  List.length (f_x fr) = 16%nat /\ List.length (f_bits fr) = 8%nat /\ List.length (f_buf fr) = 33%nat /\
  List.length (f_buffer fr) = 64%nat /\ List.length (f_digest fr) = 16%nat.
Definition members_ok (m : md5) : Prop := List.length (m_buffer m) = 64%nat /\ List.length (m_digest m) = 16%nat.
(** The bytes that wait in the buffer, and the first length that is too long: the greatest number below 2^32 that
    fills whole blocks together with them. *)
Definition waiting (m : md5) : N := (m_lo m / 8) mod 64.
Definition too_long (m : md5) : N := if waiting m =? 0 then 2 ^ 32 - 64 else 2 ^ 32 - waiting m.
