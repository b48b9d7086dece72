(** What the iterator makes of bytes, valid UTF-8 or not: only the leading byte decides how many bytes belong together,
    of the others the last six bits count. *)
From Coq Require Import List NArith.
From Verif Require Import Utf8_spec.
Import ListNotations.
Local Open Scope N_scope.

Definition is_byte (b : N) : Prop := b < 256.
Inductive width : N -> nat -> Prop :=
| w_1 : forall b, b < 128 -> width b 1
| w_2 : forall b, (128 <= b < 160 \/ 192 <= b < 224) -> width b 2
| w_3 : forall b, (160 <= b < 176 \/ 224 <= b < 240) -> width b 3
| w_4 : forall b, (176 <= b < 192 \/ 240 <= b < 256) -> width b 4.
Inductive one_code : list N -> N -> Prop :=
| oc_1 : forall b, width b 1 -> one_code [b] b
| oc_2 : forall b x, width b 2 -> one_code [b; x] (64 * (b mod 32) + x mod 64)
| oc_3 : forall b x y, width b 3 -> one_code [b; x; y] (4096 * (b mod 16) + 64 * (x mod 64) + y mod 64)
| oc_4 : forall b x y z, width b 4 -> one_code [b; x; y; z] (262144 * (b mod 8) + 4096 * (x mod 64) + 64 * (y mod 64) + z mod 64).
Inductive codes : list N -> list N -> Prop :=
| cd_nil : codes [] []
| cd_cons : forall a c s cs, one_code a c -> codes s cs -> codes (a ++ s) (c :: cs).
(** The bytes end within a character; [cs] are the characters before. *)
Definition cut_after (s cs : list N) : Prop :=
  exists a b r n, s = a ++ b :: r /\ codes a cs /\ width b n /\ (S (List.length r) < n)%nat.
Definition too_big (c : N) : Prop := 0x110000 <= c.
