(** The UTF-8 encoding form (RFC 3629), in arithmetic. *)
From Coq Require Import List NArith.
Import ListNotations.
Local Open Scope N_scope.

Definition scalar (c : N) : Prop := c < 0x110000.
Inductive utf8_of : N -> list N -> Prop :=
| u8_1 : forall c, c < 0x80 -> utf8_of c [c]
| u8_2 : forall x y, x < 32 -> y < 64 -> 0x80 <= 64 * x + y -> utf8_of (64 * x + y) [0xC0 + x; 0x80 + y]
| u8_3 : forall x y z, x < 16 -> y < 64 -> z < 64 -> 0x800 <= 4096 * x + 64 * y + z ->
    utf8_of (4096 * x + 64 * y + z) [0xE0 + x; 0x80 + y; 0x80 + z]
| u8_4 : forall w x y z, w < 5 -> x < 64 -> y < 64 -> z < 64 -> 0x10000 <= 262144 * w + 4096 * x + 64 * y + z ->
    262144 * w + 4096 * x + 64 * y + z < 0x110000 ->
    utf8_of (262144 * w + 4096 * x + 64 * y + z) [0xF0 + w; 0x80 + x; 0x80 + y; 0x80 + z].
Inductive utf8_text : list N -> list N -> Prop :=
| ut_nil : utf8_text [] []
| ut_cons : forall c a cs b, utf8_of c a -> utf8_text cs b -> utf8_text (c :: cs) (a ++ b).
