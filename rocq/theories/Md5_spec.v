(** The message digest of RFC 1321, written from its published description (section 3, with the table of
    constants floor(2^32 * |sin i|)); the four round functions are parameters so that variants can be stated. *)
From Coq Require Import List NArith Bool.
From Verif Require Import Base_model.
Import ListNotations.
Local Open Scope N_scope.

Definition two32 : N := 2 ^ 32.
(** 3.4: F, G, H, I and the complement. *)
Definition compl (x : N) : N := two32 - 1 - x.
Definition rfc_F (x y z : N) : N := N.lor (N.land x y) (N.land (compl x) z).
Definition rfc_G (x y z : N) : N := N.lor (N.land x z) (N.land y (compl z)).
Definition rfc_H (x y z : N) : N := N.lxor x (N.lxor y z).
Definition rfc_I (x y z : N) : N := N.lxor y (N.lor x (compl z)).
Definition sines : list N :=
  [3614090360; 3905402710; 606105819; 3250441966; 4118548399; 1200080426; 2821735955; 4249261313;
   1770035416; 2336552879; 4294925233; 2304563134; 1804603682; 4254626195; 2792965006; 1236535329;
   4129170786; 3225465664; 643717713; 3921069994; 3593408605; 38016083; 3634488961; 3889429448;
   568446438; 3275163606; 4107603335; 1163531501; 2850285829; 4243563512; 1735328473; 2368359562;
   4294588738; 2272392833; 1839030562; 4259657740; 2763975236; 1272893353; 4139469664; 3200236656;
   681279174; 3936430074; 3572445317; 76029189; 3654602809; 3873151461; 530742520; 3299628645;
   4096336452; 1126891415; 2878612391; 4237533241; 1700485571; 2399980690; 4293915773; 2240044497;
   1873313359; 4264355552; 2734768916; 1309151649; 4149444226; 3174756917; 718787259; 3951481745].
Definition shifts : list N := [7; 12; 17; 22; 5; 9; 14; 20; 4; 11; 16; 23; 6; 10; 15; 21].
(** Rotation of a 32-bit word. *)
Definition rotl (x n : N) : N := (x * 2 ^ n) mod two32 + x / 2 ^ (32 - n).
(** 3.1, 3.2: a one bit, zero bits, and the length in bits as eight bytes, low order first. *)
Definition bytes_of (n : nat) (x : N) : list N := map (fun i => x / 2 ^ (8 * N.of_nat i) mod 256) (seq 0 n).
Definition pad (m : list N) : list N :=
  let len := N.of_nat (length m) in
  m ++ [128] ++ repeat 0 (N.to_nat ((119 - len mod 64) mod 64)) ++ bytes_of 8 (8 * len).
Fixpoint chunks (fuel n : nat) (l : list N) : list (list N) :=
  match fuel, l with
  | S f, _ :: _ => firstn n l :: chunks f n (skipn n l)
  | _, _ => []
  end.
Definition word_of (l : list N) : N := fold_right (fun b w => b + 256 * w) 0 l.
Section Rounds.
Variables F G H I : N -> N -> N -> N.
(** 3.4: step i (from 0) of the four rounds of sixteen. *)
Definition step (x : list N) (r : N * N * N * N) (i : nat) : N * N * N * N :=
  let '(a, b, c, d) := r in
  let round := Nat.div i 16 in
  let f := nth round [F; G; H; I] F in
  let k := nth round [i; (5 * i + 1)%nat; (3 * i + 5)%nat; (7 * i)%nat] i in
  let s := nth (4 * round + Nat.modulo i 4) shifts 0 in
  (d, (b + rotl ((a + f b c d + nth (Nat.modulo k 16) x 0 + nth i sines 0) mod two32) s) mod two32, b, c).
Definition block_step (r : N * N * N * N) (block : list N) : N * N * N * N :=
  let '(a, b, c, d) := r in
  let '(a', b', c', d') := fold_left (step (map word_of (chunks 16 4 block))) (seq 0 64) r in
  ((a + a') mod two32, (b + b') mod two32, (c + c') mod two32, (d + d') mod two32).
(** 3.3, 3.5. *)
Definition digest_bytes (m : list N) : list N :=
  let p := pad m in
  let '(a, b, c, d) := fold_left block_step (chunks (length p) 64 p) (0x67452301, 0xefcdab89, 0x98badcfe, 0x10325476) in
  flat_map (bytes_of 4) [a; b; c; d].
End Rounds.
(** Two lower-case hexadecimal digits per byte. *)
Definition lower_hex (l : list N) : text := flat_map (fun b => [nth (N.to_nat (b / 16)) (map N.of_nat (seq 48 10 ++ seq 97 6)) 0; nth (N.to_nat (b mod 16)) (map N.of_nat (seq 48 10 ++ seq 97 6)) 0]) l.
Definition rfc_md5 (m : list N) : text := lower_hex (digest_bytes rfc_F rfc_G rfc_H rfc_I m).
