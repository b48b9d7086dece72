(** src/md5.h, src/md5.cpp.  Bytes are numbers below 256, [uint4] and [size_type] are numbers below 2^32. *)
From Coq Require Import List NArith Bool.
From Verif Require Import Base_model.
Import ListNotations.
Local Open Scope N_scope.

Definition U32 : N := 4294967296.
Definition w32 (x : N) : N := x mod U32.
Definition not32 (x : N) : N := N.lxor x 4294967295.
(** MD5::F, G, H, I, src/md5.cpp:62-76. *)
Definition md_F (x y z : N) : N := N.land (N.lor (N.land x y) (not32 x)) z.
Definition md_G (x y z : N) : N := N.land (N.lor (N.land x z) y) (not32 z).
Definition md_H (x y z : N) : N := N.lxor (N.lxor x y) z.
Definition md_I (x y z : N) : N := N.lxor y (N.lor x (not32 z)).
(** MD5::rotate_left, src/md5.cpp:79-81. *)
Definition rotate_left (x n : N) : N := N.lor (w32 (N.shiftl x n)) (N.shiftr x (32 - n)).
(** MD5::FF, GG, HH, II, src/md5.cpp:85-103. *)
Inductive mix : Set := FF | GG | HH | II.
Definition mix_fun (m : mix) : N -> N -> N -> N :=
  match m with FF => md_F | GG => md_G | HH => md_H | II => md_I end.
Definition mix_step (m : mix) (a b c d x s ac : N) : N :=
  w32 (rotate_left (w32 (a + mix_fun m b c d + x + ac)) s + b).
(** The 64 calls of MD5::transform, src/md5.cpp:165-235, transcribed mechanically: function, word of the
    block, shift (S11..S44, src/md5.cpp:42-57), constant.  The calls come in the argument orders
    abcd, dabc, cdab, bcda, again and again. *)
Definition md_calls : list (mix * nat * N * N) :=
  [(FF, 0%nat, 7, 0xd76aa478); (FF, 1%nat, 12, 0xe8c7b756); (FF, 2%nat, 17, 0x242070db); (FF, 3%nat, 22, 0xc1bdceee);
   (FF, 4%nat, 7, 0xf57c0faf); (FF, 5%nat, 12, 0x4787c62a); (FF, 6%nat, 17, 0xa8304613); (FF, 7%nat, 22, 0xfd469501);
   (FF, 8%nat, 7, 0x698098d8); (FF, 9%nat, 12, 0x8b44f7af); (FF, 10%nat, 17, 0xffff5bb1); (FF, 11%nat, 22, 0x895cd7be);
   (FF, 12%nat, 7, 0x6b901122); (FF, 13%nat, 12, 0xfd987193); (FF, 14%nat, 17, 0xa679438e); (FF, 15%nat, 22, 0x49b40821);
   (GG, 1%nat, 5, 0xf61e2562); (GG, 6%nat, 9, 0xc040b340); (GG, 11%nat, 14, 0x265e5a51); (GG, 0%nat, 20, 0xe9b6c7aa);
   (GG, 5%nat, 5, 0xd62f105d); (GG, 10%nat, 9, 0x2441453); (GG, 15%nat, 14, 0xd8a1e681); (GG, 4%nat, 20, 0xe7d3fbc8);
   (GG, 9%nat, 5, 0x21e1cde6); (GG, 14%nat, 9, 0xc33707d6); (GG, 3%nat, 14, 0xf4d50d87); (GG, 8%nat, 20, 0x455a14ed);
   (GG, 13%nat, 5, 0xa9e3e905); (GG, 2%nat, 9, 0xfcefa3f8); (GG, 7%nat, 14, 0x676f02d9); (GG, 12%nat, 20, 0x8d2a4c8a);
   (HH, 5%nat, 4, 0xfffa3942); (HH, 8%nat, 11, 0x8771f681); (HH, 11%nat, 16, 0x6d9d6122); (HH, 14%nat, 23, 0xfde5380c);
   (HH, 1%nat, 4, 0xa4beea44); (HH, 4%nat, 11, 0x4bdecfa9); (HH, 7%nat, 16, 0xf6bb4b60); (HH, 10%nat, 23, 0xbebfbc70);
   (HH, 13%nat, 4, 0x289b7ec6); (HH, 0%nat, 11, 0xeaa127fa); (HH, 3%nat, 16, 0xd4ef3085); (HH, 6%nat, 23, 0x4881d05);
   (HH, 9%nat, 4, 0xd9d4d039); (HH, 12%nat, 11, 0xe6db99e5); (HH, 15%nat, 16, 0x1fa27cf8); (HH, 2%nat, 23, 0xc4ac5665);
   (II, 0%nat, 6, 0xf4292244); (II, 7%nat, 10, 0x432aff97); (II, 14%nat, 15, 0xab9423a7); (II, 5%nat, 21, 0xfc93a039);
   (II, 12%nat, 6, 0x655b59c3); (II, 3%nat, 10, 0x8f0ccc92); (II, 10%nat, 15, 0xffeff47d); (II, 1%nat, 21, 0x85845dd1);
   (II, 8%nat, 6, 0x6fa87e4f); (II, 15%nat, 10, 0xfe2ce6e0); (II, 6%nat, 15, 0xa3014314); (II, 13%nat, 21, 0x4e0811a1);
   (II, 4%nat, 6, 0xf7537e82); (II, 11%nat, 10, 0xbd3af235); (II, 2%nat, 15, 0x2ad7d2bb); (II, 9%nat, 21, 0xeb86d391)].
(** MD5::decode, src/md5.cpp:139-143. *)
Fixpoint md_decode (l : list N) : list N :=
  match l with
  | a :: b :: c :: d :: l' => N.lor (N.lor (N.lor a (N.shiftl b 8)) (N.shiftl c 16)) (N.shiftl d 24) :: md_decode l'
  | _ => []
  end.
(** MD5::encode, src/md5.cpp:149-156. *)
Definition md_encode (l : list N) : list N :=
  flat_map (fun w => [N.land w 255; N.land (N.shiftr w 8) 255; N.land (N.shiftr w 16) 255; N.land (N.shiftr w 24) 255]) l.
Record regs := mkRegs { r_a : N; r_b : N; r_c : N; r_d : N }.
(** One call; afterwards the registers are renamed so that the next call again starts with the first. *)
Definition md_call (x : list N) (r : regs) (k : mix * nat * N * N) : regs :=
  let '(m, i, s, ac) := k in
  mkRegs (r_d r) (mix_step m (r_a r) (r_b r) (r_c r) (r_d r) (nth i x 0) s ac) (r_b r) (r_c r).
(** MD5::transform, src/md5.cpp:161-244. *)
Definition md_transform (st : regs) (block : list N) : regs :=
  let r := fold_left (md_call (md_decode block)) md_calls st in
  mkRegs (w32 (r_a st + r_a r)) (w32 (r_b st + r_b r)) (w32 (r_c st + r_c r)) (w32 (r_d st + r_d r)).

(** class MD5, src/md5.h:70-76. *)
Record md5 := mkMd5 {
  m_final : bool; m_buffer : list N; m_lo : N; m_hi : N; m_state : regs; m_digest : list N }.
(** MD5::MD5(), MD5::init, src/md5.cpp:108-134; [buffer] and [digest] are not initialized: parameters. *)
Definition md_init (junk junkd : list N) : md5 :=
  mkMd5 false junk 0 0 (mkRegs 0x67452301 0xefcdab89 0x98badcfe 0x10325476) junkd.
(** memcpy into the buffer. *)
Definition copy_at (buf : list N) (i : nat) (src : list N) : list N :=
  firstn i buf ++ src ++ skipn (i + List.length src) buf.
(** The loop of update, src/md5.cpp:272-273: [n] bounds the number of whole blocks. *)
Fixpoint md_blocks (n : nat) (st : regs) (l : list N) : regs * list N :=
  match n with
  | O => (st, l)
  | S n' => if Nat.leb 64 (List.length l) then md_blocks n' (md_transform st (firstn 64 l)) (skipn 64 l) else (st, l)
  end.
(** MD5::update, src/md5.cpp:250-282.  Lengths are below 2^32 - 64, so that [i + blocksize] does not wrap. *)
Definition md_update (m : md5) (input : list N) : md5 :=
  let length := N.of_nat (List.length input) in
  let index := N.to_nat (m_lo m / 8 mod 64) in
  let bits := w32 (N.shiftl length 3) in
  let lo := w32 (m_lo m + bits) in
  let hi := if lo <? bits then w32 (m_hi m + 1) else m_hi m in
  let hi := w32 (hi + N.shiftr length 29) in
  let firstpart := (64 - index)%nat in
  if Nat.leb firstpart (List.length input) then
    let buf := copy_at (m_buffer m) index (firstn firstpart input) in
    let '(st, rest) := md_blocks (List.length input) (md_transform (m_state m) buf) (skipn firstpart input) in
    mkMd5 (m_final m) (copy_at buf 0 rest) lo hi st (m_digest m)
  else mkMd5 (m_final m) (copy_at (m_buffer m) index input) lo hi (m_state m) (m_digest m).
(** [padding], src/md5.cpp:296-300. *)
Definition md_padding : list N := 128 :: repeat 0 63.
(** MD5::finalize, src/md5.cpp:295-326. *)
Definition md_finalize (m : md5) : md5 :=
  if m_final m then m
  else
    let bits := md_encode [m_lo m; m_hi m] in
    let index := m_lo m / 8 mod 64 in
    let padlen := if index <? 56 then 56 - index else 120 - index in
    let m1 := md_update m (firstn (N.to_nat padlen) md_padding) in
    let m2 := md_update m1 bits in
    let st := m_state m2 in
    mkMd5 true (repeat 0 64) 0 0 st (md_encode [r_a st; r_b st; r_c st; r_d st]).
(** sprintf "%02x". *)
Definition hex_digit (d : N) : N := if d <? 10 then 48 + d else 87 + d.
Definition hex_byte (b : N) : text := [hex_digit (b / 16); hex_digit (b mod 16)].
(** MD5::hexdigest, src/md5.cpp:331-343. *)
Definition md_hexdigest (m : md5) : text :=
  if m_final m then flat_map hex_byte (firstn 16 (m_digest m)) else [].
(** md5, src/md5.cpp:353-357, with the constructor src/md5.cpp:115-119.  The uninitialized arrays are filled with zeros
    here; C46 shows that their contents do not matter. *)
Definition md5_hex (bytes : list N) : text :=
  md_hexdigest (md_finalize (md_update (md_init (repeat 0 64) (repeat 0 16)) bytes)).
