(** src/md5.h, src/md5.cpp once more, with the arrays, the loop counters and the 32-bit arithmetic of the program.
    Md5_model has the same functions over lists without bounds. *)
From Coq Require Import List NArith Bool.
From Verif Require Import Base_model Md5_model.
Import ListNotations.
Local Open Scope N_scope.

(** How a run ends: with a value, with an access outside of an array, or not within the given number of steps. *)
Inductive run (A : Type) : Type := Done (a : A) | OutOfBounds | OutOfFuel.
Arguments Done {A} a.
Arguments OutOfBounds {A}.
Arguments OutOfFuel {A}.
Definition rbind {A B} (x : run A) (f : A -> run B) : run B :=
  match x with Done a => f a | OutOfBounds => OutOfBounds | OutOfFuel => OutOfFuel end.

(** Arrays: reading and writing an element, memcpy of [n] elements from [src + j] to [dst + i]. *)
Definition size (a : list N) : N := N.of_nat (List.length a).
Definition read_at (a : list N) (i : N) : run N :=
  match nth_error a (N.to_nat i) with Some x => Done x | None => OutOfBounds end.
Definition mem_copy (dst : list N) (i : N) (src : list N) (j n : N) : run (list N) :=
  if ((i + n <=? size dst) && (j + n <=? size src))%bool
  then Done (copy_at dst (N.to_nat i) (firstn (N.to_nat n) (skipn (N.to_nat j) src)))
  else OutOfBounds.
Definition write_at (a : list N) (i x : N) : run (list N) := mem_copy a i [x] 0 1.

(** MD5::decode, src/md5.cpp:139-143, on [input + base]. *)
Fixpoint decode_loop (fuel : nat) (output input : list N) (base i j len : N) : run (list N) :=
  match fuel with
  | O => OutOfFuel
  | S f =>
    if j <? len then
      rbind (read_at input (base + j)) (fun b0 =>
      rbind (read_at input (base + w32 (j + 1))) (fun b1 =>
      rbind (read_at input (base + w32 (j + 2))) (fun b2 =>
      rbind (read_at input (base + w32 (j + 3))) (fun b3 =>
      rbind (write_at output i (N.lor (N.lor (N.lor b0 (N.shiftl b1 8)) (N.shiftl b2 16)) (N.shiftl b3 24))) (fun output =>
      decode_loop f output input base (w32 (i + 1)) (w32 (j + 4)) len)))))
    else Done output
  end.
(** MD5::encode, src/md5.cpp:149-156. *)
Fixpoint encode_loop (fuel : nat) (output input : list N) (i j len : N) : run (list N) :=
  match fuel with
  | O => OutOfFuel
  | S f =>
    if j <? len then
      rbind (read_at input i) (fun w =>
      rbind (write_at output j (N.land w 255)) (fun output =>
      rbind (write_at output (w32 (j + 1)) (N.land (N.shiftr w 8) 255)) (fun output =>
      rbind (write_at output (w32 (j + 2)) (N.land (N.shiftr w 16) 255)) (fun output =>
      rbind (write_at output (w32 (j + 3)) (N.land (N.shiftr w 24) 255)) (fun output =>
      encode_loop f output input (w32 (i + 1)) (w32 (j + 4)) len)))))
    else Done output
  end.

(** The arrays on the stack that are not initialized: [x] of transform, [bits] of finalize, [buf] of hexdigest; and the
    members [buffer] and [digest]. *)
Record frame := mkFrame { f_x : list N; f_bits : list N; f_buf : list N; f_buffer : list N; f_digest : list N }.

(** The 64 calls of transform, which read elements of [x]. *)
Fixpoint calls_loop (x : list N) (calls : list (mix * nat * N * N)) (r : regs) : run regs :=
  match calls with
  | [] => Done r
  | (m, i, s, ac) :: calls' =>
    rbind (read_at x (N.of_nat i)) (fun w =>
    calls_loop x calls' (mkRegs (r_d r) (mix_step m (r_a r) (r_b r) (r_c r) (r_d r) w s ac) (r_b r) (r_c r)))
  end.
(** MD5::transform, src/md5.cpp:161-244, on [input + base]. *)
Definition transform_mem (fuel : nat) (fr : frame) (st : regs) (input : list N) (base : N) : run regs :=
  rbind (decode_loop fuel (f_x fr) input base 0 0 64) (fun x =>
  rbind (calls_loop x md_calls st) (fun r =>
  Done (mkRegs (w32 (r_a st + r_a r)) (w32 (r_b st + r_b r)) (w32 (r_c st + r_c r)) (w32 (r_d st + r_d r))))).

(** The loop of update, src/md5.cpp:272-273; [i + blocksize] is computed with 32 bits. *)
Fixpoint block_loop (fuel : nat) (fr : frame) (n : nat) (st : regs) (input : list N) (i length : N) : run (regs * N) :=
  match n with
  | O => OutOfFuel
  | S n' =>
    if w32 (i + 64) <=? length then
      rbind (transform_mem fuel fr st input i) (fun st' => block_loop fuel fr n' st' input (w32 (i + 64)) length)
    else Done (st, i)
  end.
(** MD5::update, src/md5.cpp:250-282; [input] is the whole array the pointer points to. *)
Definition update_mem (fuel : nat) (fr : frame) (m : md5) (input : list N) (length : N) : run md5 :=
  let index := m_lo m / 8 mod 64 in
  let bits := w32 (N.shiftl length 3) in
  let lo := w32 (m_lo m + bits) in
  let hi := if lo <? bits then w32 (m_hi m + 1) else m_hi m in
  let hi := w32 (hi + N.shiftr length 29) in
  let firstpart := 64 - index in
  if firstpart <=? length then
    rbind (mem_copy (m_buffer m) index input 0 firstpart) (fun buf =>
    rbind (transform_mem fuel fr (m_state m) buf 0) (fun st =>
    rbind (block_loop fuel fr fuel st input firstpart length) (fun sti =>
    rbind (mem_copy buf 0 input (snd sti) (w32 (length + U32 - snd sti))) (fun buf =>
    Done (mkMd5 (m_final m) buf lo hi (fst sti) (m_digest m))))))
  else
    rbind (mem_copy (m_buffer m) index input 0 length) (fun buf =>
    Done (mkMd5 (m_final m) buf lo hi (m_state m) (m_digest m))).
(** MD5::finalize, src/md5.cpp:295-326. *)
Definition finalize_mem (fuel : nat) (fr : frame) (m : md5) : run md5 :=
  if m_final m then Done m
  else
    rbind (encode_loop fuel (f_bits fr) [m_lo m; m_hi m] 0 0 8) (fun bits =>
    let index := m_lo m / 8 mod 64 in
    let padlen := if index <? 56 then 56 - index else 120 - index in
    rbind (update_mem fuel fr m md_padding padlen) (fun m1 =>
    rbind (update_mem fuel fr m1 bits 8) (fun m2 =>
    let st := m_state m2 in
    rbind (encode_loop fuel (m_digest m2) [r_a st; r_b st; r_c st; r_d st] 0 0 16) (fun digest =>
    Done (mkMd5 true (repeat 0 64) 0 0 st digest))))).
(** The loop of hexdigest, src/md5.cpp:337-338: sprintf writes two digits and a NUL. *)
Fixpoint hex_loop (fuel : nat) (buf digest : list N) (i : N) : run (list N) :=
  match fuel with
  | O => OutOfFuel
  | S f =>
    if i <? 16 then
      rbind (read_at digest i) (fun d =>
      rbind (mem_copy buf (i * 2) (hex_byte d ++ [0]) 0 3) (fun buf => hex_loop f buf digest (i + 1)))
    else Done buf
  end.
(** std::string( buf ), src/md5.cpp:342: the characters before the first NUL. *)
Fixpoint until_nul (buf : list N) : run text :=
  match buf with
  | [] => OutOfBounds
  | c :: buf' => if c =? 0 then Done [] else rbind (until_nul buf') (fun t => Done (c :: t))
  end.
(** MD5::hexdigest, src/md5.cpp:331-343. *)
Definition hexdigest_mem (fuel : nat) (fr : frame) (m : md5) : run text :=
  if m_final m then
    rbind (hex_loop fuel (f_buf fr) (m_digest m) 0) (fun buf =>
    rbind (write_at buf 32 0) until_nul)
  else Done [].
(** md5, src/md5.cpp:353-357, with the constructor src/md5.cpp:115-119: c_str() points to the characters and a NUL, the
    length is cut to 32 bits. *)
Definition md5_mem (fuel : nat) (fr : frame) (bytes : list N) : run text :=
  rbind (update_mem fuel fr (md_init (f_buffer fr) (f_digest fr)) (bytes ++ [0]) (w32 (size bytes))) (fun m =>
  rbind (finalize_mem fuel fr m) (hexdigest_mem fuel fr)).
