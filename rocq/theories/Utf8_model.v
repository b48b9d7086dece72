(** src/utf8iterator.h, src/utf8iterator.cpp.  Bytes are numbers below 256. *)
From Coq Require Import String List NArith Bool.
From Verif Require Import Base_model.
Import ListNotations.
Local Open Scope N_scope.

Definition byte_of (x : N) : N := N.land x 255.
(** [static_cast<char>(x | (1 << 7)) & ~(1 << 6)] stored in a char. *)
Definition cont_byte (x : N) : N := N.land (byte_of (N.lor x 128)) 191.

(** CodePointToUtf8, src/utf8iterator.cpp:237-296 ([char32_t] values are below 2^32). *)
Definition code_point_to_utf8 (c : N) : outcome (list N) :=
  if 0x110000 <=? c then Throw (s2t "Invalid-Unicode-Code-Point")
  else if c <? 0x80 then Ok [byte_of c]
  else if c <? 0x800 then
    Ok [byte_of (N.lor 0xc0 (N.shiftr c 6)); cont_byte c]
  else if c <? 0x10000 then
    Ok [byte_of (N.lor 0xe0 (N.shiftr c 12)); cont_byte (N.shiftr c 6); cont_byte c]
  else
    Ok [byte_of (N.lor 0xf0 (N.shiftr c 18)); cont_byte (N.shiftr c 12); cont_byte (N.shiftr c 6); cont_byte c].

(** kFirstBitMask ..., src/utf8iterator.cpp:7-11. *)
Definition has_bit (b mask : N) : bool := negb (N.land b mask =? 0).

(** [it[i]]: reading at or behind the end of the string is undefined. *)
Definition byte_at (s : list N) (pos : nat) : outcome N :=
  match nth_error s pos with Some b => Ok b | None => UB end.

(** Utf8Iterator::operator++, src/utf8iterator.cpp:56-86: the new position; stepping over the end is undefined. *)
Definition it_next (s : list N) (pos : nat) : outcome nat :=
  obind (byte_at s pos) (fun b =>
    let offset := if has_bit b 128 then
                    if has_bit b 32 then (if has_bit b 16 then 4%nat else 3%nat) else 2%nat
                  else 1%nat in
    if Nat.leb (pos + offset) (List.length s) then Ok (pos + offset)%nat else UB).

(** One [--mStringIterator]; stepping before the start is undefined. *)
Definition step_back (pos : nat) : outcome nat :=
  match pos with O => UB | S p => Ok p end.

(** Utf8Iterator::operator--, src/utf8iterator.cpp:100-119. *)
Definition it_prev (s : list N) (pos : nat) : outcome nat :=
  obind (step_back pos) (fun p1 =>
  obind (byte_at s p1) (fun b1 =>
    if has_bit b1 128 then
      obind (step_back p1) (fun p2 =>
      obind (byte_at s p2) (fun b2 =>
        if has_bit b2 64 then Ok p2
        else obind (step_back p2) (fun p3 =>
             obind (byte_at s p3) (fun b3 =>
               if has_bit b3 64 then Ok p3 else step_back p3))))
    else Ok p1)).

(** Utf8Iterator::operator* / CalculateCurrentCodePoint, src/utf8iterator.cpp:132-185 ([mDirty] is never
    reset, so the value is always computed).  The [+=] of disjoint bit groups never overflows. *)
Definition it_deref (s : list N) (pos : nat) : outcome N :=
  obind (byte_at s pos) (fun b =>
    if has_bit b 128 then
      if has_bit b 32 then
        if has_bit b 16 then
          obind (byte_at s (pos + 1)) (fun b2 =>
          obind (byte_at s (pos + 2)) (fun b3 =>
          obind (byte_at s (pos + 3)) (fun b4 =>
            Ok (N.shiftl (N.land b 0x07) 18 + N.shiftl (N.land b2 0x3f) 12 + N.shiftl (N.land b3 0x3f) 6 + N.land b4 0x3f))))
        else
          obind (byte_at s (pos + 1)) (fun b2 =>
          obind (byte_at s (pos + 2)) (fun b3 =>
            Ok (N.shiftl (N.land b 0x0f) 12 + N.shiftl (N.land b2 0x3f) 6 + N.land b3 0x3f)))
      else
        obind (byte_at s (pos + 1)) (fun b2 =>
          Ok (N.shiftl (N.land b 0x1f) 6 + N.land b2 0x3f))
    else Ok b).

(** The loop of the callers (e.g. src/trieutf8.cpp:23-44): [for (it = begin; it != end; ++it) use( *it )].
    [fuel]: every step advances, so the length of the string is enough; running out counts as undefined. *)
Fixpoint walk_forward (fuel : nat) (s : list N) (pos : nat) : outcome (list N) :=
  if Nat.eqb pos (List.length s) then Ok []
  else match fuel with
       | O => UB
       | S f => obind (it_deref s pos) (fun c =>
                obind (it_next s pos) (fun pos' =>
                obind (walk_forward f s pos') (fun cs => Ok (c :: cs))))
       end.
(** [it = end; while (it != begin) { --it; use( *it ); }]. *)
Fixpoint walk_backward (fuel : nat) (s : list N) (pos : nat) : outcome (list N) :=
  if Nat.eqb pos 0 then Ok []
  else match fuel with
       | O => UB
       | S f => obind (it_prev s pos) (fun pos' =>
                obind (it_deref s pos') (fun c =>
                obind (walk_backward f s pos') (fun cs => Ok (c :: cs))))
       end.

(** Concatenation of encoded code points, as built in src/trieutf8.cpp:94, 116. *)
Fixpoint encode (cs : list N) : outcome (list N) :=
  match cs with
  | [] => Ok []
  | c :: cs' => obind (code_point_to_utf8 c) (fun a => obind (encode cs') (fun b => Ok (a ++ b)))
  end.
