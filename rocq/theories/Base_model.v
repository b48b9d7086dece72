(** Text, streams and results shared by all model files. *)
From Coq Require Import List NArith ZArith Bool Ascii String.
Import ListNotations.
Local Open Scope N_scope.

(** Text: a sequence of Unicode code points.  The C++ code works on UTF-8 [std::string]; for
    well-formed UTF-8 the two are in bijection (property C42), and every delimiter the code splits at
    is ASCII, so splitting commutes with decoding.  Ill-formed UTF-8 is outside the model
    (boost's u32regex throws on it). *)
Definition text := list N.

Fixpoint s2t (s : string) : text :=
  match s with
  | EmptyString => []
  | String a s' => N_of_ascii a :: s2t s'
  end.

Fixpoint teqb (a b : text) : bool :=
  match a, b with
  | [], [] => true
  | x :: a', y :: b' => N.eqb x y && teqb a' b'
  | _, _ => false
  end.

(** Order of [std::string] (lexicographic on unsigned bytes; UTF-8 preserves code point order). *)
Fixpoint tltb (a b : text) : bool :=
  match a, b with
  | [], [] => false
  | [], _ :: _ => true
  | _ :: _, [] => false
  | x :: a', y :: b' => if x <? y then true else if y <? x then false else tltb a' b'
  end.

(** Number of UTF-8 bytes of a code point / a text: what [std::string::length] returns. *)
Definition utf8_len (c : N) : nat :=
  if c <? 0x80 then 1%nat else if c <? 0x800 then 2%nat else if c <? 0x10000 then 3%nat else 4%nat.
Fixpoint blen (t : text) : nat :=
  match t with [] => O | c :: t' => (utf8_len c + blen t')%nat end.

Definition TAB : N := 9.
Definition LF : N := 10.
Definition CR : N := 13.
Definition SP : N := 32.
Definition COMMA_CH : N := 44.

(** isspace in the "C" locale, used by [operator>>] on streams. *)
Definition c_isspace (c : N) : bool := (c =? 32) || ((9 <=? c) && (c <=? 13)).

(** Outcomes: normal, C++ exception with its message, undefined behaviour. *)
Inductive outcome (A : Type) : Type :=
| Ok (a : A)
| Throw (msg : text)
| UB.
Arguments Ok {A} a.
Arguments Throw {A} msg.
Arguments UB {A}.

Definition obind {A B} (x : outcome A) (f : A -> outcome B) : outcome B :=
  match x with Ok a => f a | Throw m => Throw m | UB => UB end.

(** An input string stream: what is left, eofbit, failbit (badbit never occurs). *)
Record stream := mkStream { s_rest : text; s_eof : bool; s_fail : bool }.
Definition open_stream (t : text) : stream := mkStream t false false.

(** Characters up to the delimiter; [None] when the delimiter does not occur. *)
Fixpoint span_to (d : N) (t : text) : text * option text :=
  match t with
  | [] => ([], None)
  | c :: t' => if c =? d then ([], Some t')
               else let (a, r) := span_to d t' in (c :: a, r)
  end.

(** [std::getline(is, str, delim)].  When the sentry fails (eofbit or failbit already set) failbit is
    set and [str] is left unchanged; otherwise [str] is erased and filled; reaching the end
    sets eofbit, and extracting nothing at all sets failbit. *)
Definition getline (d : N) (s : stream) (old : text) : stream * text :=
  if s_eof s || s_fail s then (mkStream (s_rest s) (s_eof s) true, old)
  else match span_to d (s_rest s) with
       | (a, Some r) => (mkStream r false false, a)
       | (a, None) => (mkStream [] true (match s_rest s with [] => true | _ => false end), a)
       end.

Fixpoint drop_space (t : text) : text :=
  match t with
  | c :: t' => if c_isspace c then drop_space t' else t
  | [] => []
  end.
Fixpoint span_nospace (t : text) : text * text :=
  match t with
  | [] => ([], [])
  | c :: t' => if c_isspace c then ([], t)
               else let (a, r) := span_nospace t' in (c :: a, r)
  end.

(** [is >> str]: the sentry skips white space; running into the end there sets eofbit and failbit and
    leaves [str] unchanged.  Otherwise [str] receives the characters up to white space; if the end
    is reached eofbit is set. *)
Definition read_word (s : stream) (old : text) : stream * text :=
  if s_eof s || s_fail s then (mkStream (s_rest s) (s_eof s) true, old)
  else match drop_space (s_rest s) with
       | [] => (mkStream [] true true, old)
       | t => let (a, r) := span_nospace t in
              (mkStream r (match r with [] => true | _ => false end) false, a)
       end.

(** Joining with a separator. *)
Fixpoint join (sep : text) (l : list text) : text :=
  match l with
  | [] => []
  | [x] => x
  | x :: l' => x ++ sep ++ join sep l'
  end.
