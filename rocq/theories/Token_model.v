(** src/token.h, src/token.cpp. *)
From Coq Require Import String List NArith ZArith Bool.
From Verif Require Import Base_model Class_model.
Import ListNotations.

(** class Token, src/token.h:72-77. *)
Record token := mkToken {
  t_text : text; t_std : text; t_in : inset; t_out : outtype; t_att : attset; t_inlex : bool }.

(** Token::Token(), src/token.cpp:19-25. *)
Definition empty_token : token := mkToken [] [] [] O_BADTOKEN [] false.

(** Token::Token(std::string), src/token.cpp:28-51: the text is split at tabs into word, standard
    word, classes, output class and attachments, with an optional leading "TOKEN:" field. *)
Definition token_of_text (t : text) : token :=
  let s0 := open_stream t in
  let (s1, w) := getline TAB s0 [] in
  let (s2, word) := if teqb w (s2t "TOKEN:") then getline TAB s1 w else (s1, w) in
  let (s3, stdword) := getline TAB s2 [] in
  let (s4, incl) := getline TAB s3 [] in
  let (s5, outcl) := getline TAB s4 [] in
  let (_, att) := getline TAB s5 [] in
  mkToken word stdword (as_type incl) (out_as_type outcl) (as_attach att) false.

(** operator<<, src/token.cpp:54-68 ([inlex_] prints as 0/1). *)
Definition token_str (k : token) : text :=
  s2t "TOKEN:" ++ [TAB] ++ t_text k ++ [TAB] ++ t_std k ++ [TAB] ++ iset_str (t_in k) ++ [TAB]
  ++ out_str (t_out k) ++ [TAB] ++ aset_str (t_att k) ++ [TAB]
  ++ (if t_inlex k then s2t "1" else s2t "0").

(** Token::isInClass, src/token.cpp:71-84. *)
Definition is_in_class (k : token) (c : intype) : bool := iset_mem c (t_in k).
Definition is_in_class_set (k : token) (s : inset) : bool := existsb (fun c => iset_mem c (t_in k)) s.

(** Setters used by the callers, src/token.h:51-58. *)
Definition set_in (k : token) (s : inset) : token :=
  mkToken (t_text k) (t_std k) s (t_out k) (t_att k) (t_inlex k).
Definition add_in (k : token) (c : intype) : token := set_in k (iset_insert c (t_in k)).
Definition set_out (k : token) (o : outtype) : token :=
  mkToken (t_text k) (t_std k) (t_in k) o (t_att k) (t_inlex k).
Definition set_text (k : token) (x : text) : token :=
  mkToken x (t_std k) (t_in k) (t_out k) (t_att k) (t_inlex k).
Definition set_std (k : token) (x : text) : token :=
  mkToken (t_text k) x (t_in k) (t_out k) (t_att k) (t_inlex k).
Definition set_inlex (k : token) (b : bool) : token :=
  mkToken (t_text k) (t_std k) (t_in k) (t_out k) (t_att k) b.

(** 64-bit unsigned arithmetic ([long unsigned int]). *)
Definition U64 : N := 18446744073709551616.
Definition mul64 (a b : N) : N := (a * b) mod U64.

Definition in_size (k : token) : N := N.of_nat (List.length (t_in k)).

(** Token::in(pos), src/token.cpp:87-92; [pos] is always below [inSize()] when called from
    [enumerate], an iterator past the end would be undefined (modelled by the default). *)
Definition token_in (k : token) (pos : N) : intype := nth (N.to_nat pos) (t_in k) I_BADTOKEN.

(** Token::enumerate, src/token.cpp:95-121.  [cnt] and [num] are 64-bit products that wrap. *)
Definition enum_count (ts : list token) : N :=
  fold_left (fun cnt k => mul64 cnt (in_size k)) ts 1%N.
Fixpoint enum_one (i cnt num : N) (ts : list token) : list intype :=
  match ts with
  | [] => []
  | k :: ts' =>
      let num' := mul64 num (in_size k) in
      token_in k ((mul64 i num' / cnt) mod in_size k)%N :: enum_one i cnt num' ts'
  end.
Fixpoint count_up (n : nat) (i : N) : list N :=
  match n with O => [] | S n' => i :: count_up n' (N.succ i) end.
Definition enumerate (ts : list token) : list (list intype) :=
  let cnt := enum_count ts in
  map (fun i => enum_one i cnt 1%N ts) (count_up (N.to_nat cnt) 0%N).

(** Token::trim(3), src/token.cpp:128-146 (both sides; delimiters are the six C white-space characters). *)
Fixpoint drop_ws (t : text) : text :=
  match t with
  | c :: t' => if c_isspace c then drop_ws t' else t
  | [] => []
  end.
Definition trim_token (k : token) : token :=
  match t_text k with
  | [] => k
  | t => match rev (drop_ws (rev (drop_ws t))) with
         | [] => set_text k [SP]
         | u => set_text k u
         end
  end.
