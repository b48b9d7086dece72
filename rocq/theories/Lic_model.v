(** tools/add-lic-to-source: puts tools/as-header.txt at the top of the source files.

    Left out: the messages printed, and files that cannot be opened. A text is a list of code points; the script works on bytes and looks at ASCII only. *)
From Coq Require Import String List NArith Bool PeanoNat.
From Verif Require Import Base_model Tools_model.
Import ListNotations.
Local Open Scope N_scope.

(** <IN> in list context, lines 69 and 95: the lines with their ends. *)
Fixpoint raw_lines (t : text) : list text :=
  match t with
  | [] => []
  | c :: t' => if c =? LF then [LF] :: raw_lines t' else match raw_lines t' with l :: ls => (c :: l) :: ls | [] => [[c]] end
  end.
(** headerok, lines 73-87; a missing line is not equal. *)
Fixpoint header_ok (hd ls : list text) : bool :=
  match hd, ls with
  | [], _ => true
  | h :: hd', l :: ls' => teqb h l && header_ok hd' ls'
  | _ :: _, [] => false
  end.
(** The two marks, lines 104 and 105. *)
Definition open_mark : text := s2t "/**ADDRESS_STANDARDIZER*".
Definition close_mark : text := s2t "*ADDRESS_STANDARDIZER**/".
(** The truth of an index in Perl: neither undefined nor 0. *)
Definition true_index (i : option nat) : bool := match i with Some (S _) => true | _ => false end.
(** The loop of lines 101-108. *)
Fixpoint scan (i : nat) (first last : option nat) (ls : list text) : option nat * option nat :=
  match ls with
  | [] => (first, last)
  | x :: ls' =>
      let first' := if contains open_mark x then Some i else first in
      let last' := if contains close_mark x then Some i else last in
      if true_index first' && true_index last' then (first', last') else scan (S i) first' last' ls'
  end.
(** updateheader, lines 89-136; None: nothing is written. *)
Definition update_header (hd ls : list text) : option (list text) :=
  match scan 0 None None ls with
  | (None, None) => Some (hd ++ ls)
  | (Some f, Some l) => Some (hd ++ (if (f <? l)%nat && (l - f <? 20)%nat then firstn f ls ++ skipn (l + 1) ls else ls))
  | _ => None
  end.
(** A file, lines 52-53. *)
Definition with_header (hd t : text) : text :=
  let h := raw_lines hd in let ls := raw_lines t in
  if header_ok h ls then t else match update_header h ls with Some ls' => concat ls' | None => t end.
(** basename, line 50. *)
Fixpoint base_name (p : text) : text := match p with [] => [] | c :: p' => if existsb (N.eqb 47) p' then base_name p' else if c =? 47 then p' else p end.
(** wanted, lines 61-64. *)
Definition ends (s t : text) : bool := begins (rev s) (rev t).
Definition is_source (p : text) : bool := existsb (fun s => ends (s2t s) (base_name p)) [".h"; ".cpp"; ".c"]%string.
(** m/\barchive\//, line 49; [prev]: the character before is one of \w. *)
Definition perl_word (c : N) : bool := ((48 <=? c) && (c <=? 57)) || ((65 <=? c) && (c <=? 90)) || ((97 <=? c) && (c <=? 122)) || (c =? 95).
Fixpoint in_archive (prev : bool) (p : text) : bool :=
  (negb prev && begins (s2t "archive/") p) || match p with [] => false | c :: p' => in_archive (perl_word c) p' end.
(** The files below the directory with their contents, lines 34-56; [excl]: the lines of the file of exclusions. *)
Definition add_lic (hd : text) (excl : list text) (fs : list (text * text)) : list (text * text) :=
  map (fun f => if is_source (fst f) && negb (in_archive false (fst f)) && negb (existsb (teqb (base_name (fst f))) excl) then (fst f, with_header hd (snd f)) else f) fs.
(** tools/as-header.txt. *)
Definition shipped_header : text := Eval vm_compute in concat (map (fun l => s2t l ++ [LF])
  ["/**ADDRESS_STANDARDIZER***************************************************"; " *"; " * Address Standardizer";
   " *      A collection of C++ classes for parsing street addresses"; " *      and standardizing them for the purpose of Geocoding."; " *";
   " * Copyright 2016 Stephen Woodbridge <woodbri@imaptools.com>"; " *"; " * This is free software; you can redistribute and/or modify it under";
   " * the terms of the MIT License. Please file LICENSE for details."; " *"; " ***************************************************ADDRESS_STANDARDIZER**/"]%string).
