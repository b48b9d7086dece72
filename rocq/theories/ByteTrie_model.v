(** src/trie.h, src/trie.cpp: the trie over bytes from which TrieUtf8 was made, and the stream output of both.  Words
    are lists of bytes (numbers below 256) here, not of code points.  The class is used by no other part and named in no makefile (src/Makefile.pg:47). *)
From Coq Require Import String List NArith ZArith Bool.
From Verif Require Import Base_model Utf8_model Grammar_model Trie_model.
Import ListNotations.
Local Open Scope N_scope.

(** The members of class Trie, src/trie.h:54-58, are those of TrieUtf8 ([trie]); the keys of [ChildMap],
    src/trie.h:32, are of type char, which is signed on the platforms the project is built on (x86): [std::map]
    lists bytes from 128 on before the others. *)
Definition schar (c : N) : Z := if c <? 128 then Z.of_N c else (Z.of_N c - 256)%Z.

(** [_children[c] = t]. *)
Fixpoint b_kid_set (c : N) (t : trie) (l : list (N * trie)) : list (N * trie) :=
  match l with
  | [] => [(c, t)]
  | (d, u) :: l' => if (schar c <? schar d)%Z then (c, t) :: l
                    else if c =? d then (c, t) :: l'
                    else (d, u) :: b_kid_set c t l'
  end.

(** Trie::addWord, src/trie.cpp:22-41. *)
Fixpoint b_add_word (w : text) (t : trie) : trie :=
  match w with
  | [] => t
  | c :: sub =>
      match t with
      | Node n e kids =>
          let k := match kid_find c kids with
                   | Some (Node m e' ks) => match sub with [] => Node m true ks | _ => b_add_word sub (Node m e' ks) end
                   | None => b_add_word sub (new_trie (match sub with [] => true | _ => false end))
                   end in
          Node (n + 1) e (b_kid_set c k kids)
      end
  end.

(** Trie::isPrefix, src/trie.cpp:45-54. *)
Fixpoint b_is_prefix (p : text) (t : trie) : bool :=
  match p with
  | [] => true
  | c :: p' => match kid_find c (t_kids t) with Some k => b_is_prefix p' k | None => false end
  end.

(** Trie::isWord, src/trie.cpp:58-74. *)
Fixpoint b_is_word (w : text) (t : trie) : bool :=
  match w with
  | [] => t_fin t
  | c :: sub => match kid_find c (t_kids t) with Some k => b_is_word sub k | None => false end
  end.

(** Trie::getWords, src/trie.cpp:78-89.  A [std::string] compares its bytes as unsigned numbers ([wset_insert]). *)
Fixpoint b_get_words (t : trie) (sofar : text) (words : list text) : list text :=
  match t with
  | Node _ e kids =>
      (fix go (l : list (N * trie)) (ws : list text) : list text :=
         match l with
         | [] => ws
         | (c, k) :: l' =>
             let tmp := sofar ++ [c] in
             go l' (b_get_words k tmp (if t_fin k then wset_insert tmp ws else ws))
         end) kids (if e then wset_insert sofar words else words)
  end.

(** Trie::getWordsStartingWith, src/trie.cpp:93-104. *)
Fixpoint b_get_words_starting (p : text) (t : trie) (words : list text) (sofar : text) : list text :=
  match p with
  | [] => b_get_words t sofar words
  | c :: sub => match kid_find c (t_kids t) with
                | Some k => b_get_words_starting sub k words (sofar ++ [c])
                | None => words
                end
  end.

(** Trie::quoteChar, src/trie.cpp:108-115.  Line 114 adds the character's number to the address of the two-byte
    literal "\\": for every special character (the smallest is 36) the sum lies outside of it. *)
Definition b_special : text := s2t "-.+*~$()[]\|?".
Definition quote_char (c : N) : outcome text := if existsb (N.eqb c) b_special then UB else Ok [c].

(** Trie::getRegexp, src/trie.cpp:119-154; lines 139-153 are those of TrieUtf8 ([finish_regexp]). *)
Fixpoint b_get_regexp (t : trie) : outcome text :=
  match t with
  | Node _ e kids =>
      if e && Nat.eqb (List.length kids) 0 then Ok []
      else
        let fix go (l : list (N * trie)) (alt cc : list text) : outcome (list text * list text) :=
          match l with
          | [] => Ok (alt, cc)
          | (c, k) :: l' =>
              obind (quote_char c) (fun qchar =>
              obind (b_get_regexp k) (fun recurse =>
              match recurse with
              | [] => go l' alt (cc ++ [qchar])
              | _ => go l' (alt ++ [qchar ++ recurse]) cc
              end))
          end in
        obind (go kids [] []) (fun ac => Ok (finish_regexp e (fst ac) (snd ac) (List.length kids)))
  end.

(** A trie filled word by word. *)
Definition b_trie_of (ws : list text) : trie := fold_left (fun t w => b_add_word w t) ws (new_trie false).

(** operator<<, src/trie.cpp:158-164: the flag as 0 or 1, the number of additions, the children, a line feed. *)
Definition b_print (t : trie) : text :=
  (if t_fin t then s2t "1" else s2t "0") ++ s2t ", " ++ dec_text (t_size t) ++ s2t ", [" ++
  concat (map (fun ck => [fst ck] ++ s2t " ") (t_kids t)) ++ s2t "]" ++ [LF].
(** operator<<, src/trieutf8.cpp:182-188; the text stands for its UTF-8 form (CodePointToUtf8 throws for numbers
    beyond the code points, C42; none occur in texts). *)
Definition print_trie (t : trie) : text :=
  (if t_fin t then s2t "1" else s2t "0") ++ s2t ", " ++ dec_text (t_size t) ++ s2t ", [" ++
  concat (map (fun ck => [fst ck] ++ s2t " ") (t_kids t)) ++ s2t "]" ++ [LF].
