(** src/trieutf8.h, src/trieutf8.cpp.  Words are texts (sequences of code points): the code walks over the UTF-8
    bytes with Utf8Iterator, which by C42 delivers exactly the code points, and [it.substr(end)] is the
    encoding of the remaining ones. *)
From Coq Require Import String List NArith Bool.
From Verif Require Import Base_model.
Import ListNotations.
Local Open Scope N_scope.

(** class TrieUtf8, src/trieutf8.h:37-63: [_size], [_isEnd] and the map [_children] (a list sorted by key).
    The nodes in memory are in TrieHeap_model. *)
Inductive trie : Type := Node (size : N) (fin : bool) (kids : list (N * trie)).
Definition t_size (t : trie) : N := match t with Node n _ _ => n end.
Definition t_fin (t : trie) : bool := match t with Node _ e _ => e end.
Definition t_kids (t : trie) : list (N * trie) := match t with Node _ _ k => k end.
(** TrieUtf8(bool end), src/trieutf8.h:40. *)
Definition new_trie (e : bool) : trie := Node 0 e [].

(** [_children.find(c)], [_children[c] = t]. *)
Fixpoint kid_find (c : N) (l : list (N * trie)) : option trie :=
  match l with
  | [] => None
  | (d, t) :: l' => if d =? c then Some t else kid_find c l'
  end.
Fixpoint kid_set (c : N) (t : trie) (l : list (N * trie)) : list (N * trie) :=
  match l with
  | [] => [(c, t)]
  | (d, u) :: l' => if c <? d then (c, t) :: l
                    else if c =? d then (c, t) :: l'
                    else (d, u) :: kid_set c t l'
  end.

(** TrieUtf8::addWord, src/trieutf8.cpp:23-44. *)
Fixpoint add_word (w : text) (t : trie) : trie :=
  match w with
  | [] => t
  | c :: w' =>
      match t with
      | Node n e kids =>
          let k := match kid_find c kids with
                   | Some (Node m e' ks) => match w' with [] => Node m true ks | _ => add_word w' (Node m e' ks) end
                   | None => add_word w' (new_trie (match w' with [] => true | _ => false end))
                   end in
          Node (n + 1) e (kid_set c k kids)
      end
  end.

(** TrieUtf8::isPrefix, src/trieutf8.cpp:48-61. *)
Fixpoint is_prefix (p : text) (t : trie) : bool :=
  match p with
  | [] => true
  | c :: p' => match kid_find c (t_kids t) with Some k => is_prefix p' k | None => false end
  end.

(** TrieUtf8::isWord, src/trieutf8.cpp:65-85. *)
Fixpoint is_word (w : text) (t : trie) : bool :=
  match w with
  | [] => t_fin t
  | c :: w' => match kid_find c (t_kids t) with Some k => is_word w' k | None => false end
  end.

(** WordSet = std::set<std::string>: a sorted list. *)
Fixpoint wset_insert (w : text) (s : list text) : list text :=
  match s with
  | [] => [w]
  | x :: s' => if tltb w x then w :: s else if tltb x w then x :: wset_insert w s' else s
  end.

(** TrieUtf8::getWords, src/trieutf8.cpp:89-100. *)
Fixpoint get_words (t : trie) (sofar : text) (words : list text) : list text :=
  match t with
  | Node _ e kids =>
      (fix go (l : list (N * trie)) (ws : list text) : list text :=
         match l with
         | [] => ws
         | (c, k) :: l' =>
             let tmp := sofar ++ [c] in
             go l' (get_words k tmp (if t_fin k then wset_insert tmp ws else ws))
         end) kids (if e then wset_insert sofar words else words)
  end.

(** TrieUtf8::getWordsStartingWith, src/trieutf8.cpp:104-119. *)
Fixpoint get_words_starting (p : text) (t : trie) (words : list text) (sofar : text) : list text :=
  match p with
  | [] => get_words t sofar words
  | c :: p' => match kid_find c (t_kids t) with
               | Some k => get_words_starting p' k words (sofar ++ [c])
               | None => words
               end
  end.

(** [special], src/trieutf8.cpp:124. *)
Definition special_chars : text := s2t "-.+*~$()[]\|?".
(** TrieUtf8::quoteMeta, src/trieutf8.cpp:123-139: a backslash before every special character. *)
Definition quote_meta (s : text) : text :=
  concat (map (fun c => if existsb (N.eqb c) special_chars then [92; c] else [c]) s).

(** TrieUtf8::getRegexp, src/trieutf8.cpp:143-178. *)
Definition finish_regexp (e : bool) (alt cc : list text) (nkids : nat) : text :=
  let cconly := match alt with [] => true | _ => false end in
  let alt' := match cc with
              | [] => alt
              | [x] => alt ++ [x]
              | _ => alt ++ [s2t "[" ++ concat cc ++ s2t "]"]
              end in
  let result := match alt' with
                | [x] => x
                | _ => s2t "(?:" ++ join (s2t "|") alt' ++ s2t ")"
                end in
  if e && negb (Nat.eqb nkids 0) then
    (if cconly then result ++ s2t "?" else s2t "(?:" ++ result ++ s2t ")?")
  else result.
Fixpoint get_regexp (t : trie) : text :=
  match t with
  | Node _ e kids =>
      if e && Nat.eqb (List.length kids) 0 then []
      else
        let fix go (l : list (N * trie)) (alt cc : list text) : list text * list text :=
          match l with
          | [] => (alt, cc)
          | (c, k) :: l' =>
              let qchar := quote_meta [c] in
              match get_regexp k with
              | [] => go l' alt (cc ++ [qchar])
              | r => go l' (alt ++ [qchar ++ r]) cc
              end
          end in
        let (alt, cc) := go kids [] [] in
        finish_regexp e alt cc (List.length kids)
  end.

(** A trie filled word by word, e.g. src/lexicon.cpp:389-391. *)
Definition trie_of (ws : list text) : trie := fold_left (fun t w => add_word w t) ws (new_trie false).
