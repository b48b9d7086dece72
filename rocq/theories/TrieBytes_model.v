(** src/trieutf8.cpp over the bytes the program holds.  [Trie_model] takes words as code points; here they are lists of
    bytes (numbers below 256), valid UTF-8 or not, read with the iterator of [Utf8_model] as the source does. *)
From Coq Require Import String List NArith Bool.
From Verif Require Import Base_model Utf8_model Grammar_model Trie_model.
Import ListNotations.
Local Open Scope N_scope.

(** [c = *it; ++it; it.substr(end)], src/trieutf8.cpp:29-31, 54-58, 75-79, 111-113, src/utf8iterator.cpp:33-35. *)
Definition first_code (w : list N) : outcome (N * list N) :=
  obind (it_deref w 0) (fun c => obind (it_next w 0) (fun pos => Ok (c, skipn pos w))).

(** TrieUtf8::addWord, src/trieutf8.cpp:23-44.  [fuel]: the rest is shorter by at least one byte, so the length of the
    word is enough; running out counts as undefined. *)
Fixpoint u_add (fuel : nat) (w : list N) (t : trie) : outcome trie :=
  match w with
  | [] => Ok t
  | _ =>
      match fuel with
      | O => UB
      | S f =>
          obind (first_code w) (fun cw =>
          match t with
          | Node n e kids =>
              obind (match kid_find (fst cw) kids with
                     | Some (Node m e' ks) => match snd cw with [] => Ok (Node m true ks) | _ => u_add f (snd cw) (Node m e' ks) end
                     | None => u_add f (snd cw) (new_trie (match snd cw with [] => true | _ => false end))
                     end)
                    (fun k => Ok (Node (n + 1) e (kid_set (fst cw) k kids)))
          end)
      end
  end.
Definition u_add_word (w : list N) (t : trie) : outcome trie := u_add (List.length w) w t.

(** TrieUtf8::isPrefix, src/trieutf8.cpp:48-61 ([fin] is what an exhausted text answers). *)
Fixpoint u_find (fuel : nat) (fin : trie -> bool) (w : list N) (t : trie) : outcome bool :=
  match w with
  | [] => Ok (fin t)
  | _ =>
      match fuel with
      | O => UB
      | S f => obind (first_code w) (fun cw =>
               match kid_find (fst cw) (t_kids t) with Some k => u_find f fin (snd cw) k | None => Ok false end)
      end
  end.
Definition u_is_prefix (w : list N) (t : trie) : outcome bool := u_find (List.length w) (fun _ => true) w t.
(** TrieUtf8::isWord, src/trieutf8.cpp:65-85. *)
Definition u_is_word (w : list N) (t : trie) : outcome bool := u_find (List.length w) t_fin w t.

(** TrieUtf8::getWords, src/trieutf8.cpp:89-100; [std::set] of strings compares bytes as unsigned numbers. *)
Fixpoint u_get_words (t : trie) (sofar : list N) (words : list (list N)) : outcome (list (list N)) :=
  match t with
  | Node _ e kids =>
      (fix go (l : list (N * trie)) (ws : list (list N)) : outcome (list (list N)) :=
         match l with
         | [] => Ok ws
         | (c, k) :: l' =>
             obind (code_point_to_utf8 c) (fun a =>
             let tmp := sofar ++ a in
             obind (u_get_words k tmp (if t_fin k then wset_insert tmp ws else ws)) (go l'))
         end) kids (if e then wset_insert sofar words else words)
  end.

(** TrieUtf8::getWordsStartingWith, src/trieutf8.cpp:104-119. *)
Fixpoint u_starting (fuel : nat) (p : list N) (t : trie) (words : list (list N)) (sofar : list N) : outcome (list (list N)) :=
  match p with
  | [] => u_get_words t sofar words
  | _ =>
      match fuel with
      | O => UB
      | S f => obind (first_code p) (fun cw =>
               match kid_find (fst cw) (t_kids t) with
               | Some k => obind (code_point_to_utf8 (fst cw)) (fun a => u_starting f (snd cw) k words (sofar ++ a))
               | None => Ok words
               end)
      end
  end.
Definition u_get_words_starting (p : list N) (t : trie) (words : list (list N)) (sofar : list N) : outcome (list (list N)) :=
  u_starting (List.length p) p t words sofar.

(** TrieUtf8::getRegexp, src/trieutf8.cpp:143-178; [quote_meta] (lines 123-139) looks at bytes here. *)
Fixpoint u_get_regexp (t : trie) : outcome (list N) :=
  match t with
  | Node _ e kids =>
      if e && Nat.eqb (List.length kids) 0 then Ok []
      else
        let fix go (l : list (N * trie)) (alt cc : list (list N)) : outcome (list (list N) * list (list N)) :=
          match l with
          | [] => Ok (alt, cc)
          | (c, k) :: l' =>
              obind (code_point_to_utf8 c) (fun a =>
              obind (u_get_regexp k) (fun recurse =>
              match recurse with
              | [] => go l' alt (cc ++ [quote_meta a])
              | _ => go l' (alt ++ [quote_meta a ++ recurse]) cc
              end))
          end in
        obind (go kids [] []) (fun ac => Ok (finish_regexp e (fst ac) (snd ac) (List.length kids)))
  end.

(** operator<<, src/trieutf8.cpp:182-188. *)
Fixpoint u_heads (l : list (N * trie)) : outcome (list N) :=
  match l with
  | [] => Ok []
  | (c, _) :: l' => obind (code_point_to_utf8 c) (fun a => obind (u_heads l') (fun r => Ok (a ++ s2t " " ++ r)))
  end.
Definition u_print (t : trie) : outcome (list N) :=
  obind (u_heads (t_kids t)) (fun h =>
  Ok ((if t_fin t then s2t "1" else s2t "0") ++ s2t ", " ++ dec_text (t_size t) ++ s2t ", [" ++ h ++ s2t "]" ++ [LF])).

(** A trie filled word by word, e.g. src/lexicon.cpp:389-391. *)
Fixpoint u_fill (ws : list (list N)) (t : trie) : outcome trie :=
  match ws with
  | [] => Ok t
  | w :: ws' => obind (u_add_word w t) (u_fill ws')
  end.
Definition u_trie_of (ws : list (list N)) : outcome trie := u_fill ws (new_trie false).
