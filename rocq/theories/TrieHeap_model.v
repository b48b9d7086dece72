(** src/trieutf8.h, src/trieutf8.cpp (and src/trie.h, src/trie.cpp, which differ in the type of the keys only) with the
    nodes in memory: new, the pointers in the maps, delete.  Words are sequences of keys. *)
From Coq Require Import String List NArith Bool.
From Verif Require Import Base_model Trie_model.
Import ListNotations.
Local Open Scope N_scope.

(** How an operation ends: with a value, with an access to memory that is not allocated (or NULL), or not within the
    given depth. *)
Inductive mres (A : Type) : Type := MDone (a : A) | MBad | MFuel.
Arguments MDone {A} a.
Arguments MBad {A}.
Arguments MFuel {A}.
Definition mbind {A B} (x : mres A) (f : A -> mres B) : mres B :=
  match x with MDone a => f a | MBad => MBad | MFuel => MFuel end.

(** A node, src/trieutf8.h:60-63, src/trie.h:55-58: [_size], [_isEnd], [_children] (sorted by key; NULL is [None]). *)
Record cell := mkCell { n_size : N; n_end : bool; n_kids : list (N * option N) }.
(** The allocated nodes with their addresses. *)
Definition heap := list (N * cell).
Fixpoint hget (p : N) (h : heap) : option cell :=
  match h with [] => None | (q, x) :: h' => if q =? p then Some x else hget p h' end.
Definition hdel (p : N) (h : heap) : heap := filter (fun e => negb (fst e =? p)) h.
Definition hput (p : N) (x : cell) (h : heap) : heap := (p, x) :: hdel p h.
Definition load (h : heap) (p : N) : mres cell := match hget p h with Some x => MDone x | None => MBad end.

(** std::map: find, and operator[] followed by an assignment. *)
Fixpoint cfind (c : N) (l : list (N * option N)) : option (option N) :=
  match l with [] => None | (d, v) :: l' => if d =? c then Some v else cfind c l' end.
Fixpoint cset (c : N) (v : option N) (l : list (N * option N)) : list (N * option N) :=
  match l with
  | [] => [(c, v)]
  | (d, u) :: l' => if c <? d then (c, v) :: l else if c =? d then (c, v) :: l' else (d, u) :: cset c v l'
  end.

(** [alloc]: the address new returns, given the addresses in use. *)
Section Alloc.
Variable alloc : list N -> N.
Definition h_new (h : heap) (e : bool) : N * heap :=
  let q := alloc (map fst h) in (q, hput q (mkCell 0 e []) h).

(** addWord, src/trieutf8.cpp:23-44, src/trie.cpp:22-43, on the node at [p].  [_children[c]] in the condition inserts NULL
    for a new key; it is overwritten after the recursive call. *)
Fixpoint h_add (w : list N) (h : heap) (p : N) : mres heap :=
  match w with
  | [] => MDone h
  | c :: w' =>
      mbind (load h p) (fun x =>
      let last := match w' with [] => true | _ => false end in
      let h := hput p (mkCell (n_size x + 1) (n_end x) (n_kids x)) h in
      match cfind c (n_kids x) with
      | Some (Some q) =>
          if last then mbind (load h q) (fun y => MDone (hput q (mkCell (n_size y) true (n_kids y)) h))
          else h_add w' h q
      | _ =>
          let h := hput p (mkCell (n_size x + 1) (n_end x) (cset c None (n_kids x))) h in
          let (q, h) := h_new h last in
          mbind (h_add w' h q) (fun h =>
          mbind (load h p) (fun y => MDone (hput p (mkCell (n_size y) (n_end y) (cset c (Some q) (n_kids y))) h)))
      end)
  end.
Fixpoint h_add_all (ws : list (list N)) (h : heap) (p : N) : mres heap :=
  match ws with [] => MDone h | w :: ws' => mbind (h_add w h p) (fun h => h_add_all ws' h p) end.
(** TrieUtf8 trie; trie.addWord( ... ); ... as in src/lexicon.cpp:389-399. *)
Definition h_build (ws : list (list N)) (h : heap) : mres (N * heap) :=
  let (p, h) := h_new h false in mbind (h_add_all ws h p) (fun h => MDone (p, h)).
(** The copy constructor the compiler makes: the pointers are copied. *)
Definition h_copy (h : heap) (p : N) : mres (N * heap) :=
  mbind (load h p) (fun x => let q := alloc (map fst h) in MDone (q, hput q x h)).
End Alloc.

(** isPrefix and isWord, src/trieutf8.cpp:48-85: [fin] is the answer at the end of the word. *)
Fixpoint h_find (fin : cell -> bool) (w : list N) (h : heap) (p : N) : mres bool :=
  mbind (load h p) (fun x =>
  match w with
  | [] => MDone (fin x)
  | c :: w' => match cfind c (n_kids x) with
               | None => MDone false
               | Some None => MBad
               | Some (Some q) => h_find fin w' h q
               end
  end).
(** What getWords, getWordsStartingWith and getRegexp see of the nodes, src/trieutf8.cpp:89-178: they visit every child
    without asking for NULL. *)
Fixpoint h_tree (fuel : nat) (h : heap) (p : N) : mres trie :=
  match fuel with
  | O => MFuel
  | S f =>
      mbind (load h p) (fun x =>
      mbind ((fix go (l : list (N * option N)) : mres (list (N * trie)) :=
                match l with
                | [] => MDone []
                | (_, None) :: _ => MBad
                | (c, Some q) :: l' => mbind (h_tree f h q) (fun k => mbind (go l') (fun ks => MDone ((c, k) :: ks)))
                end) (n_kids x)) (fun ks => MDone (Node (n_size x) (n_end x) ks)))
  end.
(** The destructor, src/trieutf8.h:41-44, src/trie.h:39-42, and the release of the node itself; deleting NULL does nothing. *)
Fixpoint h_delete (fuel : nat) (h : heap) (p : N) : mres heap :=
  match fuel with
  | O => MFuel
  | S f =>
      mbind (load h p) (fun x =>
      mbind ((fix go (l : list (N * option N)) (h : heap) : mres heap :=
                match l with
                | [] => MDone h
                | (_, None) :: l' => go l' h
                | (_, Some q) :: l' => mbind (h_delete f h q) (go l')
                end) (n_kids x) h) (fun h =>
      mbind (load h p) (fun _ => MDone (hdel p h))))
  end.
