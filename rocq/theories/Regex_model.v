(** Boost regular expressions (Perl syntax, u32regex), the part used by src/tokenizer.cpp, src/lexicon.cpp and
    produced by TrieUtf8::getRegexp.  Boost is outside the repository: parser and matcher are transcribed from its
    documented behaviour (leftmost match, alternatives tried in order, greedy repeats, multi-line anchors).
    Not modelled: back references, lazy and possessive repeats, bounded repeats other than {n} and {n,m} with
    one-digit bounds (the parser answers [None] on them, as it does on malformed patterns) and the
    complexity limit of the matcher. *)
From Coq Require Import String List NArith Bool Arith.
From Verif Require Import Base_model Uni_model.
Import ListNotations.
Local Open Scope N_scope.

(** Members of a bracket set: characters, ranges, [\s], [\d] = [\p{Nd}], [\w], [[:alpha:]] = [\p{L}], [[:punct:]]. *)
Inductive item : Type := IChr (c : N) | IRange (a b : N) | ISpace | IDigit | IWord | IAlpha | IPunct.
Inductive re : Type :=
| REmpty
| RSet (neg : bool) (l : list item)
| RDot
| RCat (a b : re)
| RAlt (a b : re)
| ROpt (a : re)
| RStar (a : re)
| RPlus (a : re)
| RCap (k : nat) (a : re)
| RNotAhead (a : re)
| RBol
| REol
| RWordStart
| RWordEnd
| RWithin.
(** A single character. *)
Definition RChr (c : N) : re := RSet false [IChr c].

(** ** Parser: a stack machine over the pattern. *)
Inductive gkind : Type := GPlain | GCap (k : nat) | GNot.
(** Current sequence (last atom first, with a flag whether a repeat may follow), finished alternatives (last first),
    enclosing groups, number of capturing groups opened so far. *)
Record pst := mkP {
  p_cur : list (re * bool); p_alts : list re; p_stack : list (gkind * list (re * bool) * list re); p_n : nat }.
Definition p_start : pst := mkP [] [] [] 0.
Definition cat_of (cur : list (re * bool)) : re := fold_right (fun a r => RCat (fst a) r) REmpty (rev cur).
Fixpoint alt_of (l : list re) : re :=
  match l with
  | [] => REmpty
  | [x] => x
  | x :: l' => RAlt x (alt_of l')
  end.
Definition p_finish (s : pst) : re := alt_of (rev (cat_of (p_cur s) :: p_alts s)).
Definition p_push (s : pst) (a : re) (q : bool) : pst := mkP ((a, q) :: p_cur s) (p_alts s) (p_stack s) (p_n s).
Definition p_open (s : pst) (g : gkind) : pst :=
  mkP [] [] ((g, p_cur s, p_alts s) :: p_stack s) (match g with GCap _ => S (p_n s) | _ => p_n s end).
Definition p_close (s : pst) : option pst :=
  match p_stack s with
  | [] => None
  | (g, cur, alts) :: st =>
      let r := p_finish s in
      let a := match g with
               | GPlain => (r, true)
               | GCap k => (RCap k r, true)
               | GNot => (RNotAhead r, false)
               end in
      Some (mkP (a :: cur) alts st (p_n s))
  end.
Definition p_bar (s : pst) : pst := mkP [] (cat_of (p_cur s) :: p_alts s) (p_stack s) (p_n s).
Definition p_repeat (s : pst) (f : re -> re) : option pst :=
  match p_cur s with
  | (a, true) :: cur => Some (mkP ((f a, false) :: cur) (p_alts s) (p_stack s) (p_n s))
  | _ => None
  end.

(** Inside a bracket set or not. *)
Inductive pmode : Type := MNormal | MSet (neg : bool) (l : list item).

Fixpoint starts_with (p t : text) : option text :=
  match p, t with
  | [], _ => Some t
  | _ :: _, [] => None
  | c :: p', d :: t' => if c =? d then starts_with p' t' else None
  end.
(** Pending characters of a multi-character construct that are still to be skipped. *)
Definition ascii_alnum (c : N) : bool := a_alpha c || a_digit c.
Definition class_escape (d : N) : option item :=
  if d =? 115 then Some ISpace else if d =? 100 then Some IDigit else if d =? 119 then Some IWord else None.

(** Bounds of a repeat, one digit each, and the number of characters they take. *)
Definition bounds (t : text) : option (nat * nat * nat) :=
  match t with
  | d :: c :: t' =>
      if negb (a_digit d) then None
      else if c =? 125 then Some (N.to_nat (d - 48), N.to_nat (d - 48), 2%nat)
      else match t' with
           | e :: f :: _ => if (c =? 44) && a_digit e && (f =? 125) && (d <=? e)
                            then Some (N.to_nat (d - 48), N.to_nat (e - 48), 4%nat) else None
           | _ => None
           end
  | _ => None
  end.
(** [n] copies followed by up to [k] more. *)
Fixpoint rep_opt (k : nat) (a : re) : re := match k with O => REmpty | S k' => ROpt (RCat a (rep_opt k' a)) end.
Fixpoint rep (n k : nat) (a : re) : re := match n with O => rep_opt k a | S n' => RCat a (rep n' k a) end.

(** [skip]: characters already consumed by a longer construct ("?:" after a parenthesis, "{L}", "[:alpha:]"). *)
Fixpoint parse_go (skip : nat) (m : pmode) (t : text) (s : pst) : option re :=
  match t with
  | [] => match skip, m, p_stack s with
          | O, MNormal, [] => Some (p_finish s)
          | _, _, _ => None
          end
  | c :: t' =>
      match skip with
      | S k => parse_go k m t' s
      | O =>
          match m with
          | MSet neg l =>
              if c =? 93 then (* ] *)
                match l with [] => None | _ => parse_go 0 MNormal t' (p_push s (RSet neg l) true) end
              else if c =? 91 then (* [ *)
                match starts_with (s2t ":alpha:]") t', starts_with (s2t ":punct:]") t' with
                | Some _, _ => parse_go 8 (MSet neg (l ++ [IAlpha])) t' s
                | _, Some _ => parse_go 8 (MSet neg (l ++ [IPunct])) t' s
                | None, None => None
                end
              else if c =? 92 then (* \ *)
                match t' with
                | [] => None
                | d :: t'' =>
                    match class_escape d with
                    | Some i => parse_go 1 (MSet neg (l ++ [i])) t' s
                    | None =>
                        if d =? 112 then
                          match starts_with (s2t "{L}") t'', starts_with (s2t "{Nd}") t'' with
                          | Some _, _ => parse_go 4 (MSet neg (l ++ [IAlpha])) t' s
                          | _, Some _ => parse_go 5 (MSet neg (l ++ [IDigit])) t' s
                          | None, None => None
                          end
                        else if ascii_alnum d then None
                        else parse_go 1 (MSet neg (l ++ [IChr d])) t' s
                    end
                end
              else if c =? 45 then (* - : literal in front, otherwise a range *)
                match rev l, t' with
                | [], _ => parse_go 0 (MSet neg [IChr c]) t' s
                | IChr a :: l', b :: _ => if ascii_alnum b then parse_go 1 (MSet neg (rev l' ++ [IRange a b])) t' s else None
                | _, _ => None
                end
              else parse_go 0 (MSet neg (l ++ [IChr c])) t' s
          | MNormal =>
              if c =? 92 then
                match t' with
                | [] => None
                | d :: t'' =>
                    match class_escape d with
                    | Some i => parse_go 1 MNormal t' (p_push s (RSet false [i]) true)
                    | None =>
                        if d =? 66 then parse_go 1 MNormal t' (p_push s RWithin false)
                        else if d =? 60 then parse_go 1 MNormal t' (p_push s RWordStart false)
                        else if d =? 62 then parse_go 1 MNormal t' (p_push s RWordEnd false)
                        else if ascii_alnum d || (d =? 39) || (d =? 96) then None
                        else parse_go 1 MNormal t' (p_push s (RChr d) true)
                    end
                end
              else if c =? 40 then (* ( *)
                match starts_with (s2t "?:") t', starts_with (s2t "?!") t', starts_with (s2t "?") t' with
                | Some _, _, _ => parse_go 2 MNormal t' (p_open s GPlain)
                | _, Some _, _ => parse_go 2 MNormal t' (p_open s GNot)
                | _, _, Some _ => None
                | None, None, None => parse_go 0 MNormal t' (p_open s (GCap (S (p_n s))))
                end
              else if c =? 41 then match p_close s with Some s' => parse_go 0 MNormal t' s' | None => None end
              else if c =? 124 then parse_go 0 MNormal t' (p_bar s)
              else if c =? 91 then
                match t' with
                | d :: _ => if d =? 94 then parse_go 1 (MSet true []) t' s else parse_go 0 (MSet false []) t' s
                | [] => None
                end
              else if c =? 63 then match p_repeat s ROpt with Some s' => parse_go 0 MNormal t' s' | None => None end
              else if c =? 42 then match p_repeat s RStar with Some s' => parse_go 0 MNormal t' s' | None => None end
              else if c =? 43 then match p_repeat s RPlus with Some s' => parse_go 0 MNormal t' s' | None => None end
              else if c =? 123 then
                match bounds t' with
                | Some (n, m, k) => match p_repeat s (rep n (m - n)) with Some s' => parse_go k MNormal t' s' | None => None end
                | None => None
                end
              else if c =? 125 then None
              else if c =? 94 then parse_go 0 MNormal t' (p_push s RBol false)
              else if c =? 36 then parse_go 0 MNormal t' (p_push s REol false)
              else if c =? 46 then parse_go 0 MNormal t' (p_push s RDot true)
              else parse_go 0 MNormal t' (p_push s (RChr c) true)
          end
      end
  end.
Definition parse_re (t : text) : option re := parse_go 0 MNormal t p_start.

(** ** Matcher: all ways to match in the order the backtracking tries them. *)
(** Previous character ([None] where the search started), remaining text, captured groups (last first). *)
Record mst := mkM { m_prev : option N; m_rest : text; m_caps : list (nat * text) }.
Definition m_start (t : text) : mst := mkM None t [].

(** Comparison of characters, ignoring case when the pattern was made with regex::icase. *)
Definition ceq (u : uni) (ic : bool) (a b : N) : bool := if ic then u_fold u a =? u_fold u b else a =? b.
Definition item_has (u : uni) (ic : bool) (c : N) (i : item) : bool :=
  match i with
  | IChr d => ceq u ic d c
  | IRange a b => if ic then (u_fold u a <=? u_fold u c) && (u_fold u c <=? u_fold u b) else (a <=? c) && (c <=? b)
  | ISpace => u_space u c
  | IDigit => u_digit u c
  | IWord => u_word u c
  | IAlpha => u_alpha u c
  | IPunct => u_punct u c
  end.
(** Line separators for [^] and [$] on 32-bit characters. *)
Definition is_sep (c : N) : bool :=
  (c =? 10) || (c =? 13) || (c =? 12) || (c =? 0x2028) || (c =? 0x2029) || (c =? 0x85).
Definition m_step (s : mst) (c : N) (t : text) : mst := mkM (Some c) t (m_caps s).
Definition one_char (p : N -> bool) (s : mst) : list mst :=
  match m_rest s with
  | c :: t => if p c then [m_step s c t] else []
  | [] => []
  end.
Definition guard (b : bool) (s : mst) : list mst := if b then [s] else [].
(** match_start_line, match_end_line, match_word_start, match_word_end, match_within_word of boost::regex. *)
Definition at_bol (s : mst) : bool :=
  match m_prev s with
  | None => true
  | Some p => is_sep p && negb ((p =? 13) && match m_rest s with c :: _ => c =? 10 | [] => false end)
  end.
Definition at_eol (s : mst) : bool :=
  match m_rest s with
  | [] => true
  | c :: _ => is_sep c && negb ((c =? 10) && match m_prev s with Some p => p =? 13 | None => false end)
  end.
Definition next_word (u : uni) (s : mst) : bool := match m_rest s with c :: _ => u_word u c | [] => false end.
Definition prev_word (u : uni) (s : mst) : bool := match m_prev s with Some p => u_word u p | None => false end.
Definition at_word_start (u : uni) (s : mst) : bool := next_word u s && negb (prev_word u s).
Definition at_word_end (u : uni) (s : mst) : bool := prev_word u s && negb (next_word u s).
Definition at_within (u : uni) (s : mst) : bool :=
  match m_rest s, m_prev s with
  | c :: _, Some p => Bool.eqb (u_word u c) (u_word u p)
  | _, _ => false
  end.
(** The text between two states of one match. *)
Definition consumed (s s' : mst) : text := firstn (List.length (m_rest s) - List.length (m_rest s')) (m_rest s).

Fixpoint star_of (f : mst -> list mst) (n : nat) (s : mst) : list mst :=
  match n with
  | O => [s]
  | S n' => flat_map (fun s' => if Nat.ltb (List.length (m_rest s')) (List.length (m_rest s))
                                then star_of f n' s' else []) (f s) ++ [s]
  end.
Fixpoint mt (u : uni) (ic : bool) (r : re) (s : mst) : list mst :=
  match r with
  | REmpty => [s]
  | RSet neg l => one_char (fun c => xorb neg (existsb (item_has u ic c) l)) s
  | RDot => one_char (fun _ => true) s
  | RCat a b => flat_map (mt u ic b) (mt u ic a s)
  | RAlt a b => mt u ic a s ++ mt u ic b s
  | ROpt a => mt u ic a s ++ [s]
  | RStar a => star_of (mt u ic a) (List.length (m_rest s)) s
  | RPlus a => flat_map (fun s' => star_of (mt u ic a) (List.length (m_rest s')) s') (mt u ic a s)
  | RCap k a => map (fun s' => mkM (m_prev s') (m_rest s') ((k, consumed s s') :: m_caps s')) (mt u ic a s)
  | RNotAhead a => match mt u ic a s with [] => [s] | _ => [] end
  | RBol => guard (at_bol s) s
  | REol => guard (at_eol s) s
  | RWordStart => guard (at_word_start u s) s
  | RWordEnd => guard (at_word_end u s) s
  | RWithin => guard (at_within u s) s
  end.

(** what[k] of a match; an unmatched group is empty. *)
Fixpoint cap_find (k : nat) (l : list (nat * text)) : text :=
  match l with
  | [] => []
  | (j, t) :: l' => if Nat.eqb j k then t else cap_find k l'
  end.
Definition cap (k : nat) (s : mst) : text := cap_find k (m_caps s).

(** boost::u32regex_match: the first way that ends at the end of the text. *)
Definition match_all (u : uni) (ic : bool) (r : re) (t : text) : option mst :=
  find (fun s => match m_rest s with [] => true | _ => false end) (mt u ic r (m_start t)).
(** boost::u32regex_search: skipped text and first match at the leftmost position that has one. *)
Fixpoint search_from (u : uni) (ic : bool) (r : re) (prev : option N) (t : text) : option (text * mst) :=
  match mt u ic r (mkM prev t []) with
  | s :: _ => Some ([], s)
  | [] => match t with
          | [] => None
          | c :: t' => match search_from u ic r (Some c) t' with
                       | Some (a, s) => Some (c :: a, s)
                       | None => None
                       end
          end
  end.
Definition regex_search (u : uni) (ic : bool) (r : re) (t : text) : option (text * mst) := search_from u ic r None t.

(** make_u32regex throws on a bad pattern. *)
Definition regex_error : text := s2t "regex_error".
Definition u32regex_match (u : uni) (ic : bool) (pat t : text) : outcome bool :=
  match parse_re pat with
  | None => Throw regex_error
  | Some r => Ok (match match_all u ic r t with Some _ => true | None => false end)
  end.
