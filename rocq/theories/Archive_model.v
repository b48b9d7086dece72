(** The compiled form of a lexicon: the boost text archive written and read by src/lexicon.h:39-66 and
    src/lexentry.h:27-34, and the functions of src/as_wrapper.cpp that use it.
    The archive format is that of boost::archive::text_oarchive: a signature and a library version, then numbers and strings
    each preceded by a blank, a string being its length, a blank and its characters; a class (an object or a container) is
    preceded by its tracking flag and its version where it occurs first; a container is its size, the version of its items and
    the items.  Simplification: lengths count code points, not bytes (writing and reading count alike). *)
From Coq Require Import String List NArith ZArith Bool.
From Verif Require Import Base_model Class_model Uni_model Grammar_model Md5_model Lexicon_model.
Import ListNotations.
Local Open Scope N_scope.

(** ** Writing *)
Definition put_num (z : Z) : text := SP :: match z with Zneg p => 45 :: dec_text (Npos p) | _ => dec_text (Z.to_N z) end.
Definition put_str (s : text) : text := put_num (Z.of_nat (List.length s)) ++ SP :: s.
(** The classes of the members: the map, its items, the vectors, the entries and the two kinds of sets. *)
Inductive cls := C_map | C_item | C_vec | C_entry | C_types | C_atts.
Definition cls_eqb (a b : cls) : bool :=
  match a, b with C_map, C_map | C_item, C_item | C_vec, C_vec | C_entry, C_entry | C_types, C_types | C_atts, C_atts => true | _, _ => false end.
Definition seen (c : cls) (l : list cls) : bool := existsb (cls_eqb c) l.
(** A writer: the classes that have occurred before it, what it writes, the classes that have occurred after it. *)
Definition writer := list cls -> text * list cls.
Definition put (t : text) : writer := fun l => (t, l).
Definition put_class (c : cls) : writer := fun l => if seen c l then ([], l) else (put_num 0 ++ put_num 0, c :: l).
Definition seq (a b : writer) : writer := fun l => let (t, l1) := a l in let (t', l2) := b l1 in (t ++ t', l2).
Fixpoint put_all {A} (f : A -> writer) (xs : list A) : writer :=
  match xs with [] => put [] | x :: xs' => seq (f x) (put_all f xs') end.
(** Size, item version, items. *)
Definition put_items {A} (f : A -> writer) (xs : list A) : writer :=
  seq (put (put_num (Z.of_nat (List.length xs)) ++ put_num 0)) (put_all f xs).
(** LexEntry::serialize, src/lexentry.h:29-34. *)
Definition put_entry (e : lexentry) : writer :=
  seq (put_class C_entry) (seq (put (put_str (le_word e))) (seq (put (put_str (le_std e)))
  (seq (put_class C_types) (seq (put_items (fun c => put (put_num (in_code c))) (le_type e))
  (seq (put_class C_atts) (put_items (fun a => put (put_num (att_code a))) (le_att e))))))).
Definition put_item (kv : text * list lexentry) : writer :=
  seq (put_class C_item) (seq (put (put_str (fst kv))) (seq (put_class C_vec) (put_items put_entry (snd kv)))).
(** InClass::Lang as a number, src/inclass.h:63-143. *)
Fixpoint lang_pos (l : lang) (ls : list lang) (n : Z) : Z :=
  match ls with
  | [] => (-1)%Z
  | l' :: ls' => if String.eqb (lang_code l) (lang_code l') then n else lang_pos l ls' (n + 1)
  end.
Definition lang_num (l : lang) : Z := match l with L_UNKNOWN => (-1)%Z | _ => lang_pos l all_lang 0 end.
(** Lexicon::save, src/lexicon.h:53-64. *)
Definition save (x : lexicon) : writer :=
  seq (put (put_str (x_name x))) (seq (put (put_num (lang_num (x_lang x)))) (seq (put (put_str (x_locale x)))
  (seq (put_class C_map) (seq (put_items put_item (x_lex x))
  (seq (put (put_str (x_regex x))) (seq (put (put_str (x_pre x))) (seq (put (put_str (x_suf x))) (put (put_str (x_md5 x)))))))))).
(** The constructor of the archive and [oa << lex] with a class version, src/as_wrapper.cpp:658-660, src/lexicon.h:133. *)
Definition signature : text := s2t "serialization::archive".
Definition library_version : Z := 17.
Definition lexicon_version : Z := 2.   (* LEXICON_ARCHIVE_VERSION, src/lexicon.h:33 *)
Definition save_archive (version : Z) (x : lexicon) : text :=
  s2t "22 " ++ signature ++ put_num library_version ++ put_num 0 ++ put_num version ++ fst (save x []).

(** ** Reading *)
Definition bad_archive : text := s2t "input stream error".
Definition is_digit (c : N) : bool := (48 <=? c) && (c <=? 57).
Fixpoint read_digits (n : N) (t : text) : N * text :=
  match t with
  | c :: t' => if is_digit c then read_digits (10 * n + (c - 48)) t' else (n, t)
  | [] => (n, [])
  end.
Definition get_unsigned (t : text) : outcome (N * text) :=
  match t with
  | c :: _ => if is_digit c then Ok (read_digits 0 t) else Throw bad_archive
  | [] => Throw bad_archive
  end.
(** operator>> for an int: blanks are skipped, a sign may stand before the digits.
    Simplification: a number too large for its type is read as it is; the library sets failbit. *)
Definition get_num (t : text) : outcome (Z * text) :=
  match drop_space t with
  | c :: t' => if c =? 45 then obind (get_unsigned t') (fun r => Ok ((- Z.of_N (fst r))%Z, snd r))
               else if c =? 43 then obind (get_unsigned t') (fun r => Ok (Z.of_N (fst r), snd r))
               else obind (get_unsigned (c :: t')) (fun r => Ok (Z.of_N (fst r), snd r))
  | [] => Throw bad_archive
  end.
(** A size is unsigned.  Simplification: of a negative number the library makes one near 2^64, with which [resize] and
    [reserve] throw; another exception, and the callers catch all alike. *)
Definition get_size (t : text) : outcome (nat * text) :=
  obind (get_num t) (fun r => if (fst r <? 0)%Z then Throw bad_archive else Ok (Z.to_nat (fst r), snd r)).
(** A string: its size, one character that is skipped, and that many characters.  boost reads them with [is.get()],
    [s.resize(size)] and [is.read(..)] and does not look at the state of the stream: a text that ends too early leaves the
    rest of the string as [resize] made it, NUL characters, and only the next number cannot be read.
    Simplification: the exception of [resize] for a size beyond the memory is not modelled. *)
Definition get_str (t : text) : outcome (text * text) :=
  obind (get_size t) (fun r =>
    match snd r with
    | [] => Ok (repeat 0 (fst r), [])
    | _ :: t' => Ok (firstn (fst r) t' ++ repeat 0 (fst r - List.length t'), skipn (fst r) t')
    end).
(** A reader: the text and the classes that have occurred. *)
Definition reader A := text * list cls -> outcome (A * (text * list cls)).
Definition get {A} (f : text -> outcome (A * text)) : reader A :=
  fun st => obind (f (fst st)) (fun r => Ok (fst r, (snd r, snd st))).
Definition rbind {A B} (a : reader A) (f : A -> reader B) : reader B := fun st => obind (a st) (fun r => f (fst r) (snd r)).
Definition rret {A} (a : A) : reader A := fun st => Ok (a, st).
Definition get_class (c : cls) : reader unit := fun st =>
  if seen c (snd st) then Ok (tt, st)
  else obind (get_num (fst st)) (fun r => obind (get_num (snd r)) (fun r' => Ok (tt, (snd r', c :: snd st)))).
Fixpoint get_all {A} (f : reader A) (n : nat) : reader (list A) :=
  match n with
  | O => rret []
  | S n' => rbind f (fun a => rbind (get_all f n') (fun l => rret (a :: l)))
  end.
Definition get_items {A} (f : reader A) : reader (list A) :=
  rbind (get get_size) (fun n => rbind (get get_num) (fun _ => get_all f n)).
(** Enumerators; a number that is none is an invalid value. *)
Definition enum_of {A} (code : A -> Z) (all : list A) (z : Z) : outcome A :=
  match find (fun a => Z.eqb (code a) z) all with Some a => Ok a | None => UB end.
Definition get_enum {A} (code : A -> Z) (all : list A) (t : text) : outcome (A * text) :=
  obind (get_num t) (fun r => obind (enum_of code all (fst r)) (fun a => Ok (a, snd r))).
Definition get_entry : reader lexentry :=
  rbind (get_class C_entry) (fun _ => rbind (get get_str) (fun w => rbind (get get_str) (fun s =>
  rbind (get_class C_types) (fun _ => rbind (get_items (get (get_enum in_code all_in))) (fun ts =>
  rbind (get_class C_atts) (fun _ => rbind (get_items (get (get_enum att_code all_attach))) (fun la =>
  rret (mkLE w s (fold_left (fun a c => iset_insert c a) ts []) (fold_left (fun a c => aset_insert c a) la []))))))))).
Definition get_item : reader (text * list lexentry) :=
  rbind (get_class C_item) (fun _ => rbind (get get_str) (fun k =>
  rbind (get_class C_vec) (fun _ => rbind (get_items get_entry) (fun l => rret (k, l))))).
(** std::map::insert: an existing key is kept. *)
Definition map_add (m : list (text * list lexentry)) (kv : text * list lexentry) : list (text * list lexentry) :=
  match map_get (fst kv) m with Some _ => m | None => map_put (fst kv) (snd kv) m end.
(** Lexicon::load, src/lexicon.h:39-51; boost rejects versions it does not know before. *)
Definition recompile : text := s2t "Re-compile-lexicon".
Definition load (version : Z) : reader lexicon :=
  if (version <? lexicon_version)%Z then fun _ => Throw recompile
  else if (lexicon_version <? version)%Z then fun _ => Throw (s2t "class version")
  else
  rbind (get get_str) (fun name => rbind (get (get_enum lang_num all_lang)) (fun lg => rbind (get get_str) (fun loc =>
  rbind (get_class C_map) (fun _ => rbind (get_items get_item) (fun items =>
  rbind (get get_str) (fun re => rbind (get get_str) (fun pre => rbind (get get_str) (fun suf => rbind (get get_str) (fun md =>
  rret (mkLex name lg loc (fold_left map_add items []) re pre suf md)))))))))).
(** The constructor of text_iarchive and [ia >> lexicon], src/as_wrapper.cpp:65-66, 311-312, 427-428, 567-568. *)
Definition load_archive (t : text) : outcome lexicon :=
  obind (get_str t) (fun s =>
    if negb (teqb (fst s) signature) then Throw (s2t "invalid signature")
    else obind (get_num (snd s)) (fun v =>
      if (library_version <? fst v)%Z then Throw (s2t "unsupported version")
      else obind (get_num (snd v)) (fun tr => obind (get_num (snd tr)) (fun cv =>
        obind (load (fst cv) (snd cv, [])) (fun r => Ok (fst r)))))).

(** ** The wrapper *)
(** The members of a Lexicon as [ia >> lexicon] changes them one after the other, src/lexicon.h:43-50; an exception leaves
    those read before it as they are.  boost reads a map item by item, each completely before it is inserted.
    [None]: the reading ends with an exception. *)
Definition filler := lexicon -> text * list cls -> lexicon * option (text * list cls).
Definition fill {A} (r : reader A) (f : A -> lexicon -> lexicon) : filler := fun x st =>
  match r st with Ok (a, st') => (f a x, Some st') | _ => (x, None) end.
Definition fill_then (a b : filler) : filler := fun x st =>
  match a x st with (x', Some st') => b x' st' | r => r end.
Fixpoint fill_all (a : filler) (n : nat) : filler :=
  match n with O => fun x st => (x, Some st) | S n' => fill_then a (fill_all a n') end.
Definition fill_items (a : filler) : filler := fun x st =>
  match get get_size st with
  | Ok (n, st') => fill_then (fill (get get_num) (fun _ y => y)) (fill_all a n) x st'
  | _ => (x, None)
  end.
Definition put_name (v : text) (x : lexicon) : lexicon := mkLex v (x_lang x) (x_locale x) (x_lex x) (x_regex x) (x_pre x) (x_suf x) (x_md5 x).
Definition put_lang (v : lang) (x : lexicon) : lexicon := mkLex (x_name x) v (x_locale x) (x_lex x) (x_regex x) (x_pre x) (x_suf x) (x_md5 x).
Definition put_locale (v : text) (x : lexicon) : lexicon := mkLex (x_name x) (x_lang x) v (x_lex x) (x_regex x) (x_pre x) (x_suf x) (x_md5 x).
Definition put_entries (kv : text * list lexentry) (x : lexicon) : lexicon :=
  mkLex (x_name x) (x_lang x) (x_locale x) (map_add (x_lex x) kv) (x_regex x) (x_pre x) (x_suf x) (x_md5 x).
Definition put_regex (v : text) (x : lexicon) : lexicon := mkLex (x_name x) (x_lang x) (x_locale x) (x_lex x) v (x_pre x) (x_suf x) (x_md5 x).
Definition put_pre (v : text) (x : lexicon) : lexicon := mkLex (x_name x) (x_lang x) (x_locale x) (x_lex x) (x_regex x) v (x_suf x) (x_md5 x).
Definition put_suf (v : text) (x : lexicon) : lexicon := mkLex (x_name x) (x_lang x) (x_locale x) (x_lex x) (x_regex x) (x_pre x) v (x_md5 x).
Definition put_md5 (v : text) (x : lexicon) : lexicon := mkLex (x_name x) (x_lang x) (x_locale x) (x_lex x) (x_regex x) (x_pre x) (x_suf x) v.
Definition fill_members : filler :=
  fill_then (fill (get get_str) put_name) (fill_then (fill (get (get_enum lang_num all_lang)) put_lang)
  (fill_then (fill (get get_str) put_locale) (fill_then (fill (get_class C_map) (fun _ x => x)) (fill_then (fill_items (fill get_item put_entries))
  (fill_then (fill (get get_str) put_regex) (fill_then (fill (get get_str) put_pre) (fill_then (fill (get get_str) put_suf)
  (fill (get get_str) put_md5)))))))).
(** What [Lexicon lexicon; ... ia >> lexicon] leaves in [lexicon], src/as_wrapper.cpp:63-66, 563-568: nothing unless the archive
    begins properly. *)
Definition archive_left (t : text) : lexicon :=
  let none := new_lexicon [] in
  match get_str t with
  | Ok s =>
      if negb (teqb (fst s) signature) then none
      else match get_num (snd s) with
           | Ok v =>
               if (library_version <? fst v)%Z then none
               else match get_num (snd v) with
                    | Ok tr => match get_num (snd tr) with
                               | Ok cv => if (fst cv =? lexicon_version)%Z then fst (fill_members none (snd cv, [])) else none
                               | _ => none
                               end
                    | _ => none
                    end
           | _ => none
           end
  | _ => none
  end.
(** Lexicon::initialize, src/lexicon.cpp:67-146, called for a lexicon [x] that has members already: the language is replaced,
    the locale where the header has that column, the entries are added to those of [x], the digest is replaced; the cached
    regular expressions are cleared by the first entry that is inserted (compare [load_lexicon], where [x] is new). *)
Definition load_onto (e : env) (x : lexicon) (src : text) : outcome lexicon :=
  let (is, raw) := getline LF (open_stream src) [] in
  obind (lex_strip_bom raw) (fun line =>
  obind (skip_header (List.length src + 3) is line raw 1) (fun h =>
    let '(is', hline, acc, cnt) := h in
    let (s1, t1) := getline TAB (open_stream hline) [] in
    let (s2, t2) := getline TAB s1 t1 in
    let (s3, t3) := getline TAB s2 t2 in
    let (_, loc) := getline TAB s3 (x_locale x) in
    if teqb t1 (s2t "LEXICON:") || teqb t1 (s2t "Lexicon:") then
      obind (read_entries (List.length src + 3) e is' hline acc (cnt + 1) (put_locale loc (put_lang (as_lang t3) x))) (fun r =>
        Ok (put_md5 (md5_hex (bytes_of (fst r))) (snd r)))
    else Throw (s2t "Lexicon-Invalid-Data-Format: " ++ dec_text (cnt + 1) ++ s2t ": " ++ hline))).
(** getLexiconPtr and the same code in std_standardize, std_parse_address and std_match_address,
    src/as_wrapper.cpp:560-585, 60-81, 305-327, 422-443: a text that cannot be read as an archive is read as a source, into
    the lexicon the archive was read into. *)
Definition query_lex : text := s2t "query-lex".
Definition get_lexicon (e : env) (t : text) : outcome lexicon :=
  match load_archive t with
  | Ok x => Ok x
  | Throw m => if teqb m recompile then Throw m else load_onto e (put_name query_lex (archive_left t)) t
  | UB => UB
  end.
(** serialize_lexicon, src/as_wrapper.cpp:641-671. *)
Definition serialize_lexicon (e : env) (src : text) : outcome text :=
  obind (load_lexicon e query_lex src) (fun x =>
    Ok (save_archive lexicon_version (snd (lex_suf (snd (lex_pre (snd (lex_regex x)))))))).
