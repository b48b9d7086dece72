(** The scripts of tools/ that read lexicons: load-lex-gmr-files, which writes the SQL file the extension's sample data come from
    (src/Makefile.pg:65-66), and compare-lexicon.

    A text is a list of code points; the scripts work on bytes, but look at ASCII characters only, which are the same.  Shell characters in
    file names are left out: the script hands them to the shell without quoting. *)
From Coq Require Import String List NArith Bool.
From Verif Require Import Base_model.
Import ListNotations.
Local Open Scope N_scope.

(** split(/d/) of Perl without the removal of trailing empty fields (a missing field reads as an empty one where the scripts use it). *)
Fixpoint fields (d : N) (t : text) : list text :=
  match t with
  | [] => [[]]
  | c :: t' => if c =? d then [] :: fields d t' else match fields d t' with p :: ps => (c :: p) :: ps | [] => [[c]] end
  end.
Fixpoint begins (p t : text) : bool :=
  match p, t with
  | [], _ => true
  | a :: p', b :: t' => (a =? b) && begins p' t'
  | _ :: _, [] => false
  end.
Fixpoint contains (p t : text) : bool := begins p t || match t with [] => false | _ :: t' => contains p t' end.

(** ** tools/load-lex-gmr-files *)
(** s/'/''/g, lines 100-101. *)
Definition sql_quote (t : text) : text := flat_map (fun c => if c =? 39 then [39; 39] else [c]) t.
(** The lines of grep and chomp, lines 102-103. *)
Definition header_lines (lex : text) : text := join [LF] (filter (contains (s2t "LEXICON:")) (fields LF lex)).
(** s/^[^_]+_//, line 105: one character at least before the underscore. *)
Fixpoint after_underscore (t : text) : option text :=
  match t with
  | [] => None
  | c :: t' => if c =? 95 then Some t' else after_underscore t'
  end.
Definition drop_language (t : text) : text :=
  match t with
  | c :: _ => if c =? 95 then t else match after_underscore t with Some r => r | None => t end
  | [] => []
  end.
(** lc on bytes, line 106. *)
Definition perl_lc (t : text) : text := map (fun c => if (65 <=? c) && (c <=? 90) then c + 32 else c) t.
(** Lines 102-106. *)
Definition country_code (lex : text) : text := perl_lc (drop_language (nth 3 (fields TAB (header_lines lex)) [])).
(** Line 107. *)
Definition insert_text (country dataset lex gmr : text) : text :=
  s2t "insert into as_config (countrycode, countryname, dataset, lexicon, grammar, filter) values ( '" ++ country_code lex ++ s2t "', '" ++ country ++
  s2t "', '" ++ dataset ++ s2t "', '" ++ sql_quote lex ++ s2t "', '" ++ sql_quote gmr ++ s2t "', 'PUNCT,SPACE,DASH' );" ++ [LF].
(** createTable, lines 73-88. *)
Definition create_text : text :=
  s2t "drop table if exists as_config cascade;" ++ [LF] ++ s2t "create table as_config (" ++ [LF] ++ s2t "    id serial not null primary key," ++ [LF] ++
  s2t "    countrycode char(2)," ++ [LF] ++ s2t "    countryname text," ++ [LF] ++ s2t "    dataset text," ++ [LF] ++ s2t "    lexicon text," ++ [LF] ++
  s2t "    clexicon text," ++ [LF] ++ s2t "    grammar text," ++ [LF] ++ s2t "    filter text" ++ [LF] ++ s2t ");" ++ [LF].
(** A lexicon found by File::Find: its country (the basename), its text, and the text of the grammar beside it if there is one; lines 67-70 and 90-112. *)
Record found_file := mkFound { ff_country : text; ff_lex : text; ff_gmr : option text }.
(** The file written, lines 51-62. *)
Definition load_script (create : bool) (dataset : text) (fs : list found_file) : text :=
  s2t "set client_encoding to 'utf8';" ++ [LF] ++ s2t "begin;" ++ [LF] ++
  (match fs with [] => [] | _ => if create then create_text else [] end) ++
  flat_map (fun f => match ff_gmr f with Some g => insert_text (ff_country f) dataset (ff_lex f) g | None => [] end) fs ++
  s2t "update as_config set clexicon=as_compile_lexicon(lexicon);" ++ [LF] ++
  s2t "create index as_config_countrycode_idx on as_config using btree (countrycode);" ++ [LF] ++
  s2t "commit;" ++ [LF] ++ s2t "analyze as_config;" ++ [LF].

(** ** tools/compare-lexicon *)
(** /^\s*$|^\s*#/, lines 18 and 45. *)
Definition perl_space (c : N) : bool := (c =? 32) || ((9 <=? c) && (c <=? 13)).
Fixpoint skipped (l : text) : bool :=
  match l with
  | [] => true
  | c :: l' => if perl_space c then skipped l' else c =? 35
  end.
(** The lines a file is read in; the last one counts if it is not empty. *)
Definition file_lines (t : text) : list text := match rev (fields LF t) with [] :: r => rev r | _ => fields LF t end.
(** The lines after the header, lines 15-38 and 42-66; None where the script dies. *)
Definition lexicon_lines (t : text) : option (list text) :=
  match filter (fun l => negb (skipped l)) (file_lines t) with
  | [] => Some []
  | h :: ls => if begins (s2t "LEXICON:") h then Some ls else None
  end.
(** The hash %a has the one key "key" (lines 33 and 60 write {key}, not {$key}), so that a line of the second file is printed if
    the first file has no entry at all. *)
Definition compare_lexicon (a b : text) : option text :=
  match lexicon_lines a, lexicon_lines b with
  | Some la, Some lb => Some (match la with [] => flat_map (fun l => l ++ [LF]) lb | _ => [] end)
  | _, _ => None
  end.
