(** The checks of the project's own unit tests (src/test/ of /repo), evaluated on the model.

    Each example below is one BOOST_CHECK / BOOST_REQUIRE of the file named above it, with the same input and the
    expected text copied from the C++ source ([c] reads the escapes \t and \n of a C++ literal).  They say nothing
    general; they show that the model computes what the authors of the code expect of it.

    Not ported: utils-test.cpp (its functions are calls into ICU, which the model takes as oracles [e_nfc], [e_upper]).

    Some expected texts are older than the code at the pinned commit; there the example states what the code does now:
    - inclass-test.cpp:232 expects asType(17) to be BADTOKEN; the code answers UNITT (src/inclass.cpp:168).
    - lexicon-test.cpp:51-58 expects five entries in lex-test.txt; the file has six, and tokenizer-test.cpp:50-58 has
      the current listing.
    - lexicon-test.cpp:131-143 expects patterns that list the words; the code makes them with a trie.
    - rule-test.cpp:82-110 expects three malformed rules to become the empty rule; the constructor throws
      (src/rule.cpp:48-50, [rule_throws]).
    - grammar-test.cpp:103-119 and search-test.cpp:56-72 expect the rule sections sorted by name; they are in a vector
      (src/grammar.h:94) and come in the order of the file ([good_str]).
    - Printed tokens are expected to end with the attachments; the code prints one more column (src/token.cpp,
      operator<<: a tab and inlex), which [token_cols] cuts off. *)
From Coq Require Import String List NArith ZArith Bool.
From Verif Require Import Base_model Class_model Float_model Uni_model Token_model Rule_model Grammar_model Search_model
  Lexicon_model Lexicon_spec Tokenizer_model Sample_model.
Import ListNotations.

(** The text of a C++ literal. *)
Fixpoint c_escapes (t : text) : text :=
  match t with
  | [] => []
  | 92%N :: (116%N :: t') => 9%N :: c_escapes t'
  | 92%N :: (110%N :: t') => 10%N :: c_escapes t'
  | 0xC2%N :: (x :: t') => x :: c_escapes t'
  | x :: t' => x :: c_escapes t'
  end.
Definition c (s : string) : text := c_escapes (s2t s).
(** Several literals in a row. *)
Definition cs (l : list string) : text := List.concat (map c l).

(** [os << float] for scores between 0 and 1: six digits after the point, rounded, without the zeros at the end
    (the default format of streams agrees on the scores used here). *)
Definition micro (f : flt) : N :=
  match f with
  | SpecFloat.S754_finite false m e =>
      Z.to_N (if (0 <=? e)%Z then Zpos m * 2 ^ e * 1000000
              else (Zpos m * 1000000 + 2 ^ (- e - 1)) / 2 ^ (- e))%Z
  | _ => 0%N
  end.
Fixpoint strip_zeros (t : text) : text :=
  match t with [] => [] | x :: t' => match strip_zeros t', N.eqb x 48 with [], true => [] | r, _ => x :: r end end.
Definition pad6 (t : text) : text := repeat 48%N (6 - List.length t) ++ t.
Definition fprint (f : flt) : text :=
  let n := micro f in
  match strip_zeros (pad6 (dec_text (N.modulo n 1000000))) with
  | [] => dec_text (N.div n 1000000)
  | r => dec_text (N.div n 1000000) ++ 46%N :: r
  end.
(** A printed token without its last column. *)
Definition token_cols (k : token) : text := removelast (removelast (token_str k)).
Definition lines {A} (f : A -> text) (l : list A) : text := List.concat (map (fun x => f x ++ [10%N]) l).
Definition is_throw {A} (o : outcome A) : bool := match o with Throw _ => true | _ => false end.
Definition ok {A} (d : A) (o : outcome A) : A := match o with Ok a => a | _ => d end.

(** src/test/lex-test.txt *)
Definition lex_test : list string :=
  ["LEXICON:\tlex-usa.txt\tENG\ten_US\t6\n"; "LEXENTRY:\t°\t°\tUNITH\tATT_SUF,DET_SUF\n";
   "LEXENTRY:\tAK\tAlaska\tPROV\tDETACH\n"; "LEXENTRY:\tAL\tAlabama\tPROV\tDETACH\n";
   "LEXENTRY:\tALLEE\tALY\tTYPE\tDET_SUF\n"; "LEXENTRY:\tALLEY\tALY\tTYPE\tDET_SUF\n";
   "LEXENTRY:\tALLY\tALY\tTYPE\tDET_SUF\n"]%string.
(** src/test/good.grammar *)
Definition good : list string :=
  ["[ADDRESS]\n"; "@AB @CD @EF\n"; "@A @BC @DE\n"; "@CD @EF\n"; "\n"; "[AB]\n";
   "NUMBER WORD -> BLDNG HOUSE -> 0.5\n"; "\n"; "[CD]\n"; "TYPE QUALIF -> PREDIR QUALIF -> 0.5\n"; "\n";
   "[EF]\n"; "ROAD RR -> SUFTYP SUFDIR -> 0.5\n"; "\n"; "[A]\n"; "NUMBER -> BLDNG -> 0.5\n"; "\n";
   "[BC]\n"; "WORD TYPE -> HOUSE PREDIR -> 0.5\n"; "\n"; "[DE]\n";
   "QUALIF ROAD -> QUALIF SUFTYP -> 0.5\n"]%string.
(** src/test/fatal1.grammar *)
Definition fatal1 : list string :=
  ["[ROOT]\n"; "@AB @CD @EF\n"; "@A @BC @DE\n"; "@CD @EF\n"; "\n"; "[AB]\n";
   "NUMBER WORD -> BLDNG HOUSE -> 0.5\n"; "\n"; "[CD]\n"; "TYPE QUALIF -> PREDIR QUALIF -> 0.5\n"; "\n";
   "[EF]\n"; "ROAD RR -> SUFTYP SUFDIR -> 0.5\n"; "\n"; "[A]\n"; "NUMBER -> BLDNG -> 0.5\n"; "\n";
   "[BC]\n"; "WORD TYPE -> HOUSE PREDIR -> 0.5\n"; "\n"; "[DE]\n";
   "QUALIF ROAD -> QUALIF SUFTYP -> 0.5\n"]%string.
(** src/test/fatal2.grammar *)
Definition fatal2 : list string :=
  ["[ADDRESS]\n"; "@AB @CD @EF\n"; "@A @BC @DE\n"; "@CD @EF @XY\n"; "\n"; "[AB]\n";
   "NUMBER WORD -> BLDNG HOUSE -> -0.5\n"; "\n"; "[CD]\n"; "TYPE QUALIF -> PREDIR QUALIF -> 0.5\n";
   "\n"; "[EF]\n"; "ROAD RR -> SUFTYP SUFDIR -> 0.5\n"; "\n"; "[A]\n"; "NUMBER -> BLDNG -> 0.5\n"; "\n";
   "[BC]\n"; "WORD -> HOUSE PREDIR -> 0.5\n"; "\n"; "[DE]\n"; "QUALIF ROAD -> QUALIF SUFTYP -> 0.5\n";
   "\n"; "[XYZ]\n"; "QUALIF ROAD -> QUALIF SUFTYP -> 0.5\n"]%string.
(** src/test/warn.grammar *)
Definition warn : list string :=
  ["[ADDRESS]\n"; "@AB @CD @EF\n"; "@A @BC @DE\n"; "@CD @EF\n"; "\n"; "[AB]\n";
   "NUMBER WORD -> BLDNG HOUSE -> 0.5\n"; "\n"; "[CD]\n"; "TYPE QUALIF -> PREDIR QUALIF -> 0.5\n"; "\n";
   "[EF]\n"; "ROAD RR -> SUFTYP SUFDIR -> 0.5\n"; "\n"; "[A]\n"; "NUMBER -> BLDNG -> 0\n"; "\n";
   "[BC]\n"; "WORD TYPE -> HOUSE PREDIR -> 0.5\n"; "\n"; "[DE]\n";
   "QUALIF ROAD -> QUALIF SUFTYP -> 0.5\n"; "\n"; "[XY]\n"; "QUALIF ROAD -> QUALIF SUFTYP -> 0.5\n"]%string.

(** inclass-test.cpp *)
Example inclass_as_string : map in_str [I_STOP; I_NUMBER; I_WORD; I_TYPE; I_QUALIF; I_ROAD; I_STOPWORD; I_RR; I_DASH;
    I_CITY; I_PROV; I_NATION; I_AMPERS; I_BOXH; I_ORD; I_UNITH; I_SINGLE; I_BUILDH; I_MILE; I_DOUBLE; I_DIRECT; I_MIXED;
    I_BUILDT; I_FRACT; I_PCT; I_PCH; I_QUINT; I_QUAD; I_PUNCT; I_SPACE; I_PLACEN; I_EMDASH; I_BADTOKEN]
  = map c ["STOP"; "NUMBER"; "WORD"; "TYPE"; "QUALIF"; "ROAD"; "STOPWORD"; "RR"; "DASH"; "CITY"; "PROV"; "NATION";
    "AMPERS"; "BOXH"; "ORD"; "UNITH"; "SINGLE"; "BUILDH"; "MILE"; "DOUBLE"; "DIRECT"; "MIXED"; "BUILDT"; "FRACT"; "PCT";
    "PCH"; "QUINT"; "QUAD"; "PUNCT"; "SPACE"; "PLACEN"; "EMDASH"; "BADTOKEN"]%string.
Proof. vm_compute. reflexivity. Qed.
Example inclass_attach_as_string : map att_str [DET_PRE; DET_SUF; ATT_PRE; ATT_SUF] = map c ["DET_PRE"; "DET_SUF";
    "ATT_PRE"; "ATT_SUF"]%string.
Proof. vm_compute. reflexivity. Qed.
Example inclass_as_one_type : map (fun s => as_one_type (c s)) ["STOP"; "NUMBER"; "WORD"; "TYPE"; "QUALIF"; "ROAD";
    "STOPWORD"; "RR"; "DASH"; "CITY"; "PROV"; "NATION"; "AMPERS"; "BOXH"; "ORD"; "UNITH"; "SINGLE"; "BUILDH"; "MILE";
    "DOUBLE"; "DIRECT"; "MIXED"; "BUILDT"; "FRACT"; "PCT"; "PCH"; "QUINT"; "QUAD"; "PUNCT"; "SPACE"; "PLACEN"; "EMDASH";
    "BADTOKEN"; ""; "DET_PRE"]%string
  = [I_STOP; I_NUMBER; I_WORD; I_TYPE; I_QUALIF; I_ROAD; I_STOPWORD; I_RR; I_DASH; I_CITY; I_PROV; I_NATION; I_AMPERS;
    I_BOXH; I_ORD; I_UNITH; I_SINGLE; I_BUILDH; I_MILE; I_DOUBLE; I_DIRECT; I_MIXED; I_BUILDT; I_FRACT; I_PCT; I_PCH;
    I_QUINT; I_QUAD; I_PUNCT; I_SPACE; I_PLACEN; I_EMDASH; I_BADTOKEN; I_BADTOKEN; I_BADTOKEN].
Proof. vm_compute. reflexivity. Qed.
Example inclass_as_attach : map (fun s => aset_str (as_attach (c s))) ["DETACH"; "DET_PRE"; "DET_SUF"; "ATT_PRE"; "ATT_SUF"; "DETACH,DET_PRE,DET_SUF,ATT_PRE,ATT_SUF"; " DETACH ,DET_PRE, DET_SUF , ATT_PRE,ATT_SUF "]%string
  = map c [""; "DET_PRE"; "DET_SUF"; "ATT_PRE"; "ATT_SUF"; "DET_PRE,DET_SUF,ATT_PRE,ATT_SUF";
    "DET_PRE,DET_SUF,ATT_PRE,ATT_SUF"]%string.
Proof. vm_compute. reflexivity. Qed.
Example inclass_as_num : map in_of_code [(-1); 0; 1; 2; 3; 4; 5; 6; 7; 8; 9; 10; 11; 12; 13; 14; 15; 16; 17; 18; 19; 20;
    21; 22; 23; 24; 25; 26; 27; 28; 29; 30; 31; 32; 33; 99]%Z
  = [I_STOP; I_NUMBER; I_WORD; I_TYPE; I_QUALIF; I_BADTOKEN; I_BADTOKEN; I_ROAD; I_STOPWORD; I_RR; I_DASH; I_CITY;
    I_PROV; I_NATION; I_AMPERS; I_BOXH; I_ORD; I_UNITH; I_UNITT; I_SINGLE; I_BUILDH; I_MILE; I_DOUBLE; I_DIRECT;
    I_MIXED; I_BUILDT; I_FRACT; I_PCT; I_PCH; I_QUINT; I_QUAD; I_PUNCT; I_SPACE; I_PLACEN; I_EMDASH; I_BADTOKEN].
Proof. vm_compute. reflexivity. Qed.

(** outclass-test.cpp *)
Example outclass_as_string : map out_str [O_STOP; O_BLDNG; O_HOUSE; O_PREDIR; O_QUALIF; O_PRETYP; O_STREET; O_SUFTYP;
    O_SUFDIR; O_RR; O_EXTRA; O_CITY; O_PROV; O_NATION; O_POSTAL; O_BOXH; O_BOXT; O_UNITH; O_UNITT; O_BADTOKEN]
  = map c ["STOP"; "BLDNG"; "HOUSE"; "PREDIR"; "QUALIF"; "PRETYP"; "STREET"; "SUFTYP"; "SUFDIR"; "RR"; "EXTRA"; "CITY";
    "PROV"; "NATION"; "POSTAL"; "BOXH"; "BOXT"; "UNITH"; "UNITT"; "BADTOKEN"]%string.
Proof. vm_compute. reflexivity. Qed.
Example outclass_as_type : map (fun s => out_as_type (c s)) ["STOP"; "BLDNG"; "HOUSE"; "PREDIR"; "QUALIF"; "PRETYP";
    "STREET"; "SUFTYP"; "SUFDIR"; "RR"; "EXTRA"; "CITY"; "PROV"; "NATION"; "POSTAL"; "BOXH"; "BOXT"; "UNITH"; "UNITT";
    "BADTOKEN"; "FOOBAR"]%string
  = [O_STOP; O_BLDNG; O_HOUSE; O_PREDIR; O_QUALIF; O_PRETYP; O_STREET; O_SUFTYP; O_SUFDIR; O_RR; O_EXTRA; O_CITY;
    O_PROV; O_NATION; O_POSTAL; O_BOXH; O_BOXT; O_UNITH; O_UNITT; O_BADTOKEN; O_BADTOKEN].
Proof. vm_compute. reflexivity. Qed.
Example outclass_as_num : map out_of_code [(-1); 0; 1; 2; 3; 4; 5; 6; 7; 8; 9; 10; 11; 12; 13; 14; 15; 16; 17; 99]%Z
  = [O_STOP; O_BLDNG; O_HOUSE; O_PREDIR; O_QUALIF; O_PRETYP; O_STREET; O_SUFTYP; O_SUFDIR; O_RR; O_EXTRA; O_CITY;
    O_PROV; O_NATION; O_POSTAL; O_BOXH; O_BOXT; O_UNITH; O_UNITT; O_BADTOKEN].
Proof. vm_compute. reflexivity. Qed.
Example inclass_sets :
  iset_str (fold_right iset_insert [] [I_WORD; I_TYPE; I_MIXED; I_EMDASH]) = c "WORD,TYPE,MIXED,EMDASH" /\
  aset_str (fold_right aset_insert [] [DET_SUF; DET_PRE; ATT_SUF]) = c "DET_PRE,DET_SUF,ATT_SUF".
Proof. vm_compute. auto. Qed.

(** lexentry-test.cpp *)
Definition LE (s : string) : lexentry := lexentry_of_line (c s).
Example lexentry_constructors :
  lexentry_str (mkLE [] [] [] []) = c "LEXENTRY:\t\t\t\t" /\
  lexentry_str (lexentry_of_fields (c "FOOBAR") (c "FOOBAR") (c "WORD") (c "DETACH")) = c "LEXENTRY:\tFOOBAR\tFOOBAR\tWORD\t" /\
  lexentry_str (lexentry_of_fields (c "FOOBAR") (c "FOOBAR") (c "WORD,CITY") (c "DET_PRE,DET_SUF"))
    = c "LEXENTRY:\tFOOBAR\tFOOBAR\tWORD,CITY\tDET_PRE,DET_SUF" /\
  lexentry_str (LE "FOOBAR\tFOOBAR\tWORD\tDETACH") = c "LEXENTRY:\tFOOBAR\tFOOBAR\tWORD\t" /\
  lexentry_str (LE "LEXENTRY:\tFOOBAR\tFOOBAR\tWORD\tDETACH") = c "LEXENTRY:\tFOOBAR\tFOOBAR\tWORD\t" /\
  lexentry_str (LE "LEXENTRY:\tFOOBAR\tFOOBAR\tWORD,CITY\tDETACH") = c "LEXENTRY:\tFOOBAR\tFOOBAR\tWORD,CITY\t" /\
  lexentry_str (LE "LEXENTRY:\tFOOBAR\tFOOBAR\tCITY,WORD\tDET_PRE,DET_SUF")
    = c "LEXENTRY:\tFOOBAR\tFOOBAR\tWORD,CITY\tDET_PRE,DET_SUF".
Proof. vm_compute. repeat split. Qed.
Definition le_flags (e : lexentry) : list bool :=
  [is_pre e; is_suf e; is_attached e; is_detached e; is_prefix_att e; is_suffix_att e].
Example lexentry_getters :
  let e := LE "LEXENTRY:\tFOO\tFOOBAR\tWORD,CITY\tDET_PRE,DET_SUF" in
  let e2 := LE "FOO\tFOOBAR\tWORD,CITY\tATT_PRE,DET_SUF" in
  lexentry_str e = c "LEXENTRY:\tFOO\tFOOBAR\tWORD,CITY\tDET_PRE,DET_SUF" /\
  le_word e = c "FOO" /\ le_std e = c "FOOBAR" /\ iset_str (le_type e) = c "WORD,CITY" /\
  aset_str (le_att e) = c "DET_PRE,DET_SUF" /\ le_flags e = [true; true; false; true; false; false] /\
  lexentry_str e2 = c "LEXENTRY:\tFOO\tFOOBAR\tWORD,CITY\tDET_SUF,ATT_PRE" /\
  le_word e2 = c "FOO" /\ le_std e2 = c "FOOBAR" /\ iset_str (le_type e2) = c "WORD,CITY" /\
  aset_str (le_att e2) = c "DET_SUF,ATT_PRE" /\ le_flags e2 = [true; true; true; true; true; false] /\
  le_eqb e e2 = false /\ le_eqb e (LE "LEXENTRY:\tFOO\tFOOBAR\tWORD,CITY\tDET_PRE,DET_SUF") = true.
Proof. vm_compute. repeat split. Qed.
Example lexentry_set :
  lexentry_str (le_set (mkLE [] [] [] []) (c "FOOBAR") (c "FOOBAR") I_WORD) = c "LEXENTRY:\tFOOBAR\tFOOBAR\tWORD\t".
Proof. vm_compute. reflexivity. Qed.

(** lexicon-test.cpp *)
Definition test_lex : outcome lexicon := load_lexicon ascii_env (c "text-lexicon-2") (cs lex_test).
Definition the_lex : lexicon := ok (new_lexicon []) test_lex.
Definition lexi : text := cs
  ["LEXICON:\ttext-lexicon-2\tENG\ten_US\t6\n";
   "LEXENTRY:\tAK\tALASKA\tPROV\t\n";
   "LEXENTRY:\tAL\tALABAMA\tPROV\t\n";
   "LEXENTRY:\tALLEE\tALY\tTYPE\tDET_SUF\n";
   "LEXENTRY:\tALLEY\tALY\tTYPE\tDET_SUF\n";
   "LEXENTRY:\tALLY\tALY\tTYPE\tDET_SUF\n";
   "LEXENTRY:\t°\t°\tUNITH\tDET_SUF,ATT_SUF\n"]%string.
Example lexicon_constructors :
  lexicon_str (new_lexicon []) = c "LEXICON:\t\tUNKNOWN\t\t0\n" /\
  lexicon_str (new_lexicon (c "test-lexicon")) = c "LEXICON:\ttest-lexicon\tUNKNOWN\t\t0\n" /\
  exists x, test_lex = Ok x /\ lexicon_str x = lexi.
Proof. vm_compute. repeat split. eexists. split; reflexivity. Qed.
Example lexicon_getters :
  let x := the_lex in
  x_name x = c "text-lexicon-2" /\ x_lang x = L_ENG /\ s2t (lang_code (x_lang x)) = c "ENG" /\
  s2t (lang_name (x_lang x)) = c "ENGLISH" /\ x_locale x = c "en_US" /\
  map lexentry_str (lex_find x (c "ALLEE")) = [c "LEXENTRY:\tALLEE\tALY\tTYPE\tDET_SUF"] /\
  (* not the texts of the stale checks *)
  fst (lex_regex x) = c "(?:A(?:L(?:L(?:E[EY]|Y))?|K)|°)|" /\ fst (lex_pre x) = c "^(?:)\B" /\ fst (lex_suf x) = c "°".
Proof. vm_compute. repeat split. Qed.
Example lexicon_mutators :
  let y := mkLex (c "test-lexicon-2") (as_lang (c "ENG")) (c "en_US") [] [] [] [] [] in
  let le1 := LE "LEXENTRY:\tFOOBAR\tFOOBAR\tNUMBER\tDET_PRE,DET_SUF" in
  let le2 := LE "LEXENTRY:\tCHELMSFORD\tCHELMSFORD\tWORD,CITY\tDETACH" in
  let y1 := lex_insert y le1 in
  let y2 := lex_insert y1 le2 in
  let tok := token_of_text (c "FOOBAR\tFOOBAR\t\tBADTOKEN\t") in
  let tok2 := token_of_text (c "TOKEN:\tFOOFOO\tFOOFOO\t\tBADTOKEN\t") in
  lexicon_str (mkLex (c "test-lexicon-2") L_GER (c "de_DE") [] [] [] [] []) = c "LEXICON:\ttest-lexicon-2\tGER\tde_DE\t0\n" /\
  lexicon_str y = c "LEXICON:\ttest-lexicon-2\tENG\ten_US\t0\n" /\
  lexicon_str y1 = c "LEXICON:\ttest-lexicon-2\tENG\ten_US\t1\nLEXENTRY:\tFOOBAR\tFOOBAR\tNUMBER\tDET_PRE,DET_SUF\n" /\
  lexicon_str y2 = c "LEXICON:\ttest-lexicon-2\tENG\ten_US\t2\nLEXENTRY:\tCHELMSFORD\tCHELMSFORD\tWORD,CITY\t\nLEXENTRY:\tFOOBAR\tFOOBAR\tNUMBER\tDET_PRE,DET_SUF\n" /\
  token_cols tok = c "TOKEN:\tFOOBAR\tFOOBAR\t\tBADTOKEN\t" /\
  token_cols (classify ascii_uni y2 tok I_WORD) = c "TOKEN:\tFOOBAR\tFOOBAR\tNUMBER\tBADTOKEN\t" /\
  token_cols tok2 = c "TOKEN:\tFOOFOO\tFOOFOO\t\tBADTOKEN\t" /\
  token_cols (classify ascii_uni y2 tok2 I_WORD) = c "TOKEN:\tFOOFOO\tFOOFOO\tWORD\tBADTOKEN\t" /\
  lexicon_str (lex_remove y2 le1) = c "LEXICON:\ttest-lexicon-2\tENG\ten_US\t1\nLEXENTRY:\tCHELMSFORD\tCHELMSFORD\tWORD,CITY\t\n".
Proof. vm_compute. repeat split. Qed.

(** token-test.cpp *)
Definition T (s : string) : token := token_of_text (c s).
Example token_constructors :
  token_cols empty_token = c "TOKEN:\t\t\t\tBADTOKEN\t" /\
  token_cols (T "TOKEN:\tFOOBAR\tFOOBAR\tWORD\tBADTOKEN\tDETACH") = c "TOKEN:\tFOOBAR\tFOOBAR\tWORD\tBADTOKEN\t" /\
  token_cols (T "FOOBAR\tFOOBAR\tWORD\tBADTOKEN\tDETACH") = c "TOKEN:\tFOOBAR\tFOOBAR\tWORD\tBADTOKEN\t".
Proof. vm_compute. repeat split. Qed.
Example token_getters :
  let t := T "TOKEN:\tFOO\tFOOBAR\tWORD,TYPE\tBADTOKEN\tDET_PRE,DET_SUF" in
  token_cols t = c "TOKEN:\tFOO\tFOOBAR\tWORD,TYPE\tBADTOKEN\tDET_PRE,DET_SUF" /\
  t_text t = c "FOO" /\ t_std t = c "FOOBAR" /\ iset_str (t_in t) = c "WORD,TYPE" /\
  aset_str (t_att t) = c "DET_PRE,DET_SUF" /\ out_str (t_out t) = c "BADTOKEN" /\
  is_in_class_set t [I_BADTOKEN; I_DASH; I_EMDASH] = false /\
  is_in_class_set t [I_BADTOKEN; I_WORD; I_DASH; I_EMDASH] = true /\
  is_in_class_set t [] = false /\ is_in_class_set t [I_TYPE] = true /\ is_in_class_set t [I_WORD; I_TYPE] = true /\
  is_in_class_set t [I_WORD; I_TYPE; I_EMDASH] = true.
Proof. vm_compute. repeat split. Qed.
Example token_setters :
  let t := add_in (add_in (set_std (set_text empty_token (c "FOO")) (c "FOOBAR")) I_TYPE) I_WORD in
  let t' := mkToken (c "FOO") (c "FOOBAR") (as_type (c "TYPE,WORD")) O_BADTOKEN (as_attach (c "DET_SUF,DET_PRE")) false in
  iset_str (t_in t) = c "WORD,TYPE" /\ t_text t = c "FOO" /\ t_std t = c "FOOBAR" /\
  token_cols t' = c "TOKEN:\tFOO\tFOOBAR\tWORD,TYPE\tBADTOKEN\tDET_PRE,DET_SUF" /\
  token_cols (set_out t' O_EXTRA) = c "TOKEN:\tFOO\tFOOBAR\tWORD,TYPE\tEXTRA\tDET_PRE,DET_SUF".
Proof. vm_compute. repeat split. Qed.
Example token_enumerate :
  lines (fun v => List.concat (map (fun e => in_str e ++ c "  ") v))
    (enumerate (map T
      ["TOKEN:\t11\t\tNUMBER\tBADTOKEN\t"; "TOKEN:\tRADCLIFF\t\tWORD\tBADTOKEN\t"; "TOKEN:\tRD\t\tTYPE\tBADTOKEN\t";
       "TOKEN:\tNORTH\t\tDIRECT,WORD\tBADTOKEN\t"; "TOKEN:\tCHELMSFORD\t\tWORD\tBADTOKEN\t"; "TOKEN:\tMA\t\tPROV\tBADTOKEN\t";
       "TOKEN:\t01863\t\tNUMBER,QUINT\tBADTOKEN\t"; "TOKEN:\t2313\t\tNUMBER,QUAD\tBADTOKEN\t"; "TOKEN:\tUSA\t\tNATION\tBADTOKEN\t"]%string))
  = cs
      ["NUMBER  WORD  TYPE  WORD  WORD  PROV  NUMBER  NUMBER  NATION  \n";
       "NUMBER  WORD  TYPE  WORD  WORD  PROV  NUMBER  QUAD  NATION  \n";
       "NUMBER  WORD  TYPE  WORD  WORD  PROV  QUINT  NUMBER  NATION  \n";
       "NUMBER  WORD  TYPE  WORD  WORD  PROV  QUINT  QUAD  NATION  \n";
       "NUMBER  WORD  TYPE  DIRECT  WORD  PROV  NUMBER  NUMBER  NATION  \n";
       "NUMBER  WORD  TYPE  DIRECT  WORD  PROV  NUMBER  QUAD  NATION  \n";
       "NUMBER  WORD  TYPE  DIRECT  WORD  PROV  QUINT  NUMBER  NATION  \n";
       "NUMBER  WORD  TYPE  DIRECT  WORD  PROV  QUINT  QUAD  NATION  \n"]%string.
Proof. vm_compute. reflexivity. Qed.

(** tokenizer-test.cpp *)
Definition tokens_str (z : tokenizer) (s : string) : text := lines token_cols (ok [] (get_tokens ascii_env z (c s))).
Definition tz : tokenizer := mkTz the_lex [].
Definition dackon : string := "11 Dackon Allee Podunk AL 12345".
Definition expect1 : text := cs
  ["TOKEN:\t11\t\tNUMBER\tBADTOKEN\t\n"; "TOKEN:\t \t\tSPACE\tBADTOKEN\t\n"; "TOKEN:\tDACKON\t\tWORD\tBADTOKEN\t\n";
   "TOKEN:\t \t\tSPACE\tBADTOKEN\t\n"; "TOKEN:\tALLEE\t\tTYPE\tBADTOKEN\t\n"; "TOKEN:\t \t\tSPACE\tBADTOKEN\t\n";
   "TOKEN:\tPODUNK\t\tWORD\tBADTOKEN\t\n"; "TOKEN:\t \t\tSPACE\tBADTOKEN\t\n"; "TOKEN:\tAL\t\tPROV\tBADTOKEN\t\n";
   "TOKEN:\t \t\tSPACE\tBADTOKEN\t\n"; "TOKEN:\t12345\t\tNUMBER,QUINT\tBADTOKEN\t\n"]%string.
Definition expect2 : text := cs
  ["TOKEN:\t11\t\tNUMBER\tBADTOKEN\t\n"; "TOKEN:\tDACKON\t\tWORD\tBADTOKEN\t\n"; "TOKEN:\tALLEE\t\tTYPE\tBADTOKEN\t\n";
   "TOKEN:\tPODUNK\t\tWORD\tBADTOKEN\t\n"; "TOKEN:\tAL\t\tPROV\tBADTOKEN\t\n"; "TOKEN:\t12345\t\tNUMBER,QUINT\tBADTOKEN\t\n"]%string.
Definition expect3 : text := cs
  ["TOKEN:\t11\t\tNUMBER\tBADTOKEN\t\n"; "TOKEN:\tDACKON\t\tWORD\tBADTOKEN\t\n"; "TOKEN:\tALLEE\t\tTYPE\tBADTOKEN\t\n";
   "TOKEN:\tPODUNK\t\tWORD\tBADTOKEN\t\n"; "TOKEN:\tAL\t\tPROV\tBADTOKEN\t\n"]%string.
Example tokenizer_testing1 :
  let z1 := add_filter tz I_SPACE in
  let z2 := add_filter z1 I_QUINT in
  let z3 := remove_filter z2 I_QUINT in
  tokens_str tz dackon = expect1 /\ tokens_str tz "" = [] /\ tokens_str z1 dackon = expect2 /\
  tokens_str z2 dackon = expect3 /\ map in_str (z_filter z2) = [c "QUINT"; c "SPACE"] /\
  tokens_str z3 dackon = expect2 /\ tokens_str (remove_filter z3 I_PROV) dackon = expect2 /\
  tokens_str (clear_filter z3) dackon = expect1 /\ tokens_str (set_filter (clear_filter z3) (z_filter z2)) dackon = expect3 /\
  lexicon_str (z_lex tz) = lexi.
Proof. vm_compute. repeat split. Qed.
Definition tz0 : tokenizer := mkTz (new_lexicon []) [].
Definition radcliff : string := "11 radcliff rd north chelmsford ma 01863".
Definition expect4 : text := cs
  ["TOKEN:\t11\t\tNUMBER\tBADTOKEN\t\n"; "TOKEN:\t \t\tSPACE\tBADTOKEN\t\n"; "TOKEN:\tRADCLIFF\t\tWORD\tBADTOKEN\t\n";
   "TOKEN:\t \t\tSPACE\tBADTOKEN\t\n"; "TOKEN:\tRD\t\tWORD,DOUBLE\tBADTOKEN\t\n"; "TOKEN:\t \t\tSPACE\tBADTOKEN\t\n";
   "TOKEN:\tNORTH\t\tWORD\tBADTOKEN\t\n"; "TOKEN:\t \t\tSPACE\tBADTOKEN\t\n"; "TOKEN:\tCHELMSFORD\t\tWORD\tBADTOKEN\t\n";
   "TOKEN:\t \t\tSPACE\tBADTOKEN\t\n"; "TOKEN:\tMA\t\tWORD,DOUBLE\tBADTOKEN\t\n"; "TOKEN:\t \t\tSPACE\tBADTOKEN\t\n";
   "TOKEN:\t01863\t\tNUMBER,QUINT\tBADTOKEN\t\n"]%string.
Definition expect5 : text := cs
  ["TOKEN:\t11\t\tNUMBER\tBADTOKEN\t\n"; "TOKEN:\tRADCLIFF\t\tWORD\tBADTOKEN\t\n"; "TOKEN:\tRD\t\tWORD,DOUBLE\tBADTOKEN\t\n";
   "TOKEN:\tNORTH\t\tWORD\tBADTOKEN\t\n"; "TOKEN:\tCHELMSFORD\t\tWORD\tBADTOKEN\t\n"; "TOKEN:\tMA\t\tWORD,DOUBLE\tBADTOKEN\t\n";
   "TOKEN:\t01863\t\tNUMBER,QUINT\tBADTOKEN\t\n"]%string.
Definition expect6 : text := cs
  ["TOKEN:\t11\t\tNUMBER\tBADTOKEN\t\n"; "TOKEN:\tRADCLIFF\t\tWORD\tBADTOKEN\t\n"; "TOKEN:\tRD\t\tWORD,DOUBLE\tBADTOKEN\t\n";
   "TOKEN:\tNORTH\t\tWORD\tBADTOKEN\t\n"; "TOKEN:\tCHELMSFORD\t\tWORD\tBADTOKEN\t\n"; "TOKEN:\tMA\t\tWORD,DOUBLE\tBADTOKEN\t\n"]%string.
Example tokenizer_testing2 :
  let z1 := add_filter tz0 I_SPACE in
  let z2 := add_filter z1 I_QUINT in
  let z3 := remove_filter z2 I_QUINT in
  tokens_str tz0 radcliff = expect4 /\ tokens_str tz0 "" = [] /\ tokens_str z1 radcliff = expect5 /\
  tokens_str z2 radcliff = expect6 /\ map in_str (z_filter z2) = [c "QUINT"; c "SPACE"] /\
  tokens_str z3 radcliff = expect5 /\ tokens_str (remove_filter z3 I_PROV) radcliff = expect5 /\
  tokens_str (clear_filter z3) radcliff = expect4 /\ tokens_str (set_filter (clear_filter z3) (z_filter z2)) radcliff = expect6.
Proof. vm_compute. repeat split. Qed.

(** rule-test.cpp *)
Definition R (s : string) : rule := ok empty_rule (rule_parse sample_atof (c s)).
Definition shown (s : string) (t : string) : Prop := exists r, rule_parse sample_atof (c s) = Ok r /\ rule_str fprint r = c t.
Definition rule_empty (r : rule) : bool := match r_in r with [] => true | _ => false end.
Example rule_constructors :
  rule_str fprint empty_rule = c "-> -> 0" /\ rule_empty empty_rule = true /\
  shown "NUMBER WORD TYPE -> HOUSE STREET SUFTYP -> 0.2" "NUMBER WORD TYPE -> HOUSE STREET SUFTYP -> 0.2" /\
  shown " NUMBER   WORD TYPE  ->  HOUSE STREET  SUFTYP -> 0.2" "NUMBER WORD TYPE -> HOUSE STREET SUFTYP -> 0.2".
Proof. unfold shown. repeat match goal with |- _ /\ _ => split end; try (vm_compute; reflexivity); eexists; split; vm_compute; reflexivity. Qed.
Example rule_throws :
  map (fun s => is_throw (rule_parse sample_atof (c s)))
    [" -> -> 0.0"; "@micro @macro"; "NUMBER WORD -> HOUSE STREET SUFTYP -> 0.2"]%string = [true; true; true].
Proof. vm_compute. reflexivity. Qed.
Example rule_getters :
  let r := R "NUMBER WORD TYPE -> HOUSE STREET SUFTYP -> 0.2" in
  List.length (r_in r) = 3%nat /\ List.length (r_out r) = 3%nat /\ fprint (r_score r) = c "0.2" /\ rule_valid r = true /\ rule_empty r = false.
Proof. vm_compute. repeat split. Qed.
Example rule_mutators :
  let r := R "NUMBER WORD TYPE -> HOUSE STREET SUFTYP -> 0.2" in
  let r1 := R "WORD PROV NUMBER -> CITY PROV POSTAL -> 0.4" in
  rule_str fprint r1 = c "WORD PROV NUMBER -> CITY PROV POSTAL -> 0.4" /\
  rule_str fprint (rule_concat r r1)
    = c "NUMBER WORD TYPE WORD PROV NUMBER -> HOUSE STREET SUFTYP CITY PROV POSTAL -> 0.3" /\
  rule_str fprint (rule_clear (rule_concat r r1)) = c "-> -> 0" /\ rule_empty (rule_clear (rule_concat r r1)) = true.
Proof. vm_compute. repeat split. Qed.

(** grammar-test.cpp *)
Definition load (l : list string) : outcome loaded := load_grammar ascii_uni sample_atof (cs l).
Definition good_str : text := cs
  ["[ADDRESS]\n"; "@AB @CD @EF\n"; "@A @BC @DE\n"; "@CD @EF\n\n"; "[AB]\n"; "NUMBER WORD -> BLDNG HOUSE -> 0.5\n\n"; "[CD]\n";
   "TYPE QUALIF -> PREDIR QUALIF -> 0.5\n\n"; "[EF]\n"; "ROAD RR -> SUFTYP SUFDIR -> 0.5\n\n"; "[A]\n";
   "NUMBER -> BLDNG -> 0.5\n\n"; "[BC]\n"; "WORD TYPE -> HOUSE PREDIR -> 0.5\n\n"; "[DE]\n";
   "QUALIF ROAD -> QUALIF SUFTYP -> 0.5\n\n"]%string.
Example grammar_fatal_1 : is_throw (load fatal1) = true.
Proof. vm_compute. reflexivity. Qed.
Example grammar_fatal_2 : is_throw (load fatal2) = true.
Proof. vm_compute. reflexivity. Qed.
Example grammar_warn : is_throw (load warn) = true.
Proof. vm_compute. reflexivity. Qed.
Example grammar_good : exists L, load good = Ok L /\ gl_status L = CHECK_OK /\ gl_issues L = [] /\
  grammar_str fprint (gl_grammar L) = good_str.
Proof. eexists. split; [vm_compute; reflexivity|]. vm_compute. repeat split. Qed.

(** search-test.cpp *)
Definition G : grammar := grammar_of (load good).
Definition rules_shown (l : list spath) : text := List.concat (map (fun e => lines (rule_str fprint) (p_rules e)) l).
Definition pat1 : list token := map T
  ["11\t11\tNUMBER\tBADTOKEN\tDETACH"; "OAK\tOAK\tWORD\tBADTOKEN\tDETACH"; "ST\tSTREET\tTYPE\tBADTOKEN\tDETACH";
   "EXT\tEXT\tQUALIF\tBADTOKEN\tDETACH"; "HWY\tHWY\tROAD\tBADTOKEN\tDETACH"]%string.
Definition pat3 : list token := (pat1 ++ [T "RR\tRR\tRR\tBADTOKEN\tDETACH"])%list.
Definition pat4 : list token := map T
  ["11\t11\tNUMBER\tBADTOKEN\tDETACH"; "OAK\tOAK\tWORD\tBADTOKEN\tDETACH"; "ST\tSTREET\tTYPE\tBADTOKEN\tDETACH";
   "HWY\tHWY\tROAD\tBADTOKEN\tDETACH"]%string.
Example search_test_1 : exists l, search G pat1 = Ok l /\ List.length l = 1%nat /\
  rules_shown l = cs ["NUMBER -> BLDNG -> 0.5\n"; "WORD TYPE -> HOUSE PREDIR -> 0.5\n"; "QUALIF ROAD -> QUALIF SUFTYP -> 0.5\n"]%string.
Proof. eexists. split; [vm_compute; reflexivity|]. vm_compute. repeat split. Qed.
Example search_test_2 : exists b, search_best1 G [] pat1 = Ok b /\ fprint (b_score b) = c "0.5" /\
  lines token_cols (b_tokens b) = cs
    ["TOKEN:\t11\t11\tNUMBER\tBLDNG\t\n"; "TOKEN:\tOAK\tOAK\tWORD\tHOUSE\t\n"; "TOKEN:\tST\tSTREET\tTYPE\tPREDIR\t\n";
     "TOKEN:\tEXT\tEXT\tQUALIF\tQUALIF\t\n"; "TOKEN:\tHWY\tHWY\tROAD\tSUFTYP\t\n"]%string.
Proof. eexists. split; [vm_compute; reflexivity|]. vm_compute. repeat split. Qed.
Example search_test_3 : exists l, search G pat3 = Ok l /\ List.length l = 1%nat /\
  rules_shown l = cs ["NUMBER WORD -> BLDNG HOUSE -> 0.5\n"; "TYPE QUALIF -> PREDIR QUALIF -> 0.5\n"; "ROAD RR -> SUFTYP SUFDIR -> 0.5\n"]%string.
Proof. eexists. split; [vm_compute; reflexivity|]. vm_compute. repeat split. Qed.
Example search_test_4 : search G pat4 = Ok [].
Proof. vm_compute. reflexivity. Qed.
