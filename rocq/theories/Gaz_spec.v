(** Lines of the PAGC tables of words, and the lexicon they are to become. *)
From Coq Require Import String List NArith ZArith.
From Verif Require Import Base_model Class_model Class_spec Uni_model Token_model Lexicon_model LexText_spec LexFile_spec TextOrder_spec Pagc_spec.
Import ListNotations.
Local Open Scope N_scope.

(** A word, the number of its class, and its standard form. *)
Record row := mkRow { w_word : text; w_code : N; w_std : text }.
(** The columns of a line up to the last one that is not empty. *)
Definition used (l : text) (cs : list text) : Prop :=
  exists n, columns 9 l (cs ++ repeat [] n) /\ (cs = [] \/ last cs [] <> []).
(** Four columns: a running number or anything, word, class, standard form. *)
Definition row_line (r : row) (l : text) : Prop := exists a c, used l [a; w_word r; c; w_std r] /\ numeral (w_code r) c.
Definition not_four (l : text) : Prop := exists cs, used l cs /\ List.length cs <> 4%nat.
Inductive row_lines : list row -> list text -> Prop :=
| wl_nil : row_lines [] []
| wl_skip : forall l rs ls, not_four l -> row_lines rs ls -> row_lines rs (l :: ls)
| wl_row : forall r l rs ls, row_line r l -> row_lines rs ls -> row_lines (r :: rs) (l :: ls).
Definition row_file (rs : list row) (t : text) : Prop := exists ls, columns 10 t ls /\ row_lines rs ls.
(** The classes with the numbers of the library. *)
Definition numbered (n : N) (c : intype) : Prop := n <= 33 /\ in_code c = Z.of_N n.
Definition sound (r : row) : Prop := exists c, numbered (w_code r) c.
(** Words a lexicon line keeps as they are. *)
Definition kept_words (e : env) (r : row) : Prop :=
  single_blanks (w_word r) /\ single_blanks (w_std r) /\
  forall cs, settled e (s2t "en_US") (s2t "LEXENTRY:" ++ 9 :: w_word r ++ 9 :: w_std r ++ 9 :: join [44] (map in_str cs) ++ [9]).
(** The entry of a word and a standard form: all the classes of the rows with both. *)
Definition entry_from (rs : list row) (le : lexentry) : Prop :=
  (exists r, In r rs /\ w_word r = le_word le /\ w_std r = le_std le) /\ le_att le = [] /\ is_inset (le_type le) /\
  forall c, In c (le_type le) <-> exists r, In r rs /\ w_word r = le_word le /\ w_std r = le_std le /\ numbered (w_code r) c.
