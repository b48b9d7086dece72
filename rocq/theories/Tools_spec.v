(** Reading SQL: statements, string literals and the rows of an insert; and what a comparison of lexicons is to report. *)
From Coq Require Import String List NArith Bool.
From Verif Require Import Base_model LexFile_spec Tools_model.
Import ListNotations.
Local Open Scope N_scope.

(** A text cut at the semicolons outside string literals; [q] is true inside one. A doubled quote leaves a literal and enters it again. *)
Fixpoint statements (q : bool) (t : text) : list text :=
  match t with
  | [] => [[]]
  | c :: t' =>
      if (c =? 59) && negb q then [] :: statements q t'
      else match statements (if c =? 39 then negb q else q) t' with p :: ps => (c :: p) :: ps | [] => [[c]] end
  end.
(** A string literal without its first quote, the text it stands for, and what comes after it. *)
Inductive literal : text -> text -> text -> Prop :=
| lit_end : forall rest, (forall r, rest <> 39 :: r) -> literal (39 :: rest) [] rest
| lit_char : forall c s v rest, c <> 39 -> literal s v rest -> literal (c :: s) (c :: v) rest
| lit_quote : forall s v rest, literal s v rest -> literal (39 :: 39 :: s) (39 :: v) rest.
(** Literals with a comma and a blank between them, and the end of the row. *)
Inductive row : text -> list text -> Prop :=
| row_last : forall s v, literal s v (s2t " )") -> row (39 :: s) [v]
| row_more : forall s v rest vs, literal s v (44 :: 32 :: rest) -> row rest vs -> row (39 :: s) (v :: vs).
(** An insert statement and the values it has for the columns. *)
Definition inserts (st : text) (vs : list text) : Prop :=
  exists r, st = LF :: s2t "insert into as_config (countrycode, countryname, dataset, lexicon, grammar, filter) values ( " ++ r /\ row r vs.
Definition unquoted (t : text) : Prop := ~ In 39 t.
(** The row for a lexicon and its grammar. *)
Definition row_of (dataset : text) (f : found_file) (g : text) : list text :=
  [country_code (ff_lex f); ff_country f; dataset; ff_lex f; g; s2t "PUNCT,SPACE,DASH"].
(** The statements before the rows and behind them; the script ends with the end of a line. *)
Definition table_stmt : text := s2t "create table as_config (
    id serial not null primary key,
    countrycode char(2),
    countryname text,
    dataset text,
    lexicon text,
    clexicon text,
    grammar text,
    filter text
)".
Definition opening (create : bool) (fs : list found_file) : list text :=
  [s2t "set client_encoding to 'utf8'"; LF :: s2t "begin"] ++
  match fs with [] => [] | _ => if create then [LF :: s2t "drop table if exists as_config cascade"; LF :: table_stmt] else [] end.
Definition closing : list text :=
  [LF :: s2t "update as_config set clexicon=as_compile_lexicon(lexicon)"; LF :: s2t "create index as_config_countrycode_idx on as_config using btree (countrycode)";
   LF :: s2t "commit"; LF :: s2t "analyze as_config"; [LF]].
(** The country codes of the shipped lexicons, in the order of their files. *)
Definition shipped_codes : list text := map s2t
  ["ad"; "au"; "at"; "be"; "ca"; "dk"; "fi"; "fr"; "de"; "uk"; "ie"; "it"; "li"; "lu"; "mc"; "nl"; "nz"; "no"; "pt"; "sm"; "es"; "se"; "ch"; "us"; "it"]%string.

(** The code of a lexicon: of the lines with LEXICON: in them the fourth of the columns at tabs, without what stands before and with the first
    underscore unless that is the first character, in small letters. *)
Inductive marked : list text -> list text -> Prop :=
| mk_nil : marked [] []
| mk_yes : forall a b ls hs, marked ls hs -> marked ((a ++ s2t "LEXICON:" ++ b) :: ls) ((a ++ s2t "LEXICON:" ++ b) :: hs)
| mk_no : forall l ls hs, (forall a b, l <> a ++ s2t "LEXICON:" ++ b) -> marked ls hs -> marked (l :: ls) hs.
Definition country_part (f r : text) : Prop := (exists a, a <> [] /\ ~ In 95 a /\ f = a ++ 95 :: r) \/ (r = f /\ forall a b, a <> [] -> ~ In 95 a -> f <> a ++ 95 :: b).
Definition small (a b : N) : Prop := (65 <= a <= 90 /\ b = a + 32) \/ (~ (65 <= a <= 90) /\ b = a).
Definition code_of (t code : text) : Prop :=
  exists ls hs j cs r, columns 10 t ls /\ marked ls hs /\ (hs = [] /\ j = [] \/ columns 10 j hs) /\ columns 9 j cs /\ country_part (nth 3 cs []) r /\ Forall2 small r code.

(** The word of an entry line: its first column, or the second if the first is the mark LEXENTRY:. *)
Definition entry_word (l w : text) : Prop :=
  exists cs, columns 9 l cs /\ match cs with a :: cs' => (a <> s2t "LEXENTRY:" /\ w = a) \/ (a = s2t "LEXENTRY:" /\ hd_error cs' = Some w) | [] => False end.
(** The lines of a text with something on them that is no comment. *)
Definition telling (l : text) : Prop := exists a c b, l = a ++ c :: b /\ Forall (fun d => d = 32 \/ 9 <= d <= 13) a /\ c <> 35 /\ c <> 32 /\ ~ (9 <= c <= 13).
Inductive keeps : list text -> list text -> Prop :=
| kp_nil : keeps [] []
| kp_yes : forall l ls es, telling l -> keeps ls es -> keeps (l :: ls) (l :: es)
| kp_no : forall l ls es, ~ telling l -> keeps ls es -> keeps (l :: ls) es.
(** The entry lines of a lexicon: the telling lines after the first one, which is the header. *)
Definition entry_lines (t : text) (es : list text) : Prop :=
  exists ls h, columns 10 t ls /\ keeps ls (h :: es) /\ exists r, h = s2t "LEXICON:" ++ r.
(** What the usage text promises: the entries of the second lexicon whose word the first one does not have, and no others. *)
Definition compares (ea eb out : list text) : Prop :=
  forall l w, In l eb -> entry_word l w -> (In l out <-> forall l', In l' ea -> ~ entry_word l' w).
