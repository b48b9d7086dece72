(** The columns of as_standardize and the rows of as_parse, described independently of how they are built. *)
From Coq Require Import List NArith Sorting.Permutation.
From Verif Require Import Base_model Class_model Token_model Float_model Search_model Lexicon_model Lexicon_spec.
Import ListNotations.
Local Open Scope N_scope.

(** The sixteen columns, in the order of the result row. *)
Inductive column := building | house_num | predir | qual | pretype | name | suftype | sufdir | ruralroute | extra
| city | prov | country | postcode | box | unit_no.
Definition columns : list column :=
  [building; house_num; predir; qual; pretype; name; suftype; sufdir; ruralroute; extra; city; prov; country; postcode; box; unit_no].
Definition column_eqb (a b : column) : bool :=
  match a, b with
  | building, building | house_num, house_num | predir, predir | qual, qual | pretype, pretype | name, name
  | suftype, suftype | sufdir, sufdir | ruralroute, ruralroute | extra, extra | city, city | prov, prov | country, country
  | postcode, postcode | box, box | unit_no, unit_no => true
  | _, _ => false
  end.
(** The column of an output class; IGNORE has none. *)
Definition column_of (o : outtype) : option column :=
  match o with
  | O_BLDNG => Some building | O_HOUSE => Some house_num | O_PREDIR => Some predir | O_QUALIF => Some qual
  | O_PRETYP => Some pretype | O_STREET => Some name | O_SUFTYP => Some suftype | O_SUFDIR => Some sufdir
  | O_RR => Some ruralroute | O_CITY => Some city | O_PROV => Some prov | O_NATION => Some country | O_POSTAL => Some postcode
  | O_BOXH | O_BOXT => Some box
  | O_UNITH | O_UNITT => Some unit_no
  | O_STOP | O_EXTRA | O_BADTOKEN => Some extra
  | O_IGNORE => None
  end.
Definition in_column (c : column) (o : outtype) : bool :=
  match column_of o with Some d => column_eqb c d | None => false end.
(** Texts with single blanks between them. *)
Fixpoint blank_joined (ws : list text) : text :=
  match ws with
  | [] => []
  | [w] => w
  | w :: ws' => w ++ 32 :: blank_joined ws'
  end.
Definition field (ws : list text) : option text := match ws with [] => None | _ => Some (blank_joined ws) end.
(** A column for words with their output classes. *)
Definition content (c : column) (l : list (outtype * text)) : option text :=
  field (map snd (filter (fun ow => in_column c (fst ow)) l)).
(** The words tokens contribute. *)
Definition placed (ks : list token) : list (outtype * text) := map (fun k => (t_out k, t_std k)) ks.

(** Row number [n] (from 0) of a parse shows token number [p] of tokenization number [i]. *)
Definition before_count (phrases : list (list token)) (i : nat) : nat := List.length (concat (firstn i phrases)).

(** What std::sort by descending score gives: the same rows, none after one with a lower score. *)
Definition sorted_rows (rows out : list mresult) : Prop :=
  Permutation rows out /\ forall l1 a l2 b l3, out = l1 ++ a :: l2 ++ b :: l3 -> f_lt (m_score a) (m_score b) = false.

(** The standard word for a token read with class [c]: that of the first entry with this class, or what the token has already; the
    text itself if that is empty. *)
Definition or_text (w t : text) : text := match w with [] => t | _ => w end.
Definition standard_of (x : lexicon) (k : token) (c : intype) (w : text) : Prop :=
  (exists l1 le l2, lex_find x (t_text k) = l1 ++ le :: l2 /\ In c (le_type le) /\ (forall f, In f l1 -> ~ In c (le_type f)) /\
     w = or_text (le_std le) (t_text k)) \/
  ((forall f, In f (lex_find x (t_text k)) -> ~ In c (le_type f)) /\ w = or_text (t_std k) (t_text k)).
Inductive standards (x : lexicon) : list token -> list intype -> list text -> Prop :=
| st_nil : standards x [] [] []
| st_cons : forall k c w ks cs ws, standard_of x k c w -> standards x ks cs ws -> standards x (k :: ks) (c :: cs) (w :: ws).

(** Asking a lexicon for one of its patterns, which stores it. *)
Definition asks (o : lexop) : Prop := match o with Regex | Pre | Suf => True | _ => False end.
