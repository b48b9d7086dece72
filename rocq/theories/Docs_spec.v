(** The syntax of grammar files as documented (DOCUMENTATION.md, "Grammar File Format"). *)
From Coq Require Import String List NArith ZArith Floats.SpecFloat.
From Verif Require Import Base_model Class_model Float_model Uni_model Rule_model Search_model Search_spec Grammar_spec.
Import ListNotations.
Local Open Scope N_scope.

(** Words with blanks or tabs between them, and perhaps behind the last one. *)
Definition gap (t : text) : Prop := Forall (fun c => c = 32 \/ c = 9) t.
Inductive spaced : list text -> text -> Prop :=
| sp_one : forall w b, gap b -> spaced [w] (w ++ b)
| sp_more : forall w b ws t, gap b -> b <> [] -> spaced ws t -> spaced (w :: ws) (w ++ b ++ t).
(** identifier := ( LETTER | NUMBER | '_' ){1+} *)
Definition ascii_word (c : N) : Prop := 48 <= c <= 57 \/ 65 <= c <= 90 \/ 97 <= c <= 122.
Definition identifier (n : text) : Prop := n <> [] /\ Forall (fun c => ascii_word c \/ c = 95) n.
(** FLOAT: digits with a decimal point. *)
Definition float_text (s : text) : Prop := s <> [] /\ Forall (fun c => 48 <= c <= 57 \/ c = 46) s.
(** comment := '#' TEXT{0+} NEWLINE; lines without anything. *)
Definition ignored_line (l : text) : Prop := l = [] \/ exists t, l = 35 :: t /\ ~ In 10 t.
(** meta_reference := '@' identifier; a line of one or more. *)
Definition refs_text (ns : list text) (l : text) : Prop :=
  ns <> [] /\ Forall identifier ns /\ spaced (map (fun n => 64 :: n) ns) l.
(** rule := InClass::Type{n} '->' OutClass::Type{n} '->' FLOAT *)
Definition rule_text (r : list intype * list outtype * text) (l : text) : Prop :=
  let '(ins, outs, sc) := r in
  List.length ins = List.length outs /\ float_text sc /\
  spaced (map in_str ins ++ ARROW :: map out_str outs ++ [ARROW; sc]) l.
(** One line for each, with ignored lines anywhere. *)
Inductive lined {A} (f : A -> text -> Prop) : list A -> list text -> Prop :=
| ln_nil : lined f [] []
| ln_skip : forall l xs ls, ignored_line l -> lined f xs ls -> lined f xs (l :: ls)
| ln_line : forall x l xs ls, f x l -> lined f xs ls -> lined f (x :: xs) (l :: ls).
(** rule_group := meta_group | terminal_group; each a header and one or more lines. *)
Inductive body := Refs (l : list (list text)) | Rules (l : list (list intype * list outtype * text)).
Definition body_lines (b : body) (ls : list text) : Prop :=
  match b with
  | Refs l => l <> [] /\ lined refs_text l ls
  | Rules l => l <> [] /\ lined rule_text l ls
  end.
Inductive grammar_lines : list (text * body) -> list text -> Prop :=
| gl_nil : grammar_lines [] []
| gl_skip : forall l gs ls, ignored_line l -> grammar_lines gs ls -> grammar_lines gs (l :: ls)
| gl_group : forall n b bl gs ls, identifier n -> body_lines b bl -> grammar_lines gs ls ->
    grammar_lines ((n, b) :: gs) ((91 :: n ++ [93]) :: bl ++ ls).
(** The text of a file: every line ends with a line feed. *)
Definition file_text (ls : list text) : text := flat_map (fun l => l ++ [10]) ls.

(** What a file stands for. *)
Definition meta_groups (gs : list (text * body)) : list (text * list (list text)) :=
  flat_map (fun g => match snd g with Refs l => [(fst g, l)] | Rules _ => [] end) gs.
Definition rule_groups (atof : text -> spec_float) (gs : list (text * body)) : list rulesection :=
  flat_map (fun g => match snd g with Refs _ => []
    | Rules l => [mkRules (fst g) (map (fun r => mkRule (fst (fst r)) (snd (fst r)) (atof (snd r))) l)] end) gs.
Definition referred (gs : list (text * body)) (n : text) : Prop := exists m l ns, In (m, Refs l) gs /\ In ns l /\ In n ns.
Definition score_of (gs : list (text * body)) (s : text) : Prop := exists m l i o, In (m, Rules l) gs /\ In (i, o, s) l.
(** The root is there, no name is used twice, and every reference leads to a group. *)
Definition complete (gs : list (text * body)) : Prop :=
  In ADDRESS (map fst gs) /\ NoDup (map fst gs) /\ forall n, referred gs n -> In n (map fst gs).
(** ASCII letters, digits and the tab as usual. *)
Definition doc_tables (u : uni) : Prop :=
  ascii_upper_ok u /\ u_space u 9 = true /\ forall c, ascii_word c -> u_word u c = true.
