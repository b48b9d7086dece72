(** Why a grammar text is rejected: the first line that cannot be read, or what is wrong with the sections as a whole. *)
From Coq Require Import String List NArith ZArith Floats.SpecFloat.
From Verif Require Import Base_model Class_model Float_model Uni_model Rule_model Search_model Grammar_model Search_spec Grammar_spec.
Import ListNotations.
Local Open Scope N_scope.

(** Lines that can be read, and their blocks. *)
Definition readable (u : uni) (atof : text -> spec_float) (ls : list text) (bs : list (text * list text)) : Prop :=
  doc u ls [] bs /\ fresh [] bs /\ exists ms rs, defines u atof bs ms rs.
(** The line after them cannot: data in front of the first header; a header repeating a name; a list of references among rules or
    a rule among lists of references; something that is no rule. *)
Inductive fault (u : uni) (atof : text -> spec_float) (bs : list (text * list text)) (l : text) : text -> Prop :=
| ft_outside : bs = [] -> data_line u l -> fault u atof bs l (s2t "Grammar-Syntax-Error")
| ft_repeat : forall n ls, header_line u l n -> In (n, ls) bs -> ls <> [] -> fault u atof bs l (s2t "Grammar-Duplicate-Section_Name")
| ft_mixed : forall bs' n k ls, data_line u l -> bs = bs' ++ [(n, k :: ls)] -> (at_line l <-> ~ at_line k) ->
    fault u atof bs l (s2t "Grammar-Mixing-Rules-and-Metas")
| ft_rule : forall bs' n ls, data_line u l -> bs = bs' ++ [(n, ls)] -> ~ at_line l -> Forall (fun k => ~ at_line k) ls ->
    (forall r, ~ rule_line atof l r) -> fault u atof bs l (s2t "Rule-Not-Valid(" ++ l ++ s2t ")").
Definition stops (u : uni) (atof : text -> spec_float) (ls : list text) (m : text) : Prop :=
  exists pre l post bs, ls = pre ++ l :: post /\ readable u atof pre bs /\ fault u atof bs l m.

(** Byte order marks that cannot be removed. *)
Inductive bad_mark : text -> text -> Prop :=
| bm_alone : forall t, t = [] \/ (exists t', t = 10 :: t') -> bad_mark (0xFEFF :: t) (s2t "basic_string::substr")
| bm_wide : forall d t, 128 <= d -> bad_mark (0xFEFF :: d :: t) (s2t "Invalid UTF-8 sequence").

(** What is reported about the sections as a whole. *)
Definition known (n : text) (l : list text) : bool := if in_dec (list_eq_dec N.eq_dec) n l then true else false.
Definition ref_names (m : metasection) : list text := flat_map (map f_name) (ms_rules m).
Definition missing_lines (ms : list metasection) (rs : list rulesection) : text :=
  flat_map (fun m => flat_map (fun n =>
    if known n (names_of ms rs) then [] else s2t "Missing rule: " ++ n ++ s2t " : referenced at [" ++ ms_name m ++ s2t "]" ++ [10])
    (ref_names m)) ms.
Definition address_line (ms : list metasection) (rs : list rulesection) : text :=
  if known ADDRESS (names_of ms rs) then [] else s2t "Rule 'ADDRESS' is not defined!" ++ [10].
Definition unused_lines (ms : list metasection) (rs : list rulesection) : text :=
  flat_map (fun n => if known n (ADDRESS :: flat_map ref_names ms) then [] else s2t "Rule '" ++ n ++ s2t "' defined by not referenced!" ++ [10])
    (names_of ms rs).
Definition report (ms : list metasection) (rs : list rulesection) : text :=
  missing_lines ms rs ++ address_line ms rs ++ unused_lines ms rs.
