(** Rules of PAGC and the grammar they are to become. *)
From Coq Require Import String List NArith ZArith Floats.SpecFloat Permutation Sorted.
From Verif Require Import Base_model Class_model Rule_model Float_model Search_model LexFile_spec LexDiag_spec.
Import ListNotations.
Local Open Scope N_scope.

(** A whole number in decimal digits, perhaps with zeros in front. *)
Definition digits (w : text) : Prop := Forall (fun c => 48 <= c <= 57) w.
Definition worth (w : text) : N := fold_left (fun v c => 10 * v + (c - 48)) w 0.
Definition numeral (n : N) (w : text) : Prop := w <> [] /\ digits w /\ n = worth w.
(** Words with white space between them, and perhaps behind the last one. *)
Definition white (b : text) : Prop := Forall (fun c => c = 32 \/ c = 9 \/ c = 11 \/ c = 12 \/ c = 13) b.
Inductive apart : list text -> text -> Prop :=
| ap_one : forall w b, white b -> apart [w] (w ++ b)
| ap_more : forall w b ws t, white b -> b <> [] -> apart ws t -> apart (w :: ws) (w ++ b ++ t).
(** The codes of the words in and out, the number of the section and the score. *)
Record pagc := mkP { p_ins : list N; p_outs : list N; p_type : N; p_score : N }.
(** A line of a rule: the codes, -1, the codes, -1, section and score. *)
Definition pagc_line (r : pagc) (l : text) : Prop :=
  p_ins r <> [] /\ p_outs r <> [] /\
  exists is os ty sc, Forall2 numeral (p_ins r) is /\ Forall2 numeral (p_outs r) os /\ numeral (p_type r) ty /\ numeral (p_score r) sc /\
    apart (is ++ s2t "-1" :: os ++ [s2t "-1"; ty; sc]) l.
Definition well_formed (r : pagc) : Prop := List.length (p_ins r) = List.length (p_outs r) /\ p_type r <= 4.
(** Lines that count for nothing: those that do not begin with a digit, and rules that are not well formed. *)
Definition no_rule (l : text) : Prop := (forall c t, l = c :: t -> ~ 48 <= c <= 57) \/ exists r, pagc_line r l /\ ~ well_formed r.
Inductive pagc_lines : list pagc -> list text -> Prop :=
| pl_nil : pagc_lines [] []
| pl_skip : forall l rs ls, no_rule l -> pagc_lines rs ls -> pagc_lines rs (l :: ls)
| pl_rule : forall r l rs ls, pagc_line r l -> well_formed r -> pagc_lines rs ls -> pagc_lines (r :: rs) (l :: ls).
Definition pagc_file (rs : list pagc) (t : text) : Prop := exists ls, columns 10 t ls /\ pagc_lines rs ls.

(** The classes of the codes: those of the library's own numbers, but 5 is TYPE and 4 no class. *)
Definition class_in (n : N) (c : intype) : Prop :=
  (n = 5 /\ c = I_TYPE) \/ (n = 4 /\ c = I_BADTOKEN) \/ (n <= 33 /\ in_code c = Z.of_N n).
Definition class_out (n : N) (c : outtype) : Prop := n <= 17 /\ out_code c = Z.of_N n.
(** The twentieth part of n in decimal digits, with a point if need be and without needless zeros. *)
Definition twentieth (n : N) (s : text) : Prop :=
  exists a b, decimal (worth a) a /\ digits b /\ ((b = [] /\ s = a) \/ (s = a ++ 46 :: b /\ exists b' c, b = b' ++ [c] /\ c <> 48)) /\
    20 * worth (a ++ b) = n * 10 ^ N.of_nat (List.length b).
Definition becomes (atof : text -> flt) (p : pagc) (r : rule) : Prop :=
  Forall2 class_in (p_ins p) (r_in r) /\ Forall2 class_out (p_outs p) (r_out r) /\ exists s, twentieth (p_score p) s /\ r_score r = atof s.
(** Longest first, and those of one length in the order they had. *)
Definition by_length (rs rs' : list pagc) : Prop :=
  Permutation rs rs' /\ StronglySorted (fun a b => (List.length (p_ins b) <= List.length (p_ins a))%nat) rs' /\
  forall n, filter (fun r => Nat.eqb (List.length (p_ins r)) n) rs' = filter (fun r => Nat.eqb (List.length (p_ins r)) n) rs.
Definition section_is (atof : text -> flt) (rs : list pagc) (k : N * string) (s : rulesection) : Prop :=
  rs_name s = s2t (snd k) /\ exists rs', by_length (filter (fun r => p_type r =? fst k) rs) rs' /\ Forall2 (becomes atof) rs' (rs_rules s).
Definition the_sections : list (N * string) := [(0, "MACRO"); (1, "MICRO"); (2, "ARC"); (3, "HOUSE"); (4, "BUILDING")]%string.
Definition the_metas : list (text * list (list text)) :=
  [(s2t "ADDRESS", map (map s2t) [["MICRO"; "MACRO"]; ["HOUSE"; "ARC"; "MACRO"]; ["BUILDING"; "MICRO"; "MACRO"]; ["BUILDING"; "HOUSE"; "ARC"; "MACRO"]]%string)].
(** Codes there are, and a score above 0. *)
Definition in_range (r : pagc) : Prop := Forall (fun n => n <= 33) (p_ins r) /\ Forall (fun n => n <= 17) (p_outs r) /\ 0 < p_score r.
