(** Histories of lexicon operations, shapes of texts. *)
From Coq Require Import String List NArith Bool.
From Verif Require Import Base_model Class_model Uni_model Token_model Lexicon_model.
Import ListNotations.
Local Open Scope N_scope.

(** ** Histories *)
Inductive lexop := Ins (e : lexentry) | Rem (e : lexentry) | Regex | Pre | Suf.
Definition step (x : lexicon) (o : lexop) : lexicon :=
  match o with
  | Ins e => lex_insert x e
  | Rem e => lex_remove x e
  | Regex => snd (lex_regex x)
  | Pre => snd (lex_pre x)
  | Suf => snd (lex_suf x)
  end.
Definition run (x : lexicon) (h : list lexop) : lexicon := fold_left step h x.

(** [e] was inserted and not removed since. *)
Definition present (h : list lexop) (e : lexentry) : Prop := exists h1 h2, h = h1 ++ Ins e :: h2 /\ ~ In (Rem e) h2.
(** The moment since when [e] has been present: the first insertion after the last removal. *)
Definition since (h : list lexop) (e : lexentry) (h1 : list lexop) : Prop :=
  exists h2, h = h1 ++ Ins e :: h2 /\ ~ In (Rem e) h2 /\ ~ present h1 e.

(** [a] stands before [b]. *)
Definition before {A} (l : list A) (a b : A) : Prop := exists l1 l2 l3, l = l1 ++ a :: l2 ++ b :: l3.

(** ** Environments for examples: ASCII tables, no normalization, ASCII upper-casing. *)
Definition a_up (c : N) : N := if a_lower c then c - 32 else c.
Definition ascii_env : env := mkEnv ascii_uni (fun t => t) (fun _ t => map a_up t).

(** ** Shapes of texts *)
Definition all_of (p : N -> bool) (t : text) : Prop := t <> [] /\ Forall (fun c => p c = true) t.
Definition digits (u : uni) : text -> Prop := all_of (u_digit u).
Definition words (u : uni) : text -> Prop := all_of (u_word u).
(** Two groups of digits around a separator. *)
Definition split_digits (u : uni) (seps : list N) (t : text) : Prop :=
  exists a s b, t = a ++ s :: b /\ digits u a /\ digits u b /\ In s seps.
(** The letters A-Z of either case. *)
Definition latin (u : uni) (c : N) : Prop := u_fold u 65 <= u_fold u c <= u_fold u 90.
Definition postal_head (u : uni) (t : text) : Prop :=
  exists a b c, t = a ++ b ++ c /\ Forall (latin u) a /\ Forall (fun d => u_digit u d = true) b /\ Forall (latin u) c /\
    (1 <= List.length a <= 2 /\ 1 <= List.length b <= 2 /\ List.length c <= 1)%nat.
Definition postal_tail (u : uni) (t : text) : Prop :=
  exists a b c, t = [a; b; c] /\ u_digit u a = true /\ latin u b /\ (u_digit u c = true \/ latin u c).
(** A text that is not in the lexicon gets the classes of the first row that applies. *)
Definition shape_rows (u : uni) (dflt : intype) : list ((text -> Prop) * (text -> list intype)) :=
  [ (split_digits u [44; 46], fun _ => [I_NUMBER]);
    (digits u, fun t => I_NUMBER :: match blen t with 4%nat => [I_QUAD] | 5%nat => [I_QUINT] | _ => [] end);
    ((fun t => t = s2t "@"), fun _ => [I_ATSIGN]);
    ((fun t => t = s2t "/"), fun _ => [I_SLASH]);
    (split_digits u [47], fun _ => [I_FRACT]);
    (postal_head u, fun _ => [I_MIXED; I_PCH]);
    (postal_tail u, fun _ => [I_MIXED; I_PCT]);
    ((fun t => words u t /\ exists d, In d t /\ u_digit u d = true), fun _ => [I_MIXED]);
    (words u, fun t => I_WORD :: match blen t with 1%nat => [I_SINGLE] | 2%nat => [I_DOUBLE] | _ => [] end);
    ((fun t => t = [0x2014]), fun _ => [I_EMDASH]);
    (all_of (N.eqb 45), fun _ => [I_DASH]);
    ((fun t => t = s2t "&"), fun _ => [I_AMPERS]);
    (all_of (u_space u), fun _ => [I_SPACE]);
    (all_of (fun c => u_punct u c || (c =? 124)), fun _ => [I_PUNCT]);
    ((fun _ => True), fun _ => [dflt]) ].
Definition row_applies (rows : list ((text -> Prop) * (text -> list intype))) (t : text) (cls : list intype) : Prop :=
  exists pre row post, rows = pre ++ row :: post /\ Forall (fun r => ~ fst r t) pre /\ fst row t /\ cls = snd row t.

(** No classes from the token or from the lexicon. *)
Definition unlisted (x : lexicon) (k : token) : Prop := t_in k = [] /\ forall le, In le (lex_find x (t_text k)) -> le_type le = [].
(** What is needed of the tables: a letter is a word character, not a digit, and neither is an at sign or a slash. *)
Definition letter_tables (u : uni) : Prop :=
  (forall c, u_alpha u c = true -> u_word u c = true /\ u_digit u c = false) /\ u_alpha u 64 = false /\ u_alpha u 47 = false.
