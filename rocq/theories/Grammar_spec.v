(** What a grammar text means: line kinds, blocks, and the sections they define. *)
From Coq Require Import List NArith ZArith Floats.SpecFloat.
From Verif Require Import Base_model Class_model Float_model Uni_model Rule_model Search_spec.
Import ListNotations.
Local Open Scope N_scope.

(** Facts about the Unicode tables used below (true of ICU; [ascii_uni] satisfies them). *)
Definition ident_char (u : uni) (c : N) : Prop := u_word u c = true \/ c = 95.
Record uni_ok (u : uni) : Prop := {
  uo_lbrack : u_space u 91 = false; uo_rbrack : u_space u 93 = false;
  uo_hash : u_space u 35 = false; uo_at : u_space u 64 = false;
  uo_at_word : u_word u 64 = false;
  uo_blank : u_space u 32 = true; uo_lf : u_space u 10 = true;
  uo_disj : forall c, u_space u c = true -> ~ ident_char u c }.

(** Upper case letters and the hyphen are not white space. *)
Definition ascii_upper_ok (u : uni) : Prop := forall c, 65 <= c <= 90 \/ c = 45 -> u_space u c = false.

Definition blanks (u : uni) (t : text) : Prop := Forall (fun c => u_space u c = true) t.

(** Line kinds. *)
Definition comment_line (u : uni) (l : text) : Prop :=
  exists a t, l = a ++ t /\ blanks u a /\ (t = [] \/ exists t', t = 35 :: t').
Definition header_line (u : uni) (l : text) (name : text) : Prop :=
  exists a b, l = a ++ 91 :: name ++ 93 :: b /\ blanks u a /\ blanks u b /\ name <> [].
Definition data_line (u : uni) (l : text) : Prop :=
  ~ comment_line u l /\ forall n, ~ header_line u l n.
Definition at_line (l : text) : Prop := In 64 l.
(** [@name @name ...] with optional blanks. *)
Inductive refs_line (u : uni) : text -> list text -> Prop :=
| rl_end : forall t, blanks u t -> refs_line u t []
| rl_ref : forall a n t ns, blanks u a -> n <> [] -> Forall (ident_char u) n -> refs_line u t ns ->
    refs_line u (a ++ 64 :: n ++ t) (n :: ns).
Definition meta_line (u : uni) (l : text) (ns : list text) : Prop := refs_line u l ns /\ ns <> [].

(** Words of a line (separated by the C library's white space) and rule lines:
    inputs -> outputs -> score, ignoring anything after a third arrow; the last word of the score part counts. *)
Definition c_blank (c : N) : Prop := c = 32 \/ 9 <= c <= 13.
Inductive words : text -> list text -> Prop :=
| w_end : forall t, Forall c_blank t -> words t []
| w_word : forall a w t ws, Forall c_blank a -> w <> [] -> Forall (fun c => ~ c_blank c) w ->
    words t ws -> (t = [] \/ exists c t', t = c :: t' /\ c_blank c) ->
    words (a ++ w ++ t) (w :: ws).
Definition no_arrow (ws : list text) : Prop := ~ In ARROW ws.
Definition not_le_zero (f : spec_float) : Prop := SFleb f (S754_zero false) = false.
Definition rule_line (atof : text -> spec_float) (l : text) (r : rule) : Prop :=
  exists ws ins outs scs sc more,
    words l ws /\ ws = ins ++ ARROW :: outs ++ ARROW :: (scs ++ [sc]) ++ more /\
    no_arrow ins /\ no_arrow outs /\ no_arrow (scs ++ [sc]) /\ (more = [] \/ exists m, more = ARROW :: m) /\
    List.length ins = List.length outs /\ not_le_zero (atof sc) /\
    r = mkRule (map as_one_type ins) (map out_as_type outs) (atof sc).

(** A text as a sequence of blocks: lines before the first header, then headers with their data lines. *)
Inductive doc (u : uni) : list text -> list text -> list (text * list text) -> Prop :=
| doc_nil : doc u [] [] []
| doc_comment : forall l ls o bs, comment_line u l -> doc u ls o bs -> doc u (l :: ls) o bs
| doc_header : forall l n ls o bs, ~ comment_line u l -> header_line u l n -> doc u ls o bs ->
    doc u (l :: ls) [] ((n, o) :: bs)
| doc_data : forall l ls o bs, data_line u l -> doc u ls o bs -> doc u (l :: ls) (l :: o) bs.

(** Meta sections keep the well-formed reference lines only. *)
Inductive kept (u : uni) : list text -> list metarule -> Prop :=
| k_nil : kept u [] []
| k_ref : forall l ns ls ms, meta_line u l ns -> kept u ls ms -> kept u (l :: ls) (map new_ref ns :: ms)
| k_skip : forall l ls ms, (forall ns, ~ meta_line u l ns) -> kept u ls ms -> kept u (l :: ls) ms.

(** The sections defined by the blocks, in order. *)
Inductive defines (u : uni) (atof : text -> spec_float) :
  list (text * list text) -> list metasection -> list rulesection -> Prop :=
| df_nil : defines u atof [] [] []
| df_empty : forall n bs ms rs, defines u atof bs ms rs -> defines u atof ((n, []) :: bs) ms rs
| df_meta : forall n ls rules bs ms rs, ls <> [] -> Forall at_line ls -> kept u ls rules ->
    defines u atof bs ms rs -> defines u atof ((n, ls) :: bs) (mkMeta n rules :: ms) rs
| df_rule : forall n ls rules bs ms rs, ls <> [] -> Forall (fun l => ~ at_line l) ls ->
    Forall2 (rule_line atof) ls rules ->
    defines u atof bs ms rs -> defines u atof ((n, ls) :: bs) ms (mkRules n rules :: rs).

(** No header repeats the name of an earlier block that has data lines. *)
Inductive fresh : list text -> list (text * list text) -> Prop :=
| fr_nil : forall seen, fresh seen []
| fr_cons : forall seen n ls bs, ~ In n seen -> fresh (match ls with [] => seen | _ => n :: seen end) bs ->
    fresh seen ((n, ls) :: bs).

(** Pieces of a text between line feeds, and the lines the reading loop sees: a last line
    without line feed is seen twice. *)
Fixpoint pieces (t : text) : list text :=
  match t with
  | [] => [[]]
  | c :: t' => if c =? 10 then [] :: pieces t'
               else match pieces t' with p :: ps => (c :: p) :: ps | [] => [[c]] end
  end.
Definition seen_lines (t : text) : list text :=
  match last (pieces t) [] with
  | [] => pieces t
  | l => pieces t ++ [l]
  end.
Definition has_bom (t : text) : Prop := exists t', t = 0xFEFF :: t'.
(** The part of a text that is read: all of it, or what follows a byte order mark and one more
    single-byte character of the first line. *)
Inductive effective : text -> text -> Prop :=
| eff_plain : forall t, ~ has_bom t -> effective t t
| eff_bom : forall d t, d < 128 -> d <> 10 -> effective (0xFEFF :: d :: t) t.

(** The sections a text means, before references are resolved. *)
Definition means (u : uni) (atof : text -> spec_float) (src : text) (ms : list metasection) (rs : list rulesection) : Prop :=
  exists bs, doc u (seen_lines src) [] bs /\ fresh [] bs /\ defines u atof bs ms rs.
Definition names_of (ms : list metasection) (rs : list rulesection) : list text := map ms_name ms ++ map rs_name rs.
Definition refers (ms : list metasection) (n : text) : Prop :=
  exists m refs r, In m ms /\ In refs (ms_rules m) /\ In r refs /\ f_name r = n.
Definition closed (ms : list metasection) (rs : list rulesection) : Prop :=
  forall n, refers ms n -> In n (names_of ms rs).
(** Meta sections with the pointers forgotten. *)
Definition plain (ms : list metasection) : list (text * list (list text)) :=
  map (fun m => (ms_name m, map (map f_name) (ms_rules m))) ms.
(** Score positive or NaN: what the validity check enforces. *)
Definition rules_checked (rs : list rulesection) : Prop :=
  forall sec r, In sec rs -> In r (rs_rules sec) ->
    List.length (r_in r) = List.length (r_out r) /\ not_le_zero (r_score r).

(** Printing of scores that can be read back: one word, no "@", not an arrow, read as an acceptable score. *)
Definition prints_score (atof : text -> spec_float) (fprint : spec_float -> text) (f : spec_float) : Prop :=
  fprint f <> [] /\ Forall (fun c => ~ c_blank c /\ c <> 64) (fprint f) /\ fprint f <> ARROW /\
  not_le_zero (atof (fprint f)).
(** Rules read back from their printed form. *)
Definition reread (atof : text -> spec_float) (fprint : spec_float -> text) (rs : list rulesection) : list rulesection :=
  map (fun s => mkRules (rs_name s)
                 (map (fun r => mkRule (r_in r) (r_out r) (atof (fprint (r_score r)))) (rs_rules s))) rs.
Definition no_empty_section (g : grammar) : Prop := forall m, In m (g_metas g) -> ms_rules m <> [].
