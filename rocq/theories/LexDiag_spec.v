(** Every lexicon text: the lexicon it is read as, or the message it is rejected with. *)
From Coq Require Import String List NArith Bool Sorted.
From Verif Require Import Base_model Class_model Class_spec Uni_model Token_model Lexicon_model LexText_spec LexFile_spec TextOrder_spec.
Import ListNotations.
Local Open Scope N_scope.

(** A number in decimal digits, without leading zeros. *)
Definition decimal (n : N) (t : text) : Prop :=
  Forall (fun c => 48 <= c <= 57) t /\ (t = [48] \/ exists c r, t = c :: r /\ c <> 48) /\
  n = fold_left (fun v c => 10 * v + (c - 48)) t 0.

(** The lines of a text; the last one may lack its line feed. *)
Definition lines (src : text) (ls : list text) (ended : bool) : Prop :=
  Forall one_line ls /\
  ((ended = true /\ src = file ls []) \/ (ended = false /\ exists ls' r, ls = ls' ++ [r] /\ r <> [] /\ src = file ls' r)).
(** The first line without its byte order mark: four bytes are cut, so the character after the mark goes with it, or
    its first byte (what is left of it then is no character, written as a number beyond the code points). *)
Inductive unmarked : text -> text -> Prop :=
| um_plain : forall l, hd_error l <> Some 0xFEFF -> unmarked l l
| um_short : forall d l, d < 128 -> unmarked (0xFEFF :: d :: l) l
| um_long : forall d l, 128 <= d -> unmarked (0xFEFF :: d :: l) (0x110000 :: l).
(** The lines skipped in search of the header, and the lines from there on. *)
Definition sought (ls pre rest : list text) : Prop :=
  Forall (fun l => ~ is_header l /\ ~ is_entry l) pre /\
  exists l0 l1 ls', ls = l0 :: ls' /\ unmarked l0 l1 /\ l1 :: ls' = pre ++ rest.

(** A line of the body that is accepted: its entries, none or one, and what the reader's buffer holds afterwards. *)
Definition accepted (e : env) (loc l : text) (es : list lexentry) (left : text) : Prop :=
  (l = [] /\ es = [] /\ left = []) \/
  (exists le t, body_line e loc l le /\ one_blank l t /\ es = [le] /\ left = norm e loc t).
(** A line of the body that is refused, and the text shown for it. *)
Definition refused (e : env) (loc l shown : text) : Prop :=
  l <> [] /\ exists t, one_blank l t /\
  ((~ entry_mark t /\ shown = t) \/
   (entry_mark t /\ shown = norm e loc t /\ exists le, entry_of shown le /\ In I_BADTOKEN (le_type le))).
Inductive entries_of (e : env) (loc : text) : list text -> list lexentry -> Prop :=
| eo_nil : entries_of e loc [] []
| eo_line : forall l ls a left b, accepted e loc l a left -> entries_of e loc ls b -> entries_of e loc (l :: ls) (a ++ b).

(** The meaning of a text: language, locale, entries in order, digested text.  A last line without line feed is read a
    second time, as the buffer holds it after the first reading. *)
Definition lexicon_means (e : env) (src : text) (lg : lang) (loc : text) (es : list lexentry) (dg : text) : Prop :=
  exists ls ended pre h post, lines src ls ended /\ sought ls pre (h :: post) /\ is_header h /\ header_of h lg loc /\
    ((ended = true /\ entries_of e loc post es /\ dg = concat ls) \/
     (ended = false /\ exists post' r es' e1 l1 e2 l2, post = post' ++ [r] /\ entries_of e loc post' es' /\
        accepted e loc r e1 l1 /\ accepted e loc l1 e2 l2 /\ es = es' ++ e1 ++ e2 /\ dg = concat ls ++ l1)).

(** The elements of a list without repetitions, in the order of their first occurrences. *)
Inductive once {A} : list A -> list A -> list A -> Prop :=
| on_nil : forall seen, once seen [] []
| on_new : forall seen a l k, ~ In a seen -> once (a :: seen) l k -> once seen (a :: l) (a :: k)
| on_again : forall seen a l k, In a seen -> once seen l k -> once seen (a :: l) k.
(** The entries of one word among those of the text. *)
Inductive of_word (w : text) : list lexentry -> list lexentry -> Prop :=
| ow_nil : of_word w [] []
| ow_this : forall le l k, le_word le = w -> of_word w l k -> of_word w (le :: l) (le :: k)
| ow_other : forall le l k, le_word le <> w -> of_word w l k -> of_word w (le :: l) k.

(** Why a text is rejected, and the message.  [k] is the number shown. *)
Inductive rejection (e : env) (src : text) : text -> Prop :=
| rj_mark : forall ls ended, lines src ([0xFEFF] :: ls) ended -> rejection e src (s2t "basic_string::substr")
| rj_none : forall ls ended pre, lines src ls ended -> ls = [] \/ sought ls pre [] -> rejection e src (s2t "Lexicon-Invalid-File-Format")
| rj_early : forall ls ended pre l post, lines src ls ended -> sought ls pre (l :: post) -> is_entry l ->
    rejection e src (s2t "Lexicon-LexEntry-Before-Lexicon")
| rj_header : forall ls ended pre h post k, lines src ls ended -> sought ls pre (h :: post) -> is_header h ->
    (forall lg loc, ~ header_of h lg loc) -> decimal (N.of_nat (List.length pre) + 2) k ->
    rejection e src (s2t "Lexicon-Invalid-Data-Format: " ++ k ++ s2t ": " ++ h)
| rj_entry : forall ls ended pre h lg loc p1 l p2 es shown k, lines src ls ended -> sought ls pre (h :: p1 ++ l :: p2) -> is_header h ->
    header_of h lg loc -> entries_of e loc p1 es -> refused e loc l shown ->
    decimal (N.of_nat (List.length pre + List.length p1) + 3) k ->
    rejection e src (s2t "Lexicon-Invalid-LexEntry: " ++ k ++ s2t ": " ++ shown)
| rj_again : forall ls pre h lg loc p1 r es e1 l1 shown k, lines src ls false -> sought ls pre (h :: p1 ++ [r]) -> is_header h ->
    header_of h lg loc -> entries_of e loc p1 es -> accepted e loc r e1 l1 -> refused e loc l1 shown ->
    decimal (N.of_nat (List.length pre + List.length p1) + 4) k ->
    rejection e src (s2t "Lexicon-Invalid-LexEntry: " ++ k ++ s2t ": " ++ shown)
| rj_alone : forall ls pre h lg loc shown k, lines src ls false -> sought ls pre [h] -> is_header h -> header_of h lg loc ->
    one_blank h shown -> decimal (N.of_nat (List.length pre) + 3) k ->
    rejection e src (s2t "Lexicon-Invalid-LexEntry: " ++ k ++ s2t ": " ++ shown).
(** The words in increasing order, each with some entry. *)
Definition kept (l : list (text * list lexentry)) : Prop :=
  StronglySorted (fun a b => text_lt (fst a) (fst b)) l /\ Forall (fun kv => snd kv <> []) l.
