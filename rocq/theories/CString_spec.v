(** Which characters the results are made of. *)
From Coq Require Import List NArith.
From Verif Require Import Base_model Rule_model Search_model Lexicon_model Tokenizer_model Wrapper_model.
Import ListNotations.
Local Open Scope N_scope.

Definition made_of (P : N -> Prop) (t : text) : Prop := Forall P t.
(** The set contains ASCII without NUL. *)
Definition ordinary (P : N -> Prop) : Prop := forall c, 0 < c -> c < 128 -> P c.
(** Normalization and upper-casing stay in the set. *)
Definition keeps (P : N -> Prop) (e : env) : Prop :=
  (forall t, made_of P t -> made_of P (e_nfc e t)) /\ (forall l t, made_of P t -> made_of P (e_upper e l t)).
(** A result or a message. *)
Definition result_of {A} (P : N -> Prop) (Q : A -> Prop) (r : outcome A) : Prop :=
  match r with Ok a => Q a | Throw m => made_of P m | UB => True end.
Definition address_of (P : N -> Prop) (o : option stdaddr) : Prop :=
  match o with
  | Some a => (forall t, In (Some t) (sa_fields a) -> made_of P t) /\ made_of P (sa_pattern a)
  | None => True
  end.
Definition rows_of (P : N -> Prop) (l : list prow) : Prop :=
  forall r, In r l -> made_of P (pr_word r) /\ made_of P (pr_class r) /\ made_of P (pr_att r).
Definition matches_of (P : N -> Prop) (l : list mresult) : Prop := forall r, In r l -> made_of P (m_matched r).
(** Where a character of a field may come from: the text that is searched, a standard word of the lexicon, the blank between two
    words, the full stop for the comma in a number. *)
Definition source (e : env) (x : lexicon) (locale address : text) (c : N) : Prop :=
  In c (search_text e x (prepared e locale address)) \/
  (exists w les le, In (w, les) (x_lex x) /\ In le les /\ In c (le_std le)) \/ c = 32 \/ c = 46.
Definition nonzero (c : N) : Prop := c <> 0.
