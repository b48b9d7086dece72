(** How an address is turned into tokenizations, exactly. *)
From Coq Require Import List NArith.
From Verif Require Import Base_model Class_model Class_spec Uni_model Token_model Lexicon_model Lexicon_spec Tokenizer_model Tokenizer_spec Split_spec Read_spec.
Import ListNotations.
Local Open Scope N_scope.

(** ** The filter *)
(** The class of a name; any other text stands for BADTOKEN. *)
Definition class_named (w : text) (c : intype) : Prop := w = in_str c \/ (c = I_BADTOKEN /\ forall d, w <> in_str d).
(** Blanks around a name do not matter; a name of blanks only stays. *)
Definition unpadded (p n : text) : Prop :=
  (Forall (fun c => c = 32) p /\ n = p) \/ (padded n p /\ (exists c, hd_error n = Some c /\ c <> 32) /\ exists c, hd_error (rev n) = Some c /\ c <> 32).
(** A class named in a list separated by commas. *)
Definition in_list (t : text) (c : intype) : Prop :=
  exists ps p n, ps <> [] /\ Forall no_comma ps /\ t = join [44] ps /\ In p ps /\ p <> [] /\ unpadded p n /\ class_named n c.

(** ** Tokens *)
(** The tokens of a text: scanned, words split and classified; the classes of a token are in order. *)
Definition tokens_are (u : uni) (x : lexicon) (t : text) (ks : list token) : Prop :=
  exists ps groups, scanned u x t ps /\ Forall2 (exact_tokens u x) ps groups /\ ks = concat groups /\ Forall (fun k => is_inset (t_in k)) ks.

(** ** Alternatives *)
(** One choice for every token with a blank: kept (false) or split at the blanks (true). *)
Inductive picked (u : uni) (x : lexicon) : list token -> list bool -> list token -> Prop :=
| pick_nil : picked u x [] [] []
| pick_word : forall k ks bs a, ~ phrase k -> picked u x ks bs a -> picked u x (k :: ks) bs (k :: a)
| pick_keep : forall k ks bs a, phrase k -> picked u x ks bs a -> picked u x (k :: ks) (false :: bs) (k :: a)
| pick_split : forall k ks bs a ws new, phrase k -> words_of (t_text k) ws ->
    Forall2 (fun w k' => made_from u x I_WORD w k' /\ is_inset (t_in k')) ws new -> picked u x ks bs a ->
    picked u x (k :: ks) (true :: bs) (new ++ a).
(** The choices as a binary number, the first token with a blank being the lowest digit. *)
Fixpoint choice_number (bs : list bool) : N := match bs with [] => 0 | b :: bs' => (if b then 1 else 0) + 2 * choice_number bs' end.
(** The tokens and, in the order of these numbers, all alternatives in which something is split; at most 31 tokens with blanks. *)
Definition tokenizations (u : uni) (x : lexicon) (ks : list token) (phs : list (list token)) : Prop :=
  (forall bs a, picked u x ks bs a -> (List.length bs <= 31)%nat) /\
  forall i a, nth_error phs i = Some a <-> exists bs, picked u x ks bs a /\ choice_number bs = N.of_nat i.

(** ** The whole *)
Definition read_address (u : uni) (x : lexicon) (filt t : text) (phs : list (list token)) : Prop :=
  exists all ks, tokens_are u x t all /\ sifted (fun k => exists c, In c (t_in k) /\ in_list filt c) all ks /\ tokenizations u x ks phs.
