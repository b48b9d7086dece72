(** What the tokenizer is expected to read. *)
From Coq Require Import List NArith Bool.
From Verif Require Import Base_model Class_model Uni_model Token_model Lexicon_model Lexicon_spec Tokenizer_model.
Import ListNotations.
Local Open Scope N_scope.

(** Lexicons that can occur: new, loaded from text, changed or queried. *)
Inductive built : lexicon -> Prop :=
| built_new : forall n, built (new_lexicon n)
| built_load : forall e n src x, load_lexicon e n src = Ok x -> built x
| built_step : forall x o, built x -> built (step x o).
Definition listed (x : lexicon) (w : text) : Prop := lex_find x w <> [].
(** No listed word contains a caret or a brace, which the patterns do not quote. *)
Definition simple_words (x : lexicon) : Prop :=
  forall w c, listed x w -> In c w -> c <> 94 /\ c <> 123 /\ c <> 125.

(** Characters after which a line begins; every real table counts them as blanks. *)
Definition line_end (c : N) : Prop := In c [10; 12; 13; 0x85; 0x2028; 0x2029].
Definition blank_lines (u : uni) (t : text) : Prop := forall c, In c t -> line_end c -> u_space u c = true.

(** Characters are compared without regard to case. *)
Definition like (u : uni) (a c : N) : Prop := u_fold u a = u_fold u c.
Definition sep_char (u : uni) (c : N) : Prop :=
  like u 45 c \/ like u 38 c \/ like u 124 c \/ u_space u c = true \/ u_punct u c = true.
Definition dash (u : uni) (c : N) : Prop := like u 0x2014 c.
(** The rest begins with a separator or is empty. *)
Definition stops (u : uni) (r : text) : Prop := match r with [] => True | c :: _ => sep_char u c \/ dash u c end.
Definition begins_dash (u : uni) (r : text) : Prop := match r with [] => False | c :: _ => dash u c end.
Definition blanks (u : uni) (t : text) : Prop := Forall (fun c => u_space u c = true) t.

Definition alnum (u : uni) (c : N) : Prop := u_alpha u c = true \/ u_digit u c = true.
Definition number_like (u : uni) (t : text) : Prop :=
  exists a s b, t = a ++ s :: b /\ digits u a /\ digits u b /\ (like u 47 s \/ like u 44 s \/ like u 46 s).
Definition word_like (u : uni) (x : lexicon) (t : text) : Prop :=
  exists w, listed x w /\ w <> [] /\ Forall2 (like u) w t.
(** A listed word, two groups of digits, letters and digits; or nothing, if no word is listed. *)
Definition token_text (u : uni) (x : lexicon) (t : text) : Prop :=
  word_like u x t \/ number_like u t \/ (t <> [] /\ Forall (alnum u) t) \/ (t = [] /\ forall w, listed x w -> w = []).
(** A token can be read here. *)
Definition readable (u : uni) (x : lexicon) (t : text) : Prop :=
  exists b w r, t = b ++ w ++ r /\ blanks u b /\ token_text u x w /\ ~ begins_dash u (w ++ r) /\ stops u r.

(** The part of the text a round takes. *)
Definition taken (p : piece) : text := pc_skip p ++ pc_all p.
(** Blanks, token, separator. *)
Definition in_order (u : uni) (p : piece) : Prop := exists b, pc_all p = b ++ pc_tok p ++ pc_sep p /\ blanks u b.
(** What stands between a token and the rest: a whole run of separators, an em dash, or nothing at the end. *)
Definition separator (u : uni) (w rest : text) : Prop :=
  (w = [] /\ rest = []) \/
  (w <> [] /\ Forall (sep_char u) w /\ match rest with c :: _ => ~ sep_char u c | [] => True end) \/
  (exists c, w = [c] /\ dash u c /\ ~ sep_char u c).
(** Every round reads blanks, a token and a separator; text before that is skipped only up to the end of a line and only
    where no token can be read. *)
Fixpoint well_read (u : uni) (x : lexicon) (ps : list piece) (left : text) : Prop :=
  match ps with
  | [] => True
  | p :: ps' =>
      (pc_skip p = [] \/ (exists a c, pc_skip p = a ++ [c] /\ line_end c) /\ ~ readable u x (concat (map taken ps) ++ left)) /\
      in_order u p /\ token_text u x (pc_tok p) /\ separator u (pc_sep p) (concat (map taken ps') ++ left) /\ well_read u x ps' left
  end.
(** The longest listed word [w], in any case, that stands after blanks [b] and is followed by a separator or the end. *)
Definition longest (u : uni) (x : lexicon) (b w r : text) : Prop :=
  blanks u b /\ word_like u x w /\ stops u r /\ ~ begins_dash u w /\ match w with c :: _ => u_space u c = false | [] => True end /\
  forall w' r', w ++ r = w' ++ r' -> word_like u x w' -> stops u r' -> (List.length w' <= List.length w)%nat.
(** No character of the text occurs in two cases in the listed words. *)
Definition case_clear (u : uni) (x : lexicon) (t : text) : Prop :=
  forall w w' c c' d, listed x w -> listed x w' -> In c w -> In c' w' -> In d t -> like u c d -> like u c' d -> c = c'.

(** The text of a token made from [w]: the text itself, or, for a number that is not listed, with a full stop for the comma. *)
Definition plain_token (w : text) : token := mkToken w [] [] O_BADTOKEN [] false.
Definition comma_number (u : uni) (x : lexicon) (w : text) : Prop := unlisted x (plain_token w) /\ split_digits u [44; 46] w /\ In 44 w.
Definition carries (u : uni) (x : lexicon) (w t : text) : Prop :=
  (~ comma_number u x w /\ t = w) \/ (comma_number u x w /\ exists a b, w = a ++ 44 :: b /\ ~ In 44 a /\ t = a ++ 46 :: b).
(** The classes of a token made from [w]: all those of its lexicon entries, or else those of the first shape that applies. *)
Definition classed (u : uni) (x : lexicon) (d : intype) (w : text) (k : token) : Prop :=
  (~ unlisted x (plain_token w) -> t_inlex k = true /\ forall c, In c (t_in k) <-> exists le, In le (lex_find x w) /\ In c (le_type le)) /\
  (unlisted x (plain_token w) -> t_inlex k = false /\ exists cls, row_applies (shape_rows u d) w cls /\ forall c, In c (t_in k) <-> In c cls).
(** A classified token made from [w]; [d] is the class for want of another. *)
Definition made_from (u : uni) (x : lexicon) (d : intype) (w : text) (k : token) : Prop :=
  carries u x w (t_text k) /\ t_in k <> [] /\ classed u x d w k /\ t_std k = [] /\ t_out k = O_BADTOKEN /\ t_att k = [].
(** Parts of [w], none of them empty, in order and without gaps. *)
Definition parts (w : text) (ws : list text) : Prop := concat ws = w /\ Forall (fun v => v <> []) ws.
(** The six white-space characters of C. *)
Definition white (c : N) : Prop := In c [9; 10; 11; 12; 13; 32].
(** What remains of a separator: without white space at the ends, or one blank if it is all white. *)
Definition trimmed (w m : text) : Prop :=
  exists a b, Forall white a /\ Forall white b /\
    ((w = a ++ b /\ m = [32]) \/
     (w = a ++ m ++ b /\ m <> [] /\ (forall c, hd_error m = Some c -> ~ white c) /\ forall c, hd_error (rev m) = Some c -> ~ white c)).
(** The tokens of one round. *)
Definition word_part (u : uni) (x : lexicon) (w : text) (ks : list token) : Prop :=
  (w = [] /\ ks = []) \/ (exists k, w <> [] /\ ks = [k] /\ made_from u x I_WORD w k) \/
  exists w' ws, w <> [] /\ carries u x w w' /\ parts w' ws /\ Forall2 (made_from u x I_WORD) ws ks.
Definition sep_part (u : uni) (x : lexicon) (w : text) (ks : list token) : Prop :=
  (w = [] /\ ks = []) \/ exists m k, w <> [] /\ trimmed w m /\ ks = [k] /\ made_from u x I_PUNCT m k.
Definition tokens_of (u : uni) (x : lexicon) (p : piece) (ks : list token) : Prop :=
  exists k1 k2, ks = k1 ++ k2 /\ word_part u x (pc_tok p) k1 /\ sep_part u x (pc_sep p) k2.
(** A blank is no digit, no letter and no other word character. *)
Definition plain_blank (u : uni) : Prop := u_word u 32 = false /\ u_digit u 32 = false /\ ~ latin u 32.
(** Letters, digits and separators only, beginning with a letter or digit. *)
Definition clear_text (u : uni) (t : text) : Prop :=
  forall c, In c t -> (alnum u c /\ ~ sep_char u c /\ ~ dash u c /\ c <> 44) \/ (sep_char u c /\ ~ alnum u c).
Definition starts (u : uni) (t : text) : Prop := exists b c r, t = b ++ c :: r /\ blanks u b /\ alnum u c.

(** ** Filters *)
(** The second list is the first one without the elements for which [P] holds. *)
Inductive sifted (P : token -> Prop) : list token -> list token -> Prop :=
| sift_nil : sifted P [] []
| sift_keep : forall k a b, ~ P k -> sifted P a b -> sifted P (k :: a) (k :: b)
| sift_drop : forall k a b, P k -> sifted P a b -> sifted P (k :: a) b.
Definition caught (f : inset) (k : token) : Prop := exists c, In c (t_in k) /\ In c f.
(** Changes to the filter. *)
Inductive edit := Add (c : intype) | Remove (c : intype) | Clear | Replace (s : inset).
Definition edit_filter (z : tokenizer) (o : edit) : tokenizer :=
  match o with Add c => add_filter z c | Remove c => remove_filter z c | Clear => clear_filter z | Replace s => set_filter z s end.
Definition puts (o : edit) (c : intype) : Prop := match o with Add d => d = c | Replace s => In c s | _ => False end.
Definition takes (o : edit) (c : intype) : Prop := match o with Remove d => d = c | Clear => True | Replace s => ~ In c s | Add _ => False end.
(** [c] was put into the filter, or was there at first, and was not taken out since. *)
Definition filtered (s : inset) (h : list edit) (c : intype) : Prop :=
  (exists h1 o h2, h = h1 ++ o :: h2 /\ puts o c /\ Forall (fun o => ~ takes o c) h2) \/ (In c s /\ Forall (fun o => ~ takes o c) h).

(** ** Alternatives *)
Definition phrase (k : token) : Prop := In 32 (t_text k).
(** Words separated by runs of blanks; blanks at the ends give empty words. *)
Inductive words_of : text -> list text -> Prop :=
| words_one : forall w, ~ In 32 w -> words_of w [w]
| words_more : forall w b t ws, ~ In 32 w -> b <> [] -> Forall (eq 32) b -> hd_error t <> Some 32 -> words_of t ws -> words_of (w ++ b ++ t) (w :: ws).
Definition fresh (u : uni) (x : lexicon) (w : text) (k : token) : Prop := k = classify u x (token_of_text w) I_WORD.
(** One choice for every phrase: kept or split. *)
Inductive chosen (u : uni) (x : lexicon) : list token -> list bool -> list token -> Prop :=
| chosen_nil : chosen u x [] [] []
| chosen_word : forall k ks bs a, ~ phrase k -> chosen u x ks bs a -> chosen u x (k :: ks) bs (k :: a)
| chosen_keep : forall k ks bs a, phrase k -> chosen u x ks bs a -> chosen u x (k :: ks) (false :: bs) (k :: a)
| chosen_split : forall k ks bs a ws new, phrase k -> words_of (t_text k) ws -> Forall2 (fresh u x) ws new -> chosen u x ks bs a ->
    chosen u x (k :: ks) (true :: bs) (new ++ a).
(** Classes that unlisted words made of word characters never get. *)
Definition separator_class (c : intype) : Prop := In c [I_AMPERS; I_DASH; I_EMDASH; I_PUNCT; I_SPACE].
