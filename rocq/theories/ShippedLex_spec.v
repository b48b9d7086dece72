(** The shipped lexicons: their texts, and Unicode tables that treat Latin letters one by one. *)
From Coq Require Import String List NArith.
From Verif Require Import Base_model Class_model Class_spec Uni_model Token_model Lexicon_model Lexicon_spec Utf8_model LexFile_spec ShippedLex_model.
Import ListNotations.
Local Open Scope N_scope.

(** [t] is the text of a lexicon given in pieces: its UTF-8 bytes are the bytes of the file. *)
Definition text_of (ps : list string) (t : text) : Prop :=
  Forall (fun c => c < 0x300) t /\ encode t = Ok (concat (map s2t ps)).

(** The locales in the headers of the shipped lexicons. *)
Definition shipped_locales : list text := map s2t
  ["ca_AD"; "en_AU"; "de_AT"; "fr_BE"; "fr_CA"; "da_DK"; "fi_FI"; "fr_FR"; "de_DE"; "en_UK"; "en_IE"; "it_IT"; "de_LI"; "de_LU"; "fr_MC";
   "nl_NL"; "en_NZ"; "no_NO"; "pt_PT"; "it_SM"; "es_ES"; "sv_SE"; "gsw_CH"; "en_US"]%string.

(** Latin text is normalized already, and upper-casing maps its characters one by one: ASCII as usual, and no other character to
    an ASCII character that is not a capital letter. *)
Definition latin_letters (e : env) (loc : text) : Prop := exists up : N -> text,
  (forall c, c < 128 -> up c = [a_up c]) /\
  (forall c d, 128 <= c -> In d (up c) -> 65 <= d <= 90 \/ 128 <= d) /\
  (forall t, Forall (fun c => c < 0x300) t -> e_nfc e t = t /\ e_upper e loc t = flat_map up t).
Definition shipped_locale_env (e : env) : Prop := forall loc, In loc shipped_locales -> latin_letters e loc.

(** A complete line of a text. *)
Definition line_of (t l : text) : Prop := ~ In 10 l /\ exists a b, t = a ++ l ++ 10 :: b /\ (a = [] \/ exists a', a = a' ++ [10]).
(** A name in the attachment column of a line. *)
Definition att_field (l p : text) : Prop := exists cs ps, columns 9 l cs /\ columns 44 (nth 4 cs []) ps /\ In p ps.
(** The second column of a line is the word of its entry. *)
Definition word_field (l w : text) : Prop := exists m cs, columns 9 l (m :: w :: cs).
(** The attachments a lexicon may name. *)
Definition known_att (p : text) : Prop := Forall (fun c => c = 32) p \/ exists a, padded (att_str a) p.
(** The names in the documents; DETACH and DETACHED stand for no attachment (DOCUMENTATION.md 248, 262; docs/inclass.md). *)
Definition documented_att (p : text) : Prop := known_att p \/ padded (s2t "DETACH") p \/ padded (s2t "DETACHED") p.
(** A text without its carriage returns. *)
Definition without_cr (t : text) : text := filter (fun c => negb (c =? 13)) t.
