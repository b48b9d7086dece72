(** The format of compiled lexicons, as a list of fields. *)
From Coq Require Import String List NArith ZArith.
From Verif Require Import Base_model Class_model Class_spec Lexicon_model LexDiag_spec Codes_spec.
Import ListNotations.
Local Open Scope N_scope.

(** A number, a string, or the place where an object of a class begins. *)
Inductive field := F_num (z : Z) | F_str (s : text) | F_class (name : string).
(** The text of fields that follow [before]: numbers and strings with a blank in front, strings with their length; a class is announced
    (not tracked, version 0) only where it occurs first. *)
Inductive written : list field -> list field -> text -> Prop :=
| wr_nil : forall b, written b [] []
| wr_num : forall b z d fs t, decimal (Z.abs_N z) d -> written (b ++ [F_num z]) fs t ->
    written b (F_num z :: fs) (32 :: (if Z.ltb z 0 then [45] else []) ++ d ++ t)
| wr_str : forall b s d fs t, decimal (N.of_nat (List.length s)) d -> written (b ++ [F_str s]) fs t ->
    written b (F_str s :: fs) (32 :: d ++ 32 :: s ++ t)
| wr_first : forall b n fs t, ~ In (F_class n) b -> written (b ++ [F_class n]) fs t -> written b (F_class n :: fs) (s2t " 0 0" ++ t)
| wr_again : forall b n fs t, In (F_class n) b -> written (b ++ [F_class n]) fs t -> written b (F_class n :: fs) t.

(** The fields of a container: size, version of the items, items. *)
Definition items {A} (f : A -> list field) (l : list A) : list field :=
  F_num (Z.of_nat (List.length l)) :: F_num 0 :: flat_map f l.
Definition code_in (l : list (string * Z)) (n : string) : field := F_num (match number_of l n with Some z => z | None => 0%Z end).
(** src/lexentry.h: word, standard word, classes, attachments. *)
Definition entry_fields (e : lexentry) : list field :=
  F_class "LexEntry" :: F_str (le_word e) :: F_str (le_std e) ::
  F_class "set of classes" :: items (fun c => [code_in class_numbers (in_name c)]) (le_type e) ++
  F_class "set of attachments" :: items (fun a => [code_in attach_numbers (att_name a)]) (le_att e).
(** src/lexicon.h: name, language, locale, entries by word, three patterns, digest. *)
Definition lexicon_fields (version : Z) (x : lexicon) : list field :=
  F_num 0 :: F_num version ::
  F_str (x_name x) :: code_in language_numbers (lang_code (x_lang x)) :: F_str (x_locale x) ::
  F_class "map" :: items (fun kv => F_class "pair" :: F_str (fst kv) :: F_class "vector" :: items entry_fields (snd kv)) (x_lex x) ++
  [F_str (x_regex x); F_str (x_pre x); F_str (x_suf x); F_str (x_md5 x)].
