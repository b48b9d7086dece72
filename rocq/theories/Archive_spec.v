(** What std::map and std::set guarantee of a lexicon. *)
From Coq Require Import String List NArith ZArith Sorting.Sorted.
From Verif Require Import Base_model Class_model Lexicon_model TextOrder_spec.
Import ListNotations.

Definition increasing {A} (lt : A -> A -> Prop) (l : list A) : Prop := StronglySorted lt l.
Definition entry_sets (e : lexentry) : Prop :=
  increasing (fun a b => (in_code a < in_code b)%Z) (le_type e) /\ increasing (fun a b => (att_code a < att_code b)%Z) (le_att e).
Definition ordered (x : lexicon) : Prop :=
  increasing (fun a b => text_lt (fst a) (fst b)) (x_lex x) /\
  forall kv e, In kv (x_lex x) -> In e (snd kv) -> entry_sets e.
(** The same lexicon up to the patterns, which are empty or as they would be made. *)
Definition same_content (x y : lexicon) : Prop :=
  x_name x = x_name y /\ x_lang x = x_lang y /\ x_locale x = x_locale y /\ x_lex x = x_lex y /\ x_md5 x = x_md5 y.
(** A text that begins as an archive does: blanks, perhaps a plus, digits that make 22, any character, and 22 characters. *)
Definition begins_archive (t : text) : Prop := exists b p d c r, t = b ++ p ++ d ++ c :: s2t "serialization::archive" ++ r /\
  Forall (fun k => c_isspace k = true) b /\ (p = [] \/ p = [43%N]) /\ Forall (fun k => (48 <= k <= 57)%N) d /\ fold_left (fun n k => 10 * n + (k - 48))%N d 0%N = 22%N.
