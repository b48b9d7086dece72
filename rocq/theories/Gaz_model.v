(** tools/convert-pagc-lex-gaz: the lexicon and gazetteer tables of PAGC, four columns at tabs, to a lexicon file.

    Whole numbers only, as in Pagc_model. [re p t]: the text t matches /^p$/i, a call of Perl's regular expressions; a pattern Perl cannot read counts as
    not matching (the script stops either way, see below). *)
From Coq Require Import String List NArith ZArith Bool.
From Verif Require Import Base_model Tools_model Pagc_model.
Import ListNotations.
Local Open Scope N_scope.

(** The table of lines 6-9. *)
Definition gaz_names : list text := map s2t
  ["NUMBER"; "WORD"; "TYPE"; "QUALIF"; "BADTOKEN"; "BADTOKEN"; "ROAD"; "STOPWORD"; "RR"; "DASH"; "CITY"; "PROV"; "NATION"; "AMPERS"; "BOXH"; "ORD"; "UNITH";
   "UNITT"; "SINGLE"; "BUILDH"; "MILE"; "DOUBLE"; "DIRECT"; "MIXED"; "BUILDT"; "FRACT"; "PCT"; "PCH"; "QUINT"; "QUAD"; "PUNCT"; "SPACE"; "PLACEN";
   "EMDASH"]%string.
(** split(/\t/), line 33: without the empty fields at the end. *)
Fixpoint drop_empty (l : list text) : list text := match l with [] :: l' => drop_empty l' | _ => l end.
Definition tab_fields (l : text) : list text := rev (drop_empty (rev (fields TAB l))).
(** The hash of lines 17 and 38-50, kept in the order of its keys. None: a repeated word whose pattern does not match itself; the message of line 47 reads
    $lexi{$f[1]}[0], which puts an empty entry into the hash, and writing that one stops the script. *)
Record gaz_entry := mkGaz { gz_word : text; gz_std : text; gz_classes : list text }.
Definition gaz_key (w s : text) : text := w ++ TAB :: s.
Fixpoint gaz_put (re : text -> text -> bool) (k w s c : text) (l : list (text * gaz_entry)) : option (list (text * gaz_entry)) :=
  match l with
  | [] => Some [(k, mkGaz w s [c])]
  | (k', v) :: l' =>
      if teqb k k' then (if re s (gz_std v) then Some ((k', mkGaz (gz_word v) (gz_std v) (gz_classes v ++ [c])) :: l') else None)
      else if tltb k k' then Some ((k, mkGaz w s [c]) :: l)
      else match gaz_put re k w s c l' with Some l2 => Some ((k', v) :: l2) | None => None end
  end.
(** A line, lines 31-51. *)
Definition gaz_line (re : text -> text -> bool) (h : option (list (text * gaz_entry))) (l : text) : option (list (text * gaz_entry)) :=
  match h, tab_fields l with
  | Some m, [_; w; c; s] => gaz_put re (gaz_key w s) w s (perl_at gaz_names (perl_int c)) m
  | _, _ => h
  end.
(** writelexicon, lines 56-64. *)
Definition gaz_text (v : gaz_entry) : text :=
  s2t "LEXENTRY:" ++ TAB :: gz_word v ++ TAB :: gz_std v ++ TAB :: join [44] (gz_classes v) ++ [TAB].
Definition gaz_header : text := s2t "LEXICON:" ++ TAB :: s2t "pagc-converted" ++ TAB :: s2t "USA" ++ TAB :: s2t "en_US" ++ [TAB].
Definition convert_gaz (re : text -> text -> bool) (fs : list text) : option text :=
  match fold_left (gaz_line re) (flat_map file_lines fs) (Some []) with
  | Some m => Some (gaz_header ++ LF :: flat_map (fun kv => gaz_text (snd kv) ++ [LF]) m)
  | None => None
  end.
