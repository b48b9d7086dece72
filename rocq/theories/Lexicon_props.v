(** Properties of lexicons (properties.jsonl C19-C21, C27-C33). *)
From Coq Require Import String List NArith Bool.
From Verif Require Import Base_model Class_model Class_spec Uni_model Token_model Lexicon_model Lexicon_spec LexText_spec
  LexMap_proofs Classify_proofs LexLoad_proofs LexExample_proofs.
Import ListNotations.
Local Open Scope N_scope.

(** ** C19 *)
Theorem C19_classification : forall u x k d, let k' := classify u x k d in
  t_in k' <> [] /\
  (forall c0, (In c0 (t_in k) \/ exists le, In le (lex_find x (t_text k)) /\ In c0 (le_type le)) ->
     t_inlex k' = true /\ t_text k' = t_text k /\
     forall c, In c (t_in k') <-> In c (t_in k) \/ exists le, In le (lex_find x (t_text k)) /\ In c (le_type le)) /\
  (t_in k = [] -> (forall le, In le (lex_find x (t_text k)) -> le_type le = []) ->
     t_inlex k' = false /\ exists cls, row_applies (shape_rows u d) (t_text k) cls /\ forall c, In c (t_in k') <-> In c cls).
Proof. exact classify_spec. Qed.
Print Assumptions C19_classification.
Theorem C19_text_kept : forall u x k d, t_in k = [] -> (forall le, In le (lex_find x (t_text k)) -> le_type le = []) ->
  let k' := classify u x k d in
  (split_digits u [44; 46] (t_text k) /\ In 44 (t_text k) ->
     exists a b, t_text k = a ++ 44 :: b /\ ~ In 44 a /\ t_text k' = a ++ 46 :: b) /\
  (~ (split_digits u [44; 46] (t_text k) /\ In 44 (t_text k)) -> t_text k' = t_text k).
Proof. exact classify_text. Qed.
Print Assumptions C19_text_kept.
Theorem C19_shape_only : forall u x y k d, t_in k = [] -> (forall le, In le (lex_find x (t_text k)) -> le_type le = []) ->
  (forall le, In le (lex_find y (t_text k)) -> le_type le = []) -> classify u x k d = classify u y k d.
Proof. exact shape_only. Qed.
Print Assumptions C19_shape_only.
Example C19_example :
  t_in (classify ascii_uni ex_lex (tok (s2t "ST") []) I_WORD) = [I_WORD; I_TYPE; I_STOPWORD] /\
  t_inlex (classify ascii_uni ex_lex (tok (s2t "ST") []) I_WORD) = true /\
  t_in (classify ascii_uni ex_lex (tok (s2t "1234") []) I_WORD) = [I_NUMBER; I_QUAD] /\
  t_text (classify ascii_uni ex_lex (tok (s2t "12,5") []) I_WORD) = s2t "12.5" /\
  t_in (classify ascii_uni ex_lex (tok (s2t "A B") []) I_WORD) = [I_WORD].
Proof. repeat split; vm_compute; reflexivity. Qed.

(** ** C20 *)
Theorem C20_single_letter_refuted : exists u x t, letter_tables u /\ (exists c, t = [c] /\ u_alpha u c = true) /\
  let k := mkToken t [] [] O_BADTOKEN [] false in
  unlisted x k /\ ~ In I_SINGLE (t_in (classify u x k I_WORD)) /\ In I_DOUBLE (t_in (classify u x k I_WORD)).
Proof. exact single_letter_refuted. Qed.
Print Assumptions C20_single_letter_refuted.
(** Holds for ASCII letters; missing are letters of more than one byte. *)
Theorem C20_short_words_partial : forall u x k d, letter_tables u -> unlisted x k ->
  Forall (fun c => u_alpha u c = true /\ c < 128) (t_text k) ->
  (List.length (t_text k) = 1%nat -> forall c, In c (t_in (classify u x k d)) <-> c = I_WORD \/ c = I_SINGLE) /\
  (List.length (t_text k) = 2%nat -> forall c, In c (t_in (classify u x k d)) <-> c = I_WORD \/ c = I_DOUBLE).
Proof. exact short_words. Qed.
Print Assumptions C20_short_words_partial.
Example C20_example : letter_tables ascii_uni /\
  t_in (classify ascii_uni ex_lex (tok (s2t "E") []) I_WORD) = [I_WORD; I_SINGLE] /\
  t_in (classify ascii_uni ex_lex (tok (s2t "NE") []) I_WORD) = [I_WORD; I_DOUBLE].
Proof. exact short_words_ex. Qed.

(** ** C21 *)
Theorem C21_standard_word : forall x k c, t_in k = [c] ->
  exists k', standardize_word x k = Ok k' /\ t_text k' = t_text k /\ t_in k' = t_in k /\ t_out k' = t_out k /\
  (forall l1 le l2, lex_find x (t_text k) = l1 ++ le :: l2 -> In c (le_type le) -> (forall e, In e l1 -> ~ In c (le_type e)) ->
     t_std k' = match le_std le with [] => t_text k | s => s end) /\
  ((forall e, In e (lex_find x (t_text k)) -> ~ In c (le_type e)) ->
     t_std k' = match t_std k with [] => t_text k | s => s end).
Proof. exact standard_word. Qed.
Print Assumptions C21_standard_word.
Example C21_example : lex_find ex_lex (s2t "ST") = [ex_st1] ++ ex_st2 :: [] /\ In I_WORD (le_type ex_st2) /\ ~ In I_WORD (le_type ex_st1) /\
  option_map t_std (match standardize_word ex_lex (tok (s2t "ST") [I_WORD]) with Ok k => Some k | _ => None end) = Some (s2t "SAINT").
Proof. split; [vm_compute; reflexivity|]. split; [vm_compute; auto|]. split; [intros [K|[]]; discriminate|vm_compute; reflexivity]. Qed.

(** ** C27 *)
Theorem C27_entries : forall h n w,
  (forall e, In e (lex_find (run (new_lexicon n) h) w) <-> le_word e = w /\ present h e) /\
  NoDup (lex_find (run (new_lexicon n) h) w) /\
  (forall a b, before (lex_find (run (new_lexicon n) h) w) a b ->
    exists ha hb, since h a ha /\ since h b hb /\ (List.length ha < List.length hb)%nat).
Proof. exact history. Qed.
Print Assumptions C27_entries.
Example C27_example : let h := [Ins ex_st1; Ins ex_box; Regex; Rem ex_st1; Ins ex_st2; Ins ex_st1; Ins ex_st2] in
  lex_find (run (new_lexicon []) h) (s2t "ST") = [ex_st2; ex_st1] /\ present h ex_st1 /\ ~ present [Ins ex_box; Rem ex_box] ex_box.
Proof. exact history_ex. Qed.

(** ** C28 *)
Theorem C28_never_stale : forall h h' n n', let x := run (new_lexicon n) h in let y := run (new_lexicon n') h' in
  (forall w, lex_find x w = lex_find y w) ->
  fst (lex_regex x) = fst (lex_regex y) /\ fst (lex_pre x) = fst (lex_pre y) /\ fst (lex_suf x) = fst (lex_suf y).
Proof. exact never_stale. Qed.
Print Assumptions C28_never_stale.
(** A fresh lexicon with the same entries, built by insertions only, exists. *)
Theorem C28_fresh_lexicon : forall h n,
  exists es, forall w, lex_find (run (new_lexicon n) (map Ins es)) w = lex_find (run (new_lexicon n) h) w.
Proof. exact fresh_history. Qed.
Print Assumptions C28_fresh_lexicon.
Example C28_example : let x := run (new_lexicon []) [Ins ex_st1; Regex; Pre; Suf; Ins ex_box; Rem ex_st1] in
  fst (lex_regex (run (new_lexicon []) [Ins ex_st1])) <> fst (lex_regex x) /\
  fst (lex_regex x) = fst (lex_regex (run (new_lexicon []) [Ins ex_box])).
Proof. exact stale_ex. Qed.

(** ** C29 *)
Theorem C29_entry_round_trip : forall e, no_tab (le_word e) -> no_tab (le_std e) -> is_inset (le_type e) -> is_attset (le_att e) ->
  lexentry_of_line (lexentry_str e) = e.
Proof. exact lexentry_round. Qed.
Print Assumptions C29_entry_round_trip.
Example C29_example : let e := mkLE (s2t "LEXENTRY:") [] [I_WORD; I_TYPE] [DET_PRE; ATT_SUF] in
  no_tab (le_word e) /\ is_inset (le_type e) /\ is_attset (le_att e) /\
  lexentry_str e = s2t "LEXENTRY:" ++ [9] ++ s2t "LEXENTRY:" ++ [9; 9] ++ s2t "WORD,TYPE" ++ [9] ++ s2t "DET_PRE,ATT_SUF".
Proof.
  split; [vm_compute; intros K; repeat (destruct K as [K|K]; [discriminate|]); exact K|]. split; [repeat constructor|]. split; [repeat constructor|vm_compute; reflexivity].
Qed.

(** ** C30 *)
Theorem C30_print_load : forall e name n h x, x_lex x = x_lex (run (new_lexicon n) h) ->
  no_tab (x_name x) -> one_line (x_name x) -> no_tab (x_locale x) -> one_line (x_locale x) ->
  (forall w le, In le (lex_find x w) -> printable e (x_locale x) le) ->
  exists y, load_lexicon e name (lexicon_str x) = Ok y /\ x_lang y = x_lang x /\ x_locale y = x_locale x /\
    forall w, lex_find y w = lex_find x w.
Proof. exact print_load. Qed.
Print Assumptions C30_print_load.
Example C30_example : let x := mkLex (s2t "demo") L_ENG (s2t "en_US") (x_lex ex_lex) [] [] [] [] in
  no_tab (x_name x) /\ one_line (x_name x) /\ no_tab (x_locale x) /\ one_line (x_locale x) /\
  (forall w le, In le (lex_find x w) -> printable ascii_env (x_locale x) le) /\
  lex_find x (s2t "ST") = [ex_st1; ex_st2].
Proof. exact print_ex. Qed.

(** ** C31 *)
Theorem C31_newline_refuted :
  exists t, (exists x, load_lexicon ascii_env [] (t ++ [10]) = Ok x) /\ exists m, load_lexicon ascii_env [] t = Throw m.
Proof. exact newline_refuted. Qed.
Print Assumptions C31_newline_refuted.
(** Holds when the header is not on the unfinished line and normalizing is idempotent; the digest is not compared. *)
Theorem C31_newline_partial : forall e name ls r, (forall loc, steady e loc) -> Forall one_line ls -> one_line r -> r <> [] ->
  ((exists h, In h ls /\ is_header h) \/ (~ is_header r /\ forall t, r <> 0xFEFF :: t)) ->
  same_result (load_lexicon e name (file ls r)) (load_lexicon e name (file ls (r ++ [10]))).
Proof. exact no_newline. Qed.
Print Assumptions C31_newline_partial.
Example C31_example : (exists h, In h (removelast ex_src) /\ is_header h) /\ last ex_src [] <> [] /\ (forall loc, steady ascii_env loc) /\
  exists x y, load_lexicon ascii_env [] (file (removelast ex_src) (last ex_src [])) = Ok x /\
  load_lexicon ascii_env [] (file (removelast ex_src) (last ex_src [] ++ [10])) = Ok y /\ lex_find x (s2t "PO BOX") = [ex_box] /\ lex_find y (s2t "PO BOX") = [ex_box].
Proof. exact newline_ex. Qed.

(** ** C32 *)
Theorem C32_crlf_refuted : exists ls, Forall one_line ls /\
  (exists x e, load_lexicon ascii_env [] (file ls []) = Ok x /\ lex_find x (s2t "GASSE") = [e] /\ le_att e = [ATT_SUF]) /\
  (exists y e, load_lexicon ascii_env [] (crlf ls []) = Ok y /\ lex_find y (s2t "GASSE") = [e] /\ le_att e = []).
Proof. exact crlf_refuted. Qed.
Print Assumptions C32_crlf_refuted.
Theorem C32_crlf_rejected_refuted : exists ls, Forall one_line ls /\
  (exists x, load_lexicon ascii_env [] (file ls []) = Ok x) /\ (exists m, load_lexicon ascii_env [] (crlf ls []) = Throw m).
Proof. exact crlf_rejected. Qed.
Print Assumptions C32_crlf_rejected_refuted.
(** Holds when every line after the header has a further column (five tabs), so that the carriage return falls into it. *)
Theorem C32_crlf_partial : forall e name pre h es r y, (forall loc, keeps_ends e loc) -> Forall one_line (pre ++ h :: es) -> one_line r ->
  is_header h -> Forall (fun l => ~ is_header l) pre -> (forall l p, pre = l :: p -> forall t, l <> 0xFEFF :: t) ->
  (4 <= tabs h)%nat -> Forall (fun l => (5 <= tabs l)%nat) es ->
  load_lexicon e name (file (pre ++ h :: es) r) = Ok y ->
  exists z, load_lexicon e name (crlf (pre ++ h :: es) r) = Ok z /\ same_lexicon y z.
Proof. exact crlf_same. Qed.
Print Assumptions C32_crlf_partial.
Example C32_example : exists y z, load_lexicon ascii_env (s2t "demo") (file ex_src []) = Ok y /\
  load_lexicon ascii_env (s2t "demo") (crlf ex_src []) = Ok z /\ same_lexicon y z.
Proof. exact ex_crlf. Qed.

(** ** C33, lexicon texts *)
Theorem C33_lexicon_mark_refuted :
  exists t, (exists x, load_lexicon ascii_env [] t = Ok x) /\ exists m, load_lexicon ascii_env [] (0xFEFF :: t) = Throw m.
Proof. exact bom_refuted. Qed.
Print Assumptions C33_lexicon_mark_refuted.
(** Holds when the first line is neither the header nor an entry, with or without its first character. *)
Theorem C33_lexicon_mark_partial : forall e name d l ls r, d < 128 -> Forall one_line ((d :: l) :: ls) -> one_line r ->
  ~ is_header (d :: l) -> ~ is_entry (d :: l) -> ~ is_header l -> ~ is_entry l ->
  same_result (load_lexicon e name (0xFEFF :: file ((d :: l) :: ls) r)) (load_lexicon e name (file ((d :: l) :: ls) r)).
Proof. exact bom_ignored. Qed.
Print Assumptions C33_lexicon_mark_partial.
Example C33_lexicon_example : ~ is_header (hd [] ex_src) /\ ~ is_entry (hd [] ex_src) /\ ~ is_header (tl (hd [] ex_src)) /\ ~ is_entry (tl (hd [] ex_src)) /\
  exists x, load_lexicon ascii_env [] (0xFEFF :: file ex_src []) = Ok x /\ lex_find x (s2t "PO BOX") = [ex_box].
Proof. exact bom_ex. Qed.
