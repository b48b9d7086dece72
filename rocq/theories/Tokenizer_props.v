(** Properties of the tokenizer (properties.jsonl C15-C18, C22-C26, C55). *)
From Coq Require Import String List NArith Bool.
From Verif Require Import Base_model Class_model Uni_model Token_model Regex_model Lexicon_model Tokenizer_model Lexicon_spec Tokenizer_spec
  LexLoad_proofs TokPieces_proofs TokSplit_proofs TokKeep_proofs TokAlt_proofs TokExample_proofs.
Import ListNotations.
Local Open Scope N_scope.

(** ** C15 *)
Theorem C15_filter : forall e z str ks, get_tokens e z str = Ok ks <->
  exists all, all_tokens e (z_lex z) str = Ok all /\ sifted (caught (z_filter z)) all ks.
Proof. exact tokens_sifted. Qed.
Print Assumptions C15_filter.
Theorem C15_twice : forall f ks, apply_filter f (apply_filter f ks) = apply_filter f ks.
Proof. exact filter_again. Qed.
Print Assumptions C15_twice.
Theorem C15_edits : forall h z c, In c (z_filter (fold_left edit_filter h z)) <-> filtered (z_filter z) h c.
Proof. exact edits_in. Qed.
Print Assumptions C15_edits.
Theorem C15_set_only : forall f g ks, (forall c, In c f <-> In c g) -> apply_filter f ks = apply_filter g ks.
Proof. exact filter_same. Qed.
Print Assumptions C15_set_only.
Example C15_example :
  (exists ks, get_tokens ascii_env (mkTz ex_lex [I_SPACE; I_PUNCT]) ex_addr = Ok ks /\
    map t_text ks = [s2t "12"; s2t "PO BOX"; s2t "500"; s2t "W"; s2t "ST"; s2t "3.5"]) /\
  (let z := fold_left edit_filter [Add I_PUNCT; Replace [I_SPACE; I_DASH]; Add I_AMPERS; Remove I_DASH] (mkTz ex_lex []) in
   z_filter z = [I_SPACE; I_AMPERS] \/ z_filter z = [I_AMPERS; I_SPACE]).
Proof. exact (conj filter_ex2 filter_ex). Qed.

(** ** C16 *)
Theorem C16_alternatives_refuted : exists z str ks alts a k, built (z_lex z) /\ get_tokens ascii_env z str = Ok ks /\
  get_alt_tokens ascii_uni (z_lex z) ks = Ok alts /\ In a alts /\ In k a /\ caught (z_filter z) k.
Proof. exact alt_witness. Qed.
Print Assumptions C16_alternatives_refuted.
(** The tokenization itself is clean; alternatives are clean if the filter contains separator classes only and the words of
    the phrases consist of word characters and are not listed with a filtered class. *)
Theorem C16_tokens_partial : forall e z str ks k, get_tokens e z str = Ok ks -> In k ks -> ~ caught (z_filter z) k.
Proof. exact tokens_clean. Qed.
Print Assumptions C16_tokens_partial.
Theorem C16_alternatives_partial : forall e z str ks alts a k, (forall c, In c (z_filter z) -> separator_class c) -> get_tokens e z str = Ok ks ->
  get_alt_tokens (e_uni e) (z_lex z) ks = Ok alts -> In a alts -> In k a ->
  (forall p ws w, In p ks -> phrase p -> words_of (t_text p) ws -> In w ws ->
     words (e_uni e) w /\ ~ In 9 w /\ forall le c, In le (lex_find (z_lex z) w) -> In c (le_type le) -> ~ In c (z_filter z)) ->
  ~ caught (z_filter z) k.
Proof. exact alt_clean. Qed.
Print Assumptions C16_alternatives_partial.
Example C16_example : let z := mkTz ex_two [I_DASH; I_SPACE] in exists ks, get_tokens ascii_env z (s2t "po box 5") = Ok ks /\
  (forall c, In c (z_filter z) -> separator_class c) /\
  (forall p, In p ks -> t_text p <> [] /\ ~ In 9 (t_text p) /\ hd_error (t_text p) <> Some 32 /\ hd_error (rev (t_text p)) <> Some 32) /\
  forall p ws w, In p ks -> phrase p -> words_of (t_text p) ws -> In w ws ->
     words ascii_uni w /\ ~ In 9 w /\ forall le c, In le (lex_find (z_lex z) w) -> In c (le_type le) -> ~ In c (z_filter z).
Proof. exact clean_ex. Qed.

(** ** C17 *)
Theorem C17_alternatives : forall u x ks, (phrases ks <= 31)%nat -> exists bss alts, get_alt_tokens u x ks = Ok alts /\
  Forall2 (chosen u x ks) bss alts /\ NoDup bss /\
  (forall bs, In bs bss <-> List.length bs = phrases ks /\ In true bs) /\ N.of_nat (List.length alts) = 2 ^ N.of_nat (phrases ks) - 1.
Proof. exact alternatives. Qed.
Print Assumptions C17_alternatives.
Theorem C17_phrases : forall ks, exists ps, phrases ks = List.length ps /\ forall k, In k ps <-> In k ks /\ phrase k.
Proof. exact phrases_filter. Qed.
Print Assumptions C17_phrases.
Example C17_example : exists ks alts, get_tokens ascii_env (mkTz ex_two [I_SPACE]) (s2t "po box 5 po boxes") = Ok ks /\ phrases ks = 2%nat /\
  get_alt_tokens ascii_uni ex_two ks = Ok alts /\
  map (map t_text) alts = [[s2t "PO"; s2t "BOX"; s2t "5"; s2t "PO BOXES"]; [s2t "PO BOX"; s2t "5"; s2t "PO"; s2t "BOXES"];
    [s2t "PO"; s2t "BOX"; s2t "5"; s2t "PO"; s2t "BOXES"]].
Proof. exact alts_ex. Qed.

(** ** C18 *)
Theorem C18_empty_token_refuted : exists z str ks alts a k, built (z_lex z) /\ get_tokens ascii_env z str = Ok ks /\
  get_alt_tokens ascii_uni (z_lex z) ks = Ok alts /\ In a alts /\ In k a /\ t_text k = [].
Proof. exact empty_witness. Qed.
Print Assumptions C18_empty_token_refuted.
(** Holds if no token begins or ends with a blank (so separators that are blanks must have been filtered) or has a tab. *)
Theorem C18_no_empty_token_partial : forall u x ks alts a k, get_alt_tokens u x ks = Ok alts -> In a alts -> In k a ->
  (forall p, In p ks -> t_text p <> [] /\ ~ In 9 (t_text p) /\ hd_error (t_text p) <> Some 32 /\ hd_error (rev (t_text p)) <> Some 32) -> t_text k <> [].
Proof. exact alt_no_empty. Qed.
Print Assumptions C18_no_empty_token_partial.
(** See C16_example for tokens that meet the condition. *)
Example C18_example : let z := mkTz ex_two [I_DASH; I_SPACE] in exists ks, get_tokens ascii_env z (s2t "po box 5") = Ok ks /\
  forall p, In p ks -> t_text p <> [] /\ ~ In 9 (t_text p) /\ hd_error (t_text p) <> Some 32 /\ hd_error (rev (t_text p)) <> Some 32.
Proof. destruct clean_ex as (ks & H1 & _ & H2 & _). exists ks. exact (conj H1 H2). Qed.

(** ** C22 *)
Theorem C22_no_gaps_refuted : exists x str ps, built x /\ get_pieces ascii_env x str = Ok ps /\
  forall left, search_text ascii_env x str <> concat (map pc_all ps) ++ left.
Proof. exact skip_witness. Qed.
Print Assumptions C22_no_gaps_refuted.
(** With the text skipped at the starts of lines, for every lexicon. *)
Theorem C22_left_to_right_partial : forall e x str ps, built x -> get_pieces e x str = Ok ps -> exists left,
  search_text e x str = concat (map taken ps) ++ left /\
  Forall (fun p => in_order (e_uni e) p /\ (pc_skip p = [] \/ exists a c, pc_skip p = a ++ [c] /\ line_end c)) ps.
Proof. exact pieces_order. Qed.
Print Assumptions C22_left_to_right_partial.
(** Nothing is skipped in a text of one line. *)
Theorem C22_one_line_partial : forall e x str ps, built x -> (forall c, In c (search_text e x str) -> ~ line_end c) ->
  get_pieces e x str = Ok ps -> Forall (fun p => pc_skip p = []) ps.
Proof. exact pieces_one_line. Qed.
Print Assumptions C22_one_line_partial.
(** Text is skipped, or left over, only where nothing can be read; lexicons without carets and braces. *)
Theorem C22_left_over_partial : forall e x str ps, built x -> simple_words x -> blank_lines (e_uni e) (search_text e x str) ->
  get_pieces e x str = Ok ps ->
  exists left, search_text e x str = concat (map taken ps) ++ left /\ well_read (e_uni e) x ps left /\
    (left = [] \/ ~ readable (e_uni e) x left).
Proof. exact pieces_read. Qed.
Print Assumptions C22_left_over_partial.
Example C22_example : built ex_lex /\ simple_words ex_lex /\ blank_lines ascii_uni (search_text ascii_env ex_lex ex_addr) /\
  exists ps, get_pieces ascii_env ex_lex ex_addr = Ok ps /\ map pc_tok ps = [s2t "12"; s2t "PO BOX"; s2t "500W"; s2t "ST"; s2t "3,5"] /\
  map pc_sep ps = [s2t " "; s2t ", "; s2t " "; s2t " "; []].
Proof. exact (conj ex_built (conj ex_simple (conj ex_addr_lines ex_addr_pieces))). Qed.

(** ** C23 *)
Theorem C23_kept_refuted : exists x str ks c, built x /\ all_tokens ascii_env x str = Ok ks /\ In c (search_text ascii_env x str) /\ alnum ascii_uni c /\
  forall k, In k ks -> ~ In c (t_text k).
Proof. exact drop_witness. Qed.
Print Assumptions C23_kept_refuted.
(** Holds for addresses made of letters, digits and separators that begin with a letter or digit. *)
Theorem C23_letters_kept_partial : forall e x str ks, built x -> simple_words x -> plain_blank (e_uni e) -> ~ In TAB (search_text e x str) ->
  blank_lines (e_uni e) (search_text e x str) -> clear_text (e_uni e) (search_text e x str) -> starts (e_uni e) (search_text e x str) ->
  all_tokens e x str = Ok ks -> forall c, In c (search_text e x str) -> alnum (e_uni e) c -> exists k, In k ks /\ In c (t_text k).
Proof. exact letters_kept. Qed.
Print Assumptions C23_letters_kept_partial.
Example C23_example : let str := s2t " 12 PO BOX, 500W st/3" in let t := search_text ascii_env ex_lex str in
  built ex_lex /\ simple_words ex_lex /\ plain_blank ascii_uni /\ ~ In 9 t /\ blank_lines ascii_uni t /\ clear_text ascii_uni t /\ starts ascii_uni t /\
  exists ks, all_tokens ascii_env ex_lex str = Ok ks /\
    map t_text ks = [s2t "12"; s2t " "; s2t "PO BOX"; s2t ","; s2t "500"; s2t "W"; s2t " "; s2t "ST"; s2t "/"; s2t "3"].
Proof. exact keep_ex. Qed.

(** ** C24 *)
Theorem C24_scan_ends : forall e x str, built x -> blank_lines (e_uni e) (search_text e x str) ->
  get_pieces e x str = Throw regex_error \/
  exists ps, get_pieces e x str = Ok ps /\ (List.length ps <= S (List.length (search_text e x str)))%nat /\
    forall ps1 p ps2, ps = ps1 ++ p :: ps2 -> ps2 <> [] -> taken p <> [].
Proof. exact pieces_end. Qed.
Print Assumptions C24_scan_ends.
Theorem C24_tokens_end : forall e x str, built x -> blank_lines (e_uni e) (search_text e x str) -> all_tokens e x str <> UB.
Proof. exact tokens_defined. Qed.
Print Assumptions C24_tokens_end.
Theorem C24_pattern_parses : forall e x str, built x -> simple_words x -> get_pieces e x str <> Throw regex_error.
Proof. exact simple_no_throw. Qed.
Print Assumptions C24_pattern_parses.
Example C24_example : built ex_lex /\ simple_words ex_lex /\ blank_lines ascii_uni (search_text ascii_env ex_lex ex_addr) /\
  (exists ks, all_tokens ascii_env ex_lex ex_addr = Ok ks /\
    map t_text ks = [s2t "12"; s2t " "; s2t "PO BOX"; s2t ","; s2t "500"; s2t "W"; s2t " "; s2t "ST"; s2t " "; s2t "3.5"]) /\
  built (new_lexicon []) /\ exists ps, get_pieces ascii_env (new_lexicon []) (s2t "#1 A") = Ok ps /\ List.length ps = 4%nat.
Proof.
  split; [exact ex_built|]. split; [exact ex_simple|]. split; [exact ex_addr_lines|]. split; [exact ex_addr_tokens|]. split; [apply built_new|].
  eexists. split; vm_compute; reflexivity.
Qed.

(** ** C25 *)
Theorem C25_longest_word : forall e x str ps1 ps2 rem b w r, built x -> simple_words x -> blank_lines (e_uni e) (search_text e x str) ->
  case_clear (e_uni e) x rem -> get_pieces e x str = Ok (ps1 ++ ps2) -> search_text e x str = concat (map taken ps1) ++ rem ->
  rem = b ++ w ++ r -> longest (e_uni e) x b w r ->
  exists p ps3, ps2 = p :: ps3 /\ pc_skip p = [] /\ pc_tok p = w /\ pc_all p = b ++ w ++ pc_sep p.
Proof. exact pieces_longest. Qed.
Print Assumptions C25_longest_word.
Example C25_example : let str := s2t "7 PO BOX 9" in let t := search_text ascii_env ex_small str in
  built ex_small /\ simple_words ex_small /\ blank_lines ascii_uni t /\ case_clear ascii_uni ex_small (s2t "PO BOX 9") /\
  (exists p ps, get_pieces ascii_env ex_small str = Ok ([p] ++ ps) /\ t = concat (map taken [p]) ++ s2t "PO BOX 9") /\
  longest ascii_uni ex_small [] (s2t "PO BOX") (s2t " 9").
Proof. exact longest_ex. Qed.
(** With words listed in both cases a shorter one can be taken. *)
Theorem C25_both_cases_refuted : exists x str w p ps, built x /\ simple_words x /\ blank_lines ascii_uni (search_text ascii_env x str) /\ search_text ascii_env x str = w /\
  longest ascii_uni x [] w [] /\ get_pieces ascii_env x str = Ok (p :: ps) /\ pc_tok p <> w.
Proof. exact both_witness. Qed.
Print Assumptions C25_both_cases_refuted.

(** ** C26 *)
Theorem C26_parts : forall u x k, built x -> t_text k <> [] -> ~ In TAB (t_text k) -> (is_in_class k I_MIXED = true -> ~ In SP (t_text k)) ->
  split_token u x k = Throw regex_error \/
  exists ks, split_token u x k = Ok ks /\ (ks = [] \/ exists ws, parts (t_text k) ws /\ Forall2 (made_from u x I_WORD) ws ks).
Proof. exact split_ok. Qed.
Print Assumptions C26_parts.
Example C26_example : let k := plain_token (s2t "ALTERSTR") in built ex_att /\ t_text k <> [] /\ ~ In 9 (t_text k) /\ is_in_class k I_MIXED = false /\
  exists ks, split_token ascii_uni ex_att k = Ok ks /\ map t_text ks = [s2t "ALT"; s2t "ER"; s2t "STR"].
Proof. exact split_ex. Qed.

(** ** C55 *)
Theorem C55_tab_refuted : exists x str ps ks k, built x /\ get_pieces ascii_env x str = Ok ps /\ all_tokens ascii_env x str = Ok ks /\ In k ks /\
  t_text k = [] /\ Forall (fun p => pc_tok p <> []) ps /\ map pc_sep ps = [[9; 45]; []].
Proof. exact tab_witness. Qed.
Print Assumptions C55_tab_refuted.
(** Holds for texts without tabs, up to the full stop in numbers. *)
Theorem C55_scanned_text_partial : forall e x str, built x -> plain_blank (e_uni e) -> ~ In TAB (search_text e x str) ->
  blank_lines (e_uni e) (search_text e x str) ->
  all_tokens e x str = Throw regex_error \/
  exists ps groups, get_pieces e x str = Ok ps /\ all_tokens e x str = Ok (concat groups) /\ Forall2 (tokens_of (e_uni e) x) ps groups.
Proof. exact tokens_made. Qed.
Print Assumptions C55_scanned_text_partial.
Example C55_example : built ex_lex /\ plain_blank ascii_uni /\ ~ In 9 (search_text ascii_env ex_lex ex_addr) /\
  blank_lines ascii_uni (search_text ascii_env ex_lex ex_addr) /\
  exists ks, all_tokens ascii_env ex_lex ex_addr = Ok ks /\
    map t_text ks = [s2t "12"; s2t " "; s2t "PO BOX"; s2t ","; s2t "500"; s2t "W"; s2t " "; s2t "ST"; s2t " "; s2t "3.5"].
Proof. exact (conj ex_built (conj ascii_blank (conj ex_addr_tab (conj ex_addr_lines ex_addr_tokens)))). Qed.
