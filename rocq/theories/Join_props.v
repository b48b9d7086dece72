(** Two addresses in one (src/tokenizer.cpp:164-268). *)
From Coq Require Import String List NArith.
From Verif Require Import Base_model Class_model Uni_model Token_model Lexicon_model Tokenizer_model Archive_model Wrapper_model Sample_model
  Grammar_spec LexText_spec Lexicon_spec Tokenizer_spec Split_spec Address_spec End_spec Local_spec Gap_spec Join_spec WrapperEx_proofs Join_proofs.
Import ListNotations.
Local Open Scope N_scope.

(** ** C123 *)
(** The tokens of a line, a separator and a further text are the tokens of the line, that of the separator and those of the text. *)
Theorem C123_tokens : forall e x s sa sb g, real_tables (e_uni e) -> built x -> simple_words x -> tab_free x -> some_words x ->
  let t := e_upper e (x_locale x) (e_nfc e s) in let a := e_upper e (x_locale x) (e_nfc e sa) in let b := e_upper e (x_locale x) (e_nfc e sb) in
  t = a ++ g ++ b -> joined_at (e_uni e) x a g b -> blank_lines (e_uni e) t -> case_clear (e_uni e) x t ->
  exists ka kg kb, all_tokens e x sa = Ok ka /\ sep_exact (e_uni e) x g kg /\ all_tokens e x sb = Ok kb /\ all_tokens e x s = Ok (ka ++ kg ++ kb).
Proof. exact join_tokens. Qed.
Print Assumptions C123_tokens.
Example C123_tokens_example : real_tables ascii_uni /\ built w_x /\ simple_words w_x /\ tab_free w_x /\ some_words w_x /\
  (let t := reading ascii_env w_x en w_addr in let a := reading ascii_env w_x en front_addr in let b := reading ascii_env w_x en back_addr in
   t = a ++ [44; 32; 32] ++ b /\ joined_at ascii_uni w_x a [44; 32; 32] b /\ blank_lines ascii_uni t /\ case_clear ascii_uni w_x t) /\
  forall k, sep_exact ascii_uni w_x [44; 32; 32] [k] -> exists c, In c (t_in k) /\ in_list w_filter c.
Proof. exact join_direct. Qed.
(** If the filter drops the token of the separator, they are the tokens of the line followed by those of the text. *)
Theorem C123_filtered : forall e x filt s sa sb g, real_tables (e_uni e) -> built x -> simple_words x -> tab_free x -> some_words x ->
  let t := e_upper e (x_locale x) (e_nfc e s) in let a := e_upper e (x_locale x) (e_nfc e sa) in let b := e_upper e (x_locale x) (e_nfc e sb) in
  t = a ++ g ++ b -> joined_at (e_uni e) x a g b -> blank_lines (e_uni e) t -> case_clear (e_uni e) x t ->
  (forall k, sep_exact (e_uni e) x g [k] -> exists c, In c (t_in k) /\ in_list filt c) ->
  exists ka kb, get_tokens e (mkTz x (as_type filt)) sa = Ok ka /\ get_tokens e (mkTz x (as_type filt)) sb = Ok kb /\ get_tokens e (mkTz x (as_type filt)) s = Ok (ka ++ kb).
Proof. exact join_filtered. Qed.
Print Assumptions C123_filtered.
Example C123_filtered_example : real_tables ascii_uni /\ built w_x /\ simple_words w_x /\ tab_free w_x /\ some_words w_x /\
  (let t := reading ascii_env w_x en w_addr in let a := reading ascii_env w_x en front_addr in let b := reading ascii_env w_x en back_addr in
   t = a ++ [44; 32; 32] ++ b /\ joined_at ascii_uni w_x a [44; 32; 32] b /\ blank_lines ascii_uni t /\ case_clear ascii_uni w_x t) /\
  forall k, sep_exact ascii_uni w_x [44; 32; 32] [k] -> exists c, In c (t_in k) /\ in_list w_filter c.
Proof. exact join_direct. Qed.
(** So are the rows that as_parse returns for the first tokenization. *)
Theorem C123_parse : forall e lx arg locale filt address aa ab rows ra rb, real_tables (e_uni e) -> given_as e lx arg -> readable_with e lx locale address ->
  (forall x, lexicon_of e lx x -> some_words x /\ exists g : text, reading e x locale address = reading e x locale aa ++ g ++ reading e x locale ab /\
     joined_at (e_uni e) x (reading e x locale aa) g (reading e x locale ab) /\ (forall k, sep_exact (e_uni e) x g [k] -> exists c, In c (t_in k) /\ in_list filt c)) ->
  parse_table (std_parse_address e address arg locale filt) = Ok rows -> parse_table (std_parse_address e aa arg locale filt) = Ok ra ->
  parse_table (std_parse_address e ab arg locale filt) = Ok rb -> first_reading rows = first_reading ra ++ first_reading rb.
Proof. exact join_parse. Qed.
Print Assumptions C123_parse.
Example C123_parse_example : real_tables ascii_uni /\ given_as ascii_env w_lexicon w_lexicon /\ readable_with ascii_env w_lexicon en w_addr /\
  (forall x, lexicon_of ascii_env w_lexicon x -> some_words x /\ exists g : text, reading ascii_env x en w_addr = reading ascii_env x en front_addr ++ g ++ reading ascii_env x en back_addr /\
     joined_at ascii_uni x (reading ascii_env x en front_addr) g (reading ascii_env x en back_addr) /\ (forall k, sep_exact ascii_uni x g [k] -> exists c, In c (t_in k) /\ in_list w_filter c)) /\
  exists rows ra rb, parse_table (std_parse_address ascii_env w_addr w_lexicon en w_filter) = Ok rows /\ parse_table (std_parse_address ascii_env front_addr w_lexicon en w_filter) = Ok ra /\
    parse_table (std_parse_address ascii_env back_addr w_lexicon en w_filter) = Ok rb /\ List.length (first_reading ra) = 3%nat /\ List.length (first_reading rb) = 2%nat /\ List.length rows = 11%nat.
Proof. exact join_setting. Qed.
(** With that filter the tokenizations of the whole are all pairs of tokenizations of the parts, those of the line varying faster. *)
Theorem C123_tokenizations : forall e x locale filt address aa ab g pa pb ps, real_tables (e_uni e) -> built x -> simple_words x -> tab_free x -> some_words x ->
  reading e x locale address = reading e x locale aa ++ g ++ reading e x locale ab -> joined_at (e_uni e) x (reading e x locale aa) g (reading e x locale ab) ->
  blank_lines (e_uni e) (reading e x locale address) -> case_clear (e_uni e) x (reading e x locale address) ->
  (forall k, sep_exact (e_uni e) x g [k] -> exists c, In c (t_in k) /\ in_list filt c) ->
  make_phrases e x locale filt aa = Ok pa -> make_phrases e x locale filt ab = Ok pb -> make_phrases e x locale filt address = Ok ps ->
  ps = flat_map (fun q => map (fun p => p ++ q) pa) pb.
Proof. exact join_phrases. Qed.
Print Assumptions C123_tokenizations.
Example C123_tokenizations_example : real_tables ascii_uni /\ built w_x /\ simple_words w_x /\ tab_free w_x /\ some_words w_x /\
  (let t := reading ascii_env w_x en boxes_addr in let a := reading ascii_env w_x en box_addr in let b := reading ascii_env w_x en back_addr in
   t = a ++ [44; 32; 32] ++ b /\ joined_at ascii_uni w_x a [44; 32; 32] b /\ blank_lines ascii_uni t /\ case_clear ascii_uni w_x t) /\
  (forall k, sep_exact ascii_uni w_x [44; 32; 32] [k] -> exists c, In c (t_in k) /\ in_list w_filter c) /\
  exists pa pb ps, make_phrases ascii_env w_x en w_filter box_addr = Ok pa /\ make_phrases ascii_env w_x en w_filter back_addr = Ok pb /\ make_phrases ascii_env w_x en w_filter boxes_addr = Ok ps /\
    map (@List.length token) pa = [2; 3]%nat /\ map (@List.length token) pb = [2; 3]%nat /\ map (@List.length token) ps = [4; 5; 5; 6]%nat.
Proof. exact boxes_setting. Qed.
(** Any number of parts. *)
Theorem C123_parts : forall e x filt str strs, real_tables (e_uni e) -> built x -> simple_words x -> tab_free x -> some_words x ->
  let t := e_upper e (x_locale x) (e_nfc e str) in in_parts (e_uni e) x filt t (map (fun s => e_upper e (x_locale x) (e_nfc e s)) strs) ->
  blank_lines (e_uni e) t -> case_clear (e_uni e) x t ->
  exists kss, Forall2 (fun s ks => get_tokens e (mkTz x (as_type filt)) s = Ok ks) strs kss /\ get_tokens e (mkTz x (as_type filt)) str = Ok (concat kss).
Proof. exact parts_tokens. Qed.
Print Assumptions C123_parts.
Example C123_parts_example : real_tables ascii_uni /\ built w_x /\ simple_words w_x /\ tab_free w_x /\ some_words w_x /\
  (let t := reading ascii_env w_x en three_addr in
   in_parts ascii_uni w_x w_filter t (map (fun s => e_upper ascii_env (x_locale w_x) (e_nfc ascii_env s)) [front_addr; box_addr; back_addr]) /\ blank_lines ascii_uni t /\ case_clear ascii_uni w_x t).
Proof. exact three_setting. Qed.
(** The conditions hold for a line of letters, digits and separators that begins and ends with a word, if the first sign of the separator is in no listed word. *)
Theorem C123_plain : forall e x sa c g b, real_tables (e_uni e) -> built x -> simple_words x -> let a := e_upper e (x_locale x) (e_nfc e sa) in
  one_line a -> case_clear (e_uni e) x a -> clear_text (e_uni e) a -> starts (e_uni e) a -> ends_word (e_uni e) a ->
  Forall (sep_char (e_uni e)) (c :: g) -> ~ begins_sep (e_uni e) b -> (g = [] -> ~ joins (e_uni e) c) -> (forall w, word_like (e_uni e) x w -> ~ In c w) ->
  joined_at (e_uni e) x a (c :: g) b.
Proof. exact clear_joined. Qed.
Print Assumptions C123_plain.
Example C123_plain_example : real_tables ascii_uni /\ built w_x /\ simple_words w_x /\ (let a := reading ascii_env w_x en front_addr in
  one_line a /\ case_clear ascii_uni w_x a /\ clear_text ascii_uni a /\ starts ascii_uni a /\ ends_word ascii_uni a) /\
  Forall (sep_char ascii_uni) [44; 32; 32] /\ ~ begins_sep ascii_uni (reading ascii_env w_x en back_addr) /\ ([32; 32] = @nil N -> ~ joins ascii_uni 44) /\ forall w, word_like ascii_uni w_x w -> ~ In 44 w.
Proof. exact clear_setting. Qed.
(** Not if a listed word reaches across the separator. *)
Theorem C123_across_refuted : exists rows ra rb, parse_table (std_parse_address ascii_env (s2t "PO Box 7"%string) w_lexicon en w_filter) = Ok rows /\
  parse_table (std_parse_address ascii_env (s2t "PO"%string) w_lexicon en w_filter) = Ok ra /\ parse_table (std_parse_address ascii_env (s2t "Box 7"%string) w_lexicon en w_filter) = Ok rb /\
  first_reading rows <> first_reading ra ++ first_reading rb.
Proof. exact across. Qed.
Print Assumptions C123_across_refuted.
(** Not if the separator is a sign that joins two numbers. *)
Theorem C123_joined_refuted : exists rows ra rb, parse_table (std_parse_address ascii_env (s2t "3/5"%string) w_lexicon en w_filter) = Ok rows /\
  parse_table (std_parse_address ascii_env (s2t "3"%string) w_lexicon en w_filter) = Ok ra /\ parse_table (std_parse_address ascii_env (s2t "5"%string) w_lexicon en w_filter) = Ok rb /\
  first_reading rows <> first_reading ra ++ first_reading rb.
Proof. exact joined. Qed.
Print Assumptions C123_joined_refuted.
