(** In which order matches are listed, which one is chosen, and the whole answers (src/search.cpp, src/as_wrapper.cpp). *)
From Coq Require Import String List NArith ZArith Sorting.Sorted Sorting.Permutation Floats.SpecFloat.
From Verif Require Import Base_model Class_model Class_spec Float_model Token_model Rule_model Uni_model Search_model Lexicon_model Tokenizer_model Wrapper_model Sample_model Search_spec Lexicon_spec Tokenizer_spec Wrapper_spec Split_spec Loaded_spec Read_spec Address_spec
  Order_spec Answer_spec Loaded_proofs WrapperEx_proofs AddressEx_proofs OrderTop_proofs Answer_proofs AnswerEx_proofs.
Import ListNotations.

(** ** C78 *)
(** The matches of a tokenization, by classes and then by the positions of the alternatives used; only after the first time a match is
    listed may it be listed again, and the number of times is the product of the numbers of fitting rules. *)
Theorem C78_listing : forall g node phrase ps, is_loaded g -> (combinations phrase <= 2 ^ 32)%N -> Forall (fun k => is_inset (t_in k)) phrase ->
  search_node g node phrase = Ok ps ->
  exists ds ls, StronglySorted earlier ds /\ (forall m, In m ds <-> listed_match g node phrase m) /\
    map p_rules ps = map l_rules ls /\ echoes [] ds ls /\ Permutation ls (flat_map (fun m => repeat m (l_times m)) ds).
Proof. exact (fun g node phrase ps H => search_listed g node phrase ps (loaded_linked g H)). Qed.
Print Assumptions C78_listing.
Example C78_example : is_loaded twice_g /\ (combinations twice_phrase <= 2 ^ 32)%N /\ Forall (fun k => is_inset (t_in k)) twice_phrase /\
  exists ps, search_node twice_g ADDRESS twice_phrase = Ok ps /\
    map (fun p => rule_outputs (p_rules p)) ps = [[O_STREET; O_HOUSE]; [O_CITY; O_HOUSE]; [O_STREET; O_HOUSE]; [O_CITY; O_HOUSE]].
Proof. exact twice_order. Qed.

(** ** C79 *)
(** The match chosen among all tokenizations: the first of the best, of which there is only one. *)
Theorem C79_first_best : forall g phs, is_loaded g -> no_nan_scores g -> Forall (sizes_ok g) phs -> Forall (fun ph => (combinations ph <= 2 ^ 32)%N) phs ->
  Forall (Forall (fun k => is_inset (t_in k))) phs ->
  exists b, search_best g phs = Ok b /\
    ((forall i m, ~ candidate g phs i m) /\ b = mkBest [] f32_m1 [] f32_m1 \/
     exists i m ph, first_best g phs i m /\ nth_error phs i = Some ph /\ b_score b = average32 (l_rules m) /\
       map t_text (b_tokens b) = map t_text ph /\ map t_in (b_tokens b) = map (fun c => [c]) (l_classes m) /\ map t_out (b_tokens b) = rule_outputs (l_rules m) /\
       b_matched b = join [SP] (pattern_words (l_classes m) (rule_outputs (l_rules m)))).
Proof. exact best_chosen. Qed.
Print Assumptions C79_first_best.
Theorem C79_unique : forall g phs i m i' m', is_loaded g -> Forall (sizes_ok g) phs -> Forall (fun ph => (combinations ph <= 2 ^ 32)%N) phs ->
  Forall (Forall (fun k => is_inset (t_in k))) phs -> first_best g phs i m -> first_best g phs i' m' -> i = i' /\ m = m'.
Proof. exact chosen_unique. Qed.
Print Assumptions C79_unique.
(** Two matches with the same average in two tokenizations. *)
Example C79_example : (is_loaded twice_g /\ no_nan_scores twice_g /\ Forall (sizes_ok twice_g) [twice_phrase; twice_phrase] /\
    Forall (fun ph => (combinations ph <= 2 ^ 32)%N) [twice_phrase; twice_phrase] /\ Forall (Forall (fun k => is_inset (t_in k))) [twice_phrase; twice_phrase]) /\
  exists b, search_best twice_g [twice_phrase; twice_phrase] = Ok b /\ b_score b = f32_dec 5 1 /\ map t_out (b_tokens b) = [O_STREET; O_HOUSE].
Proof. exact (conj twice_fits twice_best). Qed.

(** ** C80 *)
(** The row of as_standardize is determined by the text of the address, the lexicon and the grammar. *)
Theorem C80_standardize : forall e g x locale filt address phs o, is_loaded g -> no_nan_scores g -> built x -> simple_words x -> apart_tables (e_uni e) -> word_tables (e_uni e) ->
  let t := e_upper e (x_locale x) (e_nfc e (e_upper e locale (e_nfc e address))) in blank_lines (e_uni e) t -> case_clear (e_uni e) x t -> tabs_apart (e_uni e) x ->
  read_address (e_uni e) x filt t phs -> Forall (sizes_ok g) phs -> Forall (fun ph => (combinations ph <= 2 ^ 32)%N) phs ->
  (standardize_addr e g x locale filt address = Ok o <-> answer g x phs o).
Proof. exact address_answer. Qed.
Print Assumptions C80_standardize.
Example C80_example : (built w_x /\ simple_words w_x /\ apart_tables ascii_uni /\ word_tables ascii_uni /\ blank_lines ascii_uni w_text /\ case_clear ascii_uni w_x w_text /\ tabs_apart ascii_uni w_x) /\
  is_loaded w_g /\ no_nan_scores w_g /\ read_address ascii_uni w_x w_filter w_text w_phs /\ (Forall (sizes_ok w_g) w_phs /\ Forall (fun ph => (combinations ph <= 2 ^ 32)%N) w_phs) /\
  standardize_addr ascii_env w_g w_x en w_filter w_addr =
  Ok (Some (mkStd [None; some "12"; None; None; None; some "MAIN"; some "STREET"; None; None; None; None; None; None; None; some "PO BOX 7"; None]
                  (s2t "NUMBER WORD TYPE BOXH NUMBER -> HOUSE STREET SUFTYP BOXH BOXT"))).
Proof. exact (conj w_setting (conj w_g_loaded (conj w_g_scores (conj w_phs_read (conj w_phs_sizes w_direct))))). Qed.
(** So are the rows of as_parse. *)
Theorem C80_parse : forall e x locale filt address phs rows, built x -> simple_words x -> apart_tables (e_uni e) -> word_tables (e_uni e) ->
  let t := e_upper e (x_locale x) (e_nfc e (e_upper e locale (e_nfc e address))) in blank_lines (e_uni e) t -> case_clear (e_uni e) x t -> tabs_apart (e_uni e) x ->
  read_address (e_uni e) x filt t phs -> (parse_table (parse_addr e x locale filt address) = Ok rows <-> parse_report phs rows).
Proof. exact address_parse. Qed.
Print Assumptions C80_parse.
(** The rows of as_match, up to the order of rows with equal scores. *)
Theorem C80_match : forall e sort g x locale filt address phs, is_loaded g -> built x -> simple_words x -> apart_tables (e_uni e) -> word_tables (e_uni e) ->
  let t := e_upper e (x_locale x) (e_nfc e (e_upper e locale (e_nfc e address))) in blank_lines (e_uni e) t -> case_clear (e_uni e) x t -> tabs_apart (e_uni e) x ->
  read_address (e_uni e) x filt t phs -> Forall (fun ph => (combinations ph <= 2 ^ 32)%N) phs -> (forall rows, search_all g phs = Ok rows -> sorted_rows rows (sort rows)) ->
  exists out, match_addr e sort g x locale filt address = Ok out /\ match_report g phs out.
Proof. exact address_matches. Qed.
Print Assumptions C80_match.
Example C80_match_example : (built w_x /\ simple_words w_x /\ apart_tables ascii_uni /\ word_tables ascii_uni /\ blank_lines ascii_uni v_text /\ case_clear ascii_uni w_x v_text /\ tabs_apart ascii_uni w_x) /\
  is_loaded w_g3 /\ exists phs, read_address ascii_uni w_x w_filter v_text phs /\ Forall (fun ph => (combinations ph <= 2 ^ 32)%N) phs /\
  (forall rows, search_all w_g3 phs = Ok rows -> sorted_rows rows (by_score rows)) /\
  exists r1 r2, match_addr ascii_env by_score w_g3 w_x en w_filter v_addr = Ok [r1; r2] /\ m_matched r1 = s2t "NUMBER WORD -> POSTAL CITY" /\ m_matched r2 = s2t "NUMBER WORD -> HOUSE STREET".
Proof. exact (conj v_setting (conj w_g3_loaded v_match)). Qed.
