(** How an address is read, exactly (src/tokenizer.cpp, src/as_wrapper.cpp). *)
From Coq Require Import String List NArith.
From Verif Require Import Base_model Class_model Uni_model Token_model Lexicon_model Tokenizer_model Wrapper_model Sample_model Lexicon_spec Tokenizer_spec Split_spec Read_spec Address_spec
  Read_proofs Address_proofs WrapperEx_proofs AddressEx_proofs.
Import ListNotations.
Local Open Scope N_scope.

(** ** C76 *)
(** The rounds of reading, for lexicon words without carets and braces. *)
Theorem C76_rounds : forall e x str ps, built x -> simple_words x -> apart_tables (e_uni e) ->
  let t := e_upper e (x_locale x) (e_nfc e str) in blank_lines (e_uni e) t -> case_clear (e_uni e) x t ->
  (get_pieces e x str = Ok ps <-> scanned (e_uni e) x t ps).
Proof. exact pieces_scanned. Qed.
Print Assumptions C76_rounds.
Example C76_example : built w_x /\ simple_words w_x /\ apart_tables ascii_uni /\ blank_lines ascii_uni w_text /\ case_clear ascii_uni w_x w_text /\
  exists ps, scanned ascii_uni w_x w_text ps /\ map pc_tok ps = map s2t ["12"; "MAIN"; "ST"; "PO BOX"; "7"]%string /\ map pc_sep ps = map s2t [" "; " "; ",  "; " "; ""]%string.
Proof. exact (let (a, h) := w_setting in let (b, h) := h in let (c, h) := h in let (_, h) := h in let (d, h) := h in let (f, _) := h in
  conj a (conj b (conj c (conj d (conj f w_scanned))))). Qed.

(** ** C77 *)
(** The tokens of a text. *)
Theorem C77_tokens : forall e x str ks, built x -> simple_words x -> apart_tables (e_uni e) -> word_tables (e_uni e) ->
  let t := e_upper e (x_locale x) (e_nfc e str) in blank_lines (e_uni e) t -> case_clear (e_uni e) x t -> tabs_apart (e_uni e) x ->
  (all_tokens e x str = Ok ks <-> tokens_are (e_uni e) x t ks).
Proof. exact all_tokens_are. Qed.
Print Assumptions C77_tokens.
(** The alternatives of tokens without tabs. *)
Theorem C77_alternatives : forall u x ks phs, Forall (fun k => ~ In 9 (t_text k)) ks ->
  (obind (get_alt_tokens u x ks) (fun alts => Ok (ks :: alts)) = Ok phs <-> tokenizations u x ks phs).
Proof. exact alternatives_are. Qed.
Print Assumptions C77_alternatives.
(** A list of class names, as the filter is given. *)
Theorem C77_filter : forall t c, In c (as_type t) <-> in_list t c.
Proof. exact in_list_iff. Qed.
Print Assumptions C77_filter.
(** The tokenizations all three functions start from. *)
Theorem C77_tokenizations : forall e x locale filt address phs, built x -> simple_words x -> apart_tables (e_uni e) -> word_tables (e_uni e) ->
  let t := e_upper e (x_locale x) (e_nfc e (e_upper e locale (e_nfc e address))) in blank_lines (e_uni e) t -> case_clear (e_uni e) x t -> tabs_apart (e_uni e) x ->
  (make_phrases e x locale filt address = Ok phs <-> read_address (e_uni e) x filt t phs).
Proof. exact make_phrases_are. Qed.
Print Assumptions C77_tokenizations.
Example C77_example : (built w_x /\ simple_words w_x /\ apart_tables ascii_uni /\ word_tables ascii_uni /\ blank_lines ascii_uni w_text /\ case_clear ascii_uni w_x w_text /\ tabs_apart ascii_uni w_x) /\
  exists phs, read_address ascii_uni w_x w_filter w_text phs /\
  map (map t_text) phs = [map s2t ["12"; "MAIN"; "ST"; "PO BOX"; "7"]%string; map s2t ["12"; "MAIN"; "ST"; "PO"; "BOX"; "7"]%string].
Proof. exact (conj w_setting w_read). Qed.
