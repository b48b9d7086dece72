(** Text lost behind a place that cannot be read (src/tokenizer.cpp:164-268). *)
From Coq Require Import String List NArith.
From Verif Require Import Base_model Class_model Uni_model Token_model Rule_model Search_model Float_model Lexicon_model Tokenizer_model Archive_model Wrapper_model Sample_model
  Grammar_spec LexText_spec Lexicon_spec Tokenizer_spec Split_spec Address_spec End_spec Local_spec Gap_spec Join_spec Unread_spec Behind_spec WrapperEx_proofs Join_proofs Behind_proofs.
Import ListNotations.
Local Open Scope N_scope.

(** ** C125 *)
(** If no token can be read behind a separator, nothing behind it has a token. *)
Theorem C125_tokens : forall e x s sa sb g, real_tables (e_uni e) -> built x -> simple_words x -> tab_free x -> some_words x ->
  let t := e_upper e (x_locale x) (e_nfc e s) in let a := e_upper e (x_locale x) (e_nfc e sa) in let b := e_upper e (x_locale x) (e_nfc e sb) in
  t = a ++ g ++ b -> joined_at (e_uni e) x a g b -> blank_lines (e_uni e) t -> case_clear (e_uni e) x t -> one_line b -> ~ readable (e_uni e) x b ->
  exists ka kg, all_tokens e x sa = Ok ka /\ sep_exact (e_uni e) x g kg /\ all_tokens e x s = Ok (ka ++ kg).
Proof. exact lost_unfiltered. Qed.
Print Assumptions C125_tokens.
Example C125_tokens_example : real_tables ascii_uni /\ built w_x /\ simple_words w_x /\ tab_free w_x /\ some_words w_x /\
  (let t := reading ascii_env w_x en lost_addr in let a := reading ascii_env w_x en front_addr in let b := reading ascii_env w_x en lost_rest in
   t = a ++ [44; 32; 32] ++ b /\ joined_at ascii_uni w_x a [44; 32; 32] b /\ blank_lines ascii_uni t /\ case_clear ascii_uni w_x t /\ one_line b /\ ~ readable ascii_uni w_x b) /\
  forall k, sep_exact ascii_uni w_x [44; 32; 32] [k] -> exists c, In c (t_in k) /\ in_list w_filter c.
Proof. exact lost_direct. Qed.
(** If the filter drops the token of the separator, the tokens are those of the line before it. *)
Theorem C125_filtered : forall e x filt s sa sb g, real_tables (e_uni e) -> built x -> simple_words x -> tab_free x -> some_words x ->
  let t := e_upper e (x_locale x) (e_nfc e s) in let a := e_upper e (x_locale x) (e_nfc e sa) in let b := e_upper e (x_locale x) (e_nfc e sb) in
  t = a ++ g ++ b -> joined_at (e_uni e) x a g b -> blank_lines (e_uni e) t -> case_clear (e_uni e) x t ->
  (forall k, sep_exact (e_uni e) x g [k] -> exists c, In c (t_in k) /\ in_list filt c) -> one_line b -> ~ readable (e_uni e) x b ->
  get_tokens e (mkTz x (as_type filt)) s = get_tokens e (mkTz x (as_type filt)) sa.
Proof. exact lost_tokens. Qed.
Print Assumptions C125_filtered.
Example C125_filtered_example : real_tables ascii_uni /\ built w_x /\ simple_words w_x /\ tab_free w_x /\ some_words w_x /\
  (let t := reading ascii_env w_x en lost_addr in let a := reading ascii_env w_x en front_addr in let b := reading ascii_env w_x en lost_rest in
   t = a ++ [44; 32; 32] ++ b /\ joined_at ascii_uni w_x a [44; 32; 32] b /\ blank_lines ascii_uni t /\ case_clear ascii_uni w_x t /\ one_line b /\ ~ readable ascii_uni w_x b) /\
  forall k, sep_exact ascii_uni w_x [44; 32; 32] [k] -> exists c, In c (t_in k) /\ in_list w_filter c.
Proof. exact lost_direct. Qed.
(** So all three functions answer as for that line alone. *)
Theorem C125_calls : forall e atof sort address aa ab gr lx arg locale filt, real_tables (e_uni e) -> given_as e lx arg -> readable_with e lx locale address ->
  stops_after e lx locale filt address aa ab ->
  std_standardize e atof address gr arg locale filt = std_standardize e atof aa gr arg locale filt /\
  std_parse_address e address arg locale filt = std_parse_address e aa arg locale filt /\
  std_match_address e atof sort address gr arg locale filt = std_match_address e atof sort aa gr arg locale filt.
Proof. exact lost_calls. Qed.
Print Assumptions C125_calls.
Example C125_calls_example : real_tables ascii_uni /\ given_as ascii_env w_lexicon w_lexicon /\ readable_with ascii_env w_lexicon en lost_addr /\
  stops_after ascii_env w_lexicon en w_filter lost_addr front_addr lost_rest /\
  exists r, std_standardize ascii_env sample_atof lost_addr w_grammar w_lexicon en w_filter = Ok (Some r).
Proof. exact lost_setting. Qed.
(** Not if a line break follows. *)
Theorem C125_line_refuted : exists ra rb, parse_table (std_parse_address ascii_env (s2t "12 Main st,  $5"%string) w_lexicon en w_filter) = Ok ra /\
  parse_table (std_parse_address ascii_env (s2t "12 Main st,  $5"%string ++ [10] ++ s2t "PO Box 7"%string) w_lexicon en w_filter) = Ok rb /\ (List.length ra < List.length rb)%nat.
Proof. exact line_goes_on. Qed.
Print Assumptions C125_line_refuted.
