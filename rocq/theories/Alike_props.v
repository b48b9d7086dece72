(** Grammars that say the same (properties.jsonl C98). *)
From Coq Require Import String List NArith.
From Verif Require Import Base_model Class_model Float_model Uni_model Token_model Rule_model Search_model Lexicon_model Tokenizer_model Archive_model Wrapper_model
  Sample_model Search_spec Grammar_spec Loaded_spec Lexicon_spec End_spec Alike_spec WrapperEx_proofs AnswerEx_proofs Alike_proofs AlikeEx_proofs.
Import ListNotations.

(** ** C98 *)
(** Sections that correspond are searched with the same result. *)
Theorem C98_search : forall g g' phrase R n n', linked g -> linked g' -> corresponds R phrase g g' -> R n n' -> search_node g n phrase = search_node g' n' phrase.
Proof. exact (fun g g' phrase R n n' L L' C => search_same g g' phrase R L L' C n n'). Qed.
Print Assumptions C98_search.
Example C98_search_example : linked w_g /\ linked rural_g /\ Forall (fun ph => exists R, corresponds R ph w_g rural_g /\ R ADDRESS ADDRESS) w_phs /\ w_phs <> [] /\ w_g <> rural_g.
Proof. exact rural_search. Qed.
(** Two texts of grammars that say the same about an address give the same results. *)
Theorem C98_same : forall e atof sort address gr gr' g g' lx locale filt, uni_ok (e_uni e) -> grammar_of (e_uni e) atof gr g -> grammar_of (e_uni e) atof gr' g' ->
  (forall x phs, get_lexicon e lx = Ok x -> make_phrases e x locale filt address = Ok phs -> Forall (fun ph => say_same ph g g') phs) ->
  std_standardize e atof address gr lx locale filt = std_standardize e atof address gr' lx locale filt /\
  std_match_address e atof sort address gr lx locale filt = std_match_address e atof sort address gr' lx locale filt.
Proof. exact calls_same. Qed.
Print Assumptions C98_same.
Example C98_same_example : uni_ok ascii_uni /\ grammar_of ascii_uni sample_atof w_grammar w_g /\ grammar_of ascii_uni sample_atof rural_grammar rural_g /\
  (forall x phs, get_lexicon ascii_env w_lexicon = Ok x -> make_phrases ascii_env x en w_filter w_addr = Ok phs -> Forall (fun ph => say_same ph w_g rural_g) phs) /\
  exists r, std_standardize ascii_env sample_atof w_addr rural_grammar w_lexicon en w_filter = Ok (Some r).
Proof. exact rural_setting. Qed.
(** The order and the names of sections, and sections that are not reached from ADDRESS, do not matter for any address. *)
Theorem C98_reached : forall e atof sort f address gr gr' g g' lx locale filt, uni_ok (e_uni e) -> grammar_of (e_uni e) atof gr g -> grammar_of (e_uni e) atof gr' g' ->
  f ADDRESS = ADDRESS -> (forall n, reached g ADDRESS n -> same_lines f g g' n) ->
  std_standardize e atof address gr lx locale filt = std_standardize e atof address gr' lx locale filt /\
  std_match_address e atof sort address gr lx locale filt = std_match_address e atof sort address gr' lx locale filt.
Proof. exact calls_reached. Qed.
Print Assumptions C98_reached.
Example C98_reached_example : uni_ok ascii_uni /\ grammar_of ascii_uni sample_atof w_grammar w_g /\ grammar_of ascii_uni sample_atof moved_grammar moved_g /\ move ADDRESS = ADDRESS /\
  (forall n, reached w_g ADDRESS n -> same_lines move w_g moved_g n) /\ exists r, std_standardize ascii_env sample_atof w_addr moved_grammar w_lexicon en w_filter = Ok (Some r).
Proof. exact moved_setting. Qed.
(** The order of the lines within a section does matter. *)
Theorem C98_lines_refuted : exists r r', std_standardize ascii_env sample_atof (s2t "Main"%string) first_grammar w_lexicon en w_filter = Ok (Some r) /\
  std_standardize ascii_env sample_atof (s2t "Main"%string) second_grammar w_lexicon en w_filter = Ok (Some r') /\
  sa_pattern r = s2t "WORD -> STREET"%string /\ sa_pattern r' = s2t "WORD -> CITY"%string.
Proof. exact order_matters. Qed.
Print Assumptions C98_lines_refuted.
