(** White space with tabs (src/token.cpp: Token::Token, src/tokenizer.cpp: Tokenizer::getTokens). *)
From Coq Require Import String List NArith.
From Verif Require Import Base_model Class_model Float_model Uni_model Token_model Lexicon_model Tokenizer_model Archive_model Wrapper_model Sample_model
  Grammar_spec LexText_spec Lexicon_spec Tokenizer_spec Split_spec Blank_spec WrapperEx_proofs Blank_proofs.
Import ListNotations.
Local Open Scope N_scope.

(** ** C95 *)
(** The token of a separator of white space: of class SPACE, but PUNCT if it begins with a tab, and BADTOKEN if anything stands
    between its second tab and its third. *)
Theorem C95_white_separator : forall u x w, word_tables u -> u_space u 32 = true -> ~ listed x [] -> ~ listed x [32] -> w <> [] -> Forall white w ->
  exists fs k, cells w fs /\ sep_tokens u x w = [k] /\ t_text k = match cell fs 0 with [] => [] | _ => [32] end /\ t_std k = cell fs 1 /\
    forall c, In c (t_in k) <-> c = white_class (cell fs 0) (cell fs 2).
Proof. exact white_token. Qed.
Print Assumptions C95_white_separator.
Example C95_example : word_tables ascii_uni /\ u_space ascii_uni 32 = true /\ ~ listed w_x [] /\ ~ listed w_x [32] /\
  map (fun w => map (fun k => (t_text k, t_in k)) (sep_tokens ascii_uni w_x w)) [[32]; [9]; [32; 9]; [9; 9]; [9; 9; 32]; [32; 9; 32; 9; 32]] =
  [[([32], [I_SPACE])]; [([], [I_PUNCT])]; [([32], [I_SPACE])]; [([], [I_PUNCT])]; [([], [I_BADTOKEN])]; [([32], [I_BADTOKEN])]].
Proof. exact white_example. Qed.
(** Which white space stands between two words does matter: two tabs and a blank prevent every match. *)
Theorem C95_white_space_refuted : exists r, std_standardize ascii_env sample_atof (tabbed [32]) w_grammar w_lexicon en w_filter = Ok (Some r) /\
  std_standardize ascii_env sample_atof (tabbed [9]) w_grammar w_lexicon en w_filter = Ok (Some r) /\
  std_standardize ascii_env sample_atof (tabbed [9; 9]) w_grammar w_lexicon en w_filter = Ok (Some r) /\
  std_standardize ascii_env sample_atof (tabbed [9; 9; 32]) w_grammar w_lexicon en w_filter = Ok None.
Proof. exact tabs_differ. Qed.
(** A filter that names SPACE does not drop a tab. *)
Theorem C95_filter_refuted : exists r, std_standardize ascii_env sample_atof (tabbed [32]) w_grammar w_lexicon en (s2t "SPACE"%string) = Ok (Some r) /\
  std_standardize ascii_env sample_atof (tabbed [9]) w_grammar w_lexicon en (s2t "SPACE"%string) = Ok None.
Proof. exact tab_kept. Qed.
(** A blank after an address that ends with two tabs changes the answer. *)
Theorem C95_blank_after_refuted : exists r, std_standardize ascii_env sample_atof (tabbed [32] ++ [9; 9]) w_grammar w_lexicon en w_filter = Ok (Some r) /\
  std_standardize ascii_env sample_atof (tabbed [32] ++ [9; 9; 32]) w_grammar w_lexicon en w_filter = Ok None.
Proof. exact tab_then_blank. Qed.

(** ** C40 *)
(** A rule with a misspelled input name matches an address in which two tabs and a blank stand between two words. *)
Theorem C40_misspelled_used_refuted : (forall c, in_str c <> s2t "WROD"%string) /\
  (exists r, std_standardize ascii_env sample_atof (tabbed [9; 9; 32]) wrod_grammar w_lexicon en w_filter = Ok (Some r)) /\
  std_standardize ascii_env sample_atof (tabbed [32]) wrod_grammar w_lexicon en w_filter = Ok None.
Proof. exact misspelled_used. Qed.
