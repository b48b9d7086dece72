(** Which characters of an address are in no token (properties.jsonl C23, C18). *)
From Coq Require Import String List NArith.
From Verif Require Import Base_model Class_model Uni_model Token_model Lexicon_model Tokenizer_model Sample_model
  Lexicon_spec Tokenizer_spec Split_spec WrapperEx_proofs Lost_proofs.
Import ListNotations.
Local Open Scope N_scope.

(** Whatever the text: a character is in a token, or it is a comma, white space, in a separator, skipped at the start of a line, or
    left over at the end, where nothing can be read. *)
Theorem C23_exact : forall e x str ks, built x -> simple_words x -> word_tables (e_uni e) -> tabs_apart (e_uni e) x ->
  let t := search_text e x str in blank_lines (e_uni e) t -> all_tokens e x str = Ok ks ->
  exists ps left, t = concat (map taken ps) ++ left /\ well_read (e_uni e) x ps left /\ (left = [] \/ ~ readable (e_uni e) x left) /\
    forall c, In c t -> (exists k, In k ks /\ In c (t_text k)) \/ c = 44 \/ u_space (e_uni e) c = true \/ In c left \/
      exists p, In p ps /\ (In c (pc_skip p) \/ In c (pc_sep p)).
Proof. exact not_lost. Qed.
Print Assumptions C23_exact.
Example C23_exact_example : built w_x /\ simple_words w_x /\ word_tables ascii_uni /\ tabs_apart ascii_uni w_x /\ blank_lines ascii_uni (search_text ascii_env w_x stuck_str) /\
  exists ks, all_tokens ascii_env w_x stuck_str = Ok ks /\ map t_text ks = [s2t "12"; s2t " "].
Proof. exact lost_ex. Qed.
(** The claim for letters, digits and separators, tabs included. *)
Theorem C23_tabs_partial : forall e x str ks, built x -> simple_words x -> word_tables (e_uni e) -> tabs_apart (e_uni e) x ->
  blank_lines (e_uni e) (search_text e x str) -> clear_text (e_uni e) (search_text e x str) -> starts (e_uni e) (search_text e x str) ->
  all_tokens e x str = Ok ks -> forall c, In c (search_text e x str) -> alnum (e_uni e) c -> exists k, In k ks /\ In c (t_text k).
Proof. exact letters_tabs. Qed.
Print Assumptions C23_tabs_partial.
Example C23_tabs_example : built w_x /\ simple_words w_x /\ word_tables ascii_uni /\ tabs_apart ascii_uni w_x /\ In 9 (search_text ascii_env w_x tab_str) /\
  blank_lines ascii_uni (search_text ascii_env w_x tab_str) /\ clear_text ascii_uni (search_text ascii_env w_x tab_str) /\ starts ascii_uni (search_text ascii_env w_x tab_str) /\
  exists ks, all_tokens ascii_env w_x tab_str = Ok ks /\ map t_text ks = [s2t "12"; []; s2t "PO BOX"; s2t " "; s2t "7"].
Proof. exact tab_keep_ex. Qed.

(** ** C18 *)
(** There is an empty token in some alternative exactly when a token has a blank (so there are alternatives) and some token is
    empty or begins or ends with a blank. *)
Theorem C18_exact : forall u x ks alts, Forall (fun p => ~ In 9 (t_text p)) ks -> get_alt_tokens u x ks = Ok alts ->
  ((exists a k, In a alts /\ In k a /\ t_text k = []) <->
   (exists p, In p ks /\ phrase p) /\ exists p, In p ks /\ (t_text p = [] \/ hd_error (t_text p) = Some 32 \/ hd_error (rev (t_text p)) = Some 32)).
Proof. exact empty_exact. Qed.
Print Assumptions C18_exact.
Example C18_exact_example : exists ks alts, get_tokens ascii_env (mkTz w_x []) (s2t "12 MAIN") = Ok ks /\ Forall (fun p => ~ In 9 (t_text p)) ks /\
  get_alt_tokens ascii_uni w_x ks = Ok alts /\ map t_text ks = [s2t "12"; s2t " "; s2t "MAIN"] /\ map (map t_text) alts = [[s2t "12"; []; []; s2t "MAIN"]].
Proof. exact empty_ex. Qed.
