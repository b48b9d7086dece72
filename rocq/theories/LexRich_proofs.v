(** Lemmas about a line with further classes of a listed word. *)
From Coq Require Import String List NArith Bool.
From Verif Require Import Base_model Class_model Uni_model Token_model Lexicon_model Tokenizer_model Archive_model Float_model Rule_model Search_model Wrapper_model Sample_model
  LexText_spec LexFile_spec LexDiag_spec Lexicon_spec Tokenizer_spec Split_spec Grammar_spec Wrapper_spec End_spec Local_spec Insert_spec Richer_spec
  Search_spec Search_proofs Loaded_proofs TokScan_proofs TokAlt_proofs TokExample_proofs LexMap_proofs LexFile_proofs WrapperEx_proofs End_proofs EndEx_proofs InsertEx_proofs Richer_proofs LexAdd_proofs.
Import ListNotations.
Local Open Scope N_scope.

Lemma richer_members : forall f x y z, richer f x y -> x_locale z = x_locale y -> (forall w le, In le (lex_find z w) <-> In le (lex_find y w)) -> richer f x z.
Proof.
  intros f x y z (R1 & R2 & R3 & R4 & R5 & R6) L E. assert (Li : forall w, listed y w <-> listed z w).
  { intros w. unfold listed. split; intros H K.
    - destruct (lex_find y w) as [|a l] eqn:Q; [destruct H; reflexivity|]. assert (J : In a (lex_find z w)) by (apply E; rewrite Q; left; reflexivity). rewrite K in J. destruct J.
    - destruct (lex_find z w) as [|a l] eqn:Q; [destruct H; reflexivity|]. assert (J : In a (lex_find y w)) by (apply E; rewrite Q; left; reflexivity). rewrite K in J. destruct J. }
  assert (C : forall w c, class_of y w c <-> class_of z w c) by (intros w c; split; intros (a & I & J); exists a; (split; [apply E; exact I|exact J])).
  split; [congruence|]. split; [intros w; rewrite R2; apply Li|]. split; [|split; [|split]].
  - intros w. rewrite (R3 w). split; intros (N & a & I & J); (split; [exact N|]); exists a; (split; [apply E; exact I|exact J]).
  - intros w. rewrite (R4 w). split; intros (N & a & I & J); (split; [exact N|]); exists a; (split; [apply E; exact I|exact J]).
  - intros w c K. apply C, R5, K.
  - intros w c K. apply R6, C, K.
Qed.
Lemma more_richer : forall e f l0 l le lx lx' x x', with_line_behind l0 l lx lx' -> is_header l0 \/ is_entry l0 -> lexicon_of e lx x -> lexicon_of e lx' x' -> body_line e (x_locale x) l le ->
  (exists d, class_of x (le_word le) d) -> (forall c, In c (le_type le) -> In c f -> class_of x (le_word le) c) ->
  (forall a, In a [ATT_PRE; ATT_SUF] -> In a (le_att le) -> exists le', In le' (lex_find x (le_word le)) /\ In a (le_att le')) -> richer f x x'.
Proof.
  intros e f l0 l le lx lx' x x' W M L L' B D F A. destruct (load_behind e query_lex l0 l le lx lx' x W M (proj2 (lexicon_loads e lx x) L) B) as (y & Ly & _ & Lo & Fo & Fm & _).
  rewrite (lexicon_one e lx' x' y L' (proj1 (lexicon_loads e lx' y) Ly)). assert (Bu := lexicon_built _ _ _ L). assert (Wf := proj1 (built_ok x Bu)).
  apply (richer_members f x (lex_insert x le)); [apply richer_insert; assumption|rewrite Lo; unfold lex_insert; destruct (existsb _ _); reflexivity|].
  intros w a. rewrite (find_insert x le w Wf). destruct (teqb w (le_word le)) eqn:E.
  - apply teqb_eq in E. subst w. rewrite Fm. destruct (in_dec _ _ _) as [I|I]; [split; [intros [->|J]; assumption|auto]|]. rewrite in_app_iff. cbn [In]. intuition congruence.
  - rewrite Fo; [reflexivity|]. intros ->. rewrite (proj2 (teqb_eq _ _) eq_refl) in E. discriminate.
Qed.
Lemma more_behind : forall e atof address gr l0 l le lx lx' arg arg' locale filt x x' phs' r, uni_ok (e_uni e) -> with_line_behind l0 l lx lx' -> is_header l0 \/ is_entry l0 ->
  given_as e lx arg -> given_as e lx' arg' -> lexicon_of e lx x -> lexicon_of e lx' x' -> body_line e (x_locale x) l le ->
  (exists d, class_of x (le_word le) d) -> (forall c, In c (le_type le) -> In c (as_type filt) -> class_of x (le_word le) c) ->
  (forall a, In a [ATT_PRE; ATT_SUF] -> In a (le_att le) -> exists le', In le' (lex_find x (le_word le)) /\ In a (le_att le')) ->
  make_phrases e x' locale filt address = Ok phs' -> Forall (fun ph => combinations ph <= 2 ^ 32) phs' ->
  std_standardize e atof address gr arg locale filt = Ok (Some r) -> exists r', std_standardize e atof address gr arg' locale filt = Ok (Some r').
Proof.
  intros e atof address gr l0 l le lx lx' arg arg' locale filt x x' phs' r U W M G G' L L' B D F A P C S.
  exact (richer_call e atof address gr lx lx' arg arg' locale filt x x' phs' r U G G' L L' (more_richer e _ l0 l le lx lx' x x' W M L L' B D F A) P C S).
Qed.
Lemma more_setting : uni_ok (e_uni ascii_env) /\ with_line_behind add_l0 saint_line w_lexicon rich_lexicon /\ is_entry add_l0 /\ given_as ascii_env w_lexicon w_lexicon /\ given_as ascii_env rich_lexicon rich_lexicon /\
  lexicon_of ascii_env w_lexicon w_x /\ lexicon_of ascii_env rich_lexicon rich_x /\ body_line ascii_env (x_locale w_x) saint_line saint_entry /\
  (exists d, class_of w_x (le_word saint_entry) d) /\ (forall c, In c (le_type saint_entry) -> In c (as_type w_filter) -> class_of w_x (le_word saint_entry) c) /\
  (forall a, In a [ATT_PRE; ATT_SUF] -> In a (le_att saint_entry) -> exists le', In le' (lex_find w_x (le_word saint_entry)) /\ In a (le_att le')) /\
  make_phrases ascii_env rich_x en w_filter w_addr = Ok rich_phs /\ Forall (fun ph => combinations ph <= 2 ^ 32) rich_phs /\
  exists r, std_standardize ascii_env sample_atof w_addr w_grammar w_lexicon en w_filter = Ok (Some r).
Proof.
  destruct rich_setting as (G & G' & L & L' & _ & _ & _ & P & _ & _ & _ & C & S). destruct saint_fits as (F1 & F2 & F3). split; [exact ascii_uni_ok|].
  split. { split; [apply no_lf_in; vm_compute; reflexivity|]. split; [apply no_lf_in; vm_compute; reflexivity|]. exists (file (removelast w_lines) []), []. split; [vm_compute; reflexivity|]. split; [vm_compute; reflexivity|]. right. apply ends_lf. vm_compute. reflexivity. }
  split; [exact add_entry|]. split; [exact G|]. split; [exact G'|]. split; [exact L|]. split; [exact L'|].
  split; [apply body_line_iff; split; [left; exists (skipn 9 (squeeze saint_line)); vm_compute; reflexivity|]; split; [vm_compute; reflexivity|vm_compute; intuition discriminate]|]. auto 8.
Qed.
