(** Lemmas about addresses that cannot be read. *)
From Coq Require Import String List NArith Bool Lia Arith Sorting.Permutation.
From Verif Require Import Read_proofs Base_model Class_model Uni_model Token_model Lexicon_model Tokenizer_model Archive_model Float_model Rule_model Search_model Grammar_model Wrapper_model
  Sample_model Class_spec Grammar_spec LexText_spec LexFile_spec LexDiag_spec Diagnosis_spec Lexicon_spec Tokenizer_spec Split_spec Read_spec Address_spec Answer_spec End_spec Local_spec Gap_spec Join_spec Unread_spec
  Loaded_spec Search_spec Loaded_proofs Score_proofs SearchTop_proofs
  TokAlt_proofs Address_proofs Wrapper_proofs WrapperTop_proofs TokPieces_proofs TokExample_proofs WrapperEx_proofs AddressEx_proofs End_proofs EndEx_proofs Edges_proofs Join_proofs.
Import ListNotations.
Local Open Scope N_scope.

Lemma token_parts : forall u x t w r, some_words x -> token_at u x t w r -> t = w ++ r /\ w <> [] /\ ~ begins_dash u t /\ token_text u x w /\ stops u r.
Proof.
  intros u x t w r SM T. inversion T as [w' r' D (E & L & S) _|D Z|w' r' D _ _ (E & L & S)|w' r' D _ _ _ (E & N & F & S)]; subst.
  - split; [reflexivity|]. split; [|split; [exact D|split; [left; exact L|exact S]]]. destruct L as (v & _ & N & F). inversion F; subst; [destruct (N eq_refl)|discriminate].
  - destruct (no_nothing u x SM _ Z).
  - split; [reflexivity|]. split; [|split; [exact D|split; [right; left; exact L|exact S]]]. destruct L as (d1 & s & d2 & -> & _). destruct d1; discriminate.
  - split; [reflexivity|]. split; [exact N|]. split; [exact D|]. split; [right; right; left; auto|exact S].
Qed.
Lemma round_full : forall u x t p rest, some_words x -> read_round u x t p rest -> pc_tok p <> [].
Proof. intros u x t p rest SM (b & t' & _ & _ & (_ & _ & T & _) & _). exact (proj1 (proj2 (token_parts _ _ _ _ _ SM T))). Qed.
Lemma round_readable : forall u x t p rest, some_words x -> one_line t -> read_round u x t p rest -> readable u x t.
Proof.
  intros u x t p rest SM O RR. assert (SK := one_skip _ _ _ _ _ O RR). destruct RR as (b & t' & E & _ & (E2 & B & T & _) & _). rewrite SK in E. cbn [app] in E. subst t'.
  destruct (token_parts _ _ _ _ _ SM T) as (_ & _ & D & TT & S). exists b, (pc_tok p), (pc_sep p ++ rest). auto.
Qed.
Lemma some_tokens : forall u x p ps, pc_tok p <> [] -> piece_tokens u x (p :: ps) <> Ok [].
Proof.
  intros u x p ps N H. cbn [piece_tokens] in H. destruct (word_tokens u x (pc_tok p)) as [ks| |] eqn:W; try discriminate. cbn [obind] in H. destruct (piece_tokens u x ps) as [rest| |]; try discriminate. cbn [obind] in H.
  injection H as H. apply app_eq_nil in H. destruct H as (-> & _). unfold word_tokens in W. destruct (pc_tok p) as [|c w]; [destruct (N eq_refl)|]. cbv zeta in W.
  destruct (t_inlex (classify u x (token_of_text (c :: w)) I_WORD)); [discriminate|]. destruct (split_token u x (classify u x (token_of_text (c :: w)) I_WORD)) as [[|k l]| |]; discriminate.
Qed.
Lemma empty_unreadable : forall u x, some_words x -> ~ readable u x [].
Proof.
  intros u x SM (b & w & r & E & _ & T & _). symmetry in E. apply app_eq_nil in E. destruct E as (_ & E). apply app_eq_nil in E. destruct E as (-> & _).
  destruct T as [(v & _ & N & F)|[(d1 & s & d2 & K & _)|[(N & _)|(_ & Z)]]].
  - inversion F; subst. exact (N eq_refl).
  - destruct d1; discriminate K.
  - exact (N eq_refl).
  - destruct SM as (v & L & N). exact (N (Z v L)).
Qed.
Lemma line_blank : forall u t, one_line t -> blank_lines u t.
Proof. intros u t O c I L. exfalso. unfold one_line in O. rewrite Forall_forall in O. exact (O c I L). Qed.
(** No tokens, exactly when no token can be read at the beginning. *)
Lemma none_exact : forall e x str, real_tables (e_uni e) -> built x -> simple_words x -> some_words x -> let t := e_upper e (x_locale x) (e_nfc e str) in
  one_line t -> case_clear (e_uni e) x t -> (all_tokens e x str = Ok [] <-> ~ readable (e_uni e) x t).
Proof.
  intros e x str (_ & AT & _) B SW SM t O CC. assert (BL := line_blank (e_uni e) t O). destruct (pieces_end e x str B BL) as [K|(ps & E & _)]; [destruct (simple_no_throw e x str B SW K)|].
  assert (SC : scanned (e_uni e) x t ps) by (apply (pieces_scanned e x str ps B SW AT BL CC); exact E). unfold all_tokens. rewrite E. cbn [obind].
  destruct (pieces_read e x str ps B SW BL E) as (left & ET & _ & L). split.
  - intros H. destruct ps as [|p ps].
    + cbn [map concat app] in ET. change (search_text e x str) with t in ET. subst left. destruct L as [L|L]; [|exact L]. rewrite L. apply empty_unreadable. exact SM.
    + exfalso. inversion SC as [|p' RR|t' p' rest ps' N RR SC']; subst; exact (some_tokens _ _ _ _ (round_full _ _ _ _ _ SM RR) H).
  - intros NR. inversion SC as [t' U|p RR E1 E2|t' p rest ps' N RR SC']; subst ps; [reflexivity| |].
    + exfalso. apply NR. exact (round_readable _ _ _ _ _ SM O (eq_rect _ (fun z => read_round (e_uni e) x z p []) RR _ E1)).
    + exfalso. exact (NR (round_readable _ _ _ _ _ SM O RR)).
Qed.
(** A sign in front. *)
Lemma sign_unread : forall u x t, apart_tables u -> some_words x -> sign_first u x t -> ~ readable u x t.
Proof.
  intros u x t AT SM (b & c & r & E & B & NA & NS & NW) (b' & w & r' & E' & B' & T & _). rewrite E in E'. clear t E.
  assert (L : (List.length b' <= List.length b)%nat).
  { destruct (Nat.le_gt_cases (List.length b') (List.length b)) as [L|L]; [exact L|]. exfalso. destruct (cut_beyond _ _ _ _ E' L) as (d & m & -> & K). injection K as <- _. apply Forall_app in B'. destruct B' as (_ & B'). inversion B'; congruence. }
  destruct (cut_inside _ _ _ _ E' L) as (b2 & -> & K). assert (HD : forall d w1, w = d :: w1 -> In d ((b' ++ b2) ++ [c])).
  { intros d w1 ->. cbn [app] in K. rewrite <- app_assoc. apply in_or_app. right. destruct b2 as [|z b2]; injection K as -> _; left; reflexivity. }
  assert (ND : forall d, In d ((b' ++ b2) ++ [c]) -> ~ alnum u d). { intros d I A. apply in_app_or in I. destruct I as [I|[<-|[]]]; [|exact (NA A)]. unfold blanks in B. rewrite Forall_forall in B. apply (proj1 (proj1 AT d A)). right; right; right; left. exact (B d I). }
  destruct T as [W|[(d1 & s & d2 & -> & (N1 & D1) & _)|[(N & F)|(_ & Z)]]].
  - destruct w as [|d w1]; [destruct W as (v & _ & N & F); inversion F; subst; exact (N eq_refl)|]. exact (NW _ d W eq_refl (HD d w1 eq_refl)).
  - destruct d1 as [|d d1]; [exact (N1 eq_refl)|]. inversion D1; subst. apply (ND d (HD d _ eq_refl)). right. assumption.
  - destruct w as [|d w1]; [exact (N eq_refl)|]. inversion F; subst. exact (ND d (HD d w1 eq_refl) H1).
  - destruct SM as (v & LI & N). exact (N (Z v LI)).
Qed.
Lemma sign_none : forall e x str, real_tables (e_uni e) -> built x -> simple_words x -> some_words x -> let t := e_upper e (x_locale x) (e_nfc e str) in
  one_line t -> case_clear (e_uni e) x t -> sign_first (e_uni e) x t -> all_tokens e x str = Ok [].
Proof. intros e x str RT B SW SM t O CC S. apply (none_exact e x str RT B SW SM O CC). exact (sign_unread _ _ _ (proj1 (proj2 RT)) SM S). Qed.

(** ** Whole calls *)
Lemma unread_phrases : forall e lx locale filt address x, real_tables (e_uni e) -> unread_with e lx locale address -> readable_with e lx locale address -> lexicon_of e lx x ->
  make_phrases e x locale filt address = Ok [[]].
Proof.
  intros e lx locale filt address x RT U R L. destruct (U x L) as (SM & O & NR). destruct (R x L) as (SW & BL & CC).
  assert (E := proj2 (none_exact e x (prepared e locale address) RT (lexicon_built _ _ _ L) SW SM O CC) NR). unfold make_phrases, get_tokens. cbn [z_lex z_filter set_filter]. rewrite E. reflexivity.
Qed.
Lemma unread_same : forall e atof sort address address' gr lx arg locale filt, real_tables (e_uni e) -> given_as e lx arg ->
  unread_with e lx locale address -> readable_with e lx locale address -> unread_with e lx locale address' -> readable_with e lx locale address' ->
  std_standardize e atof address' gr arg locale filt = std_standardize e atof address gr arg locale filt /\
  std_parse_address e address' arg locale filt = std_parse_address e address arg locale filt /\
  std_match_address e atof sort address' gr arg locale filt = std_match_address e atof sort address gr arg locale filt.
Proof.
  intros e atof sort address address' gr lx arg locale filt RT G U R U' R'. apply (calls_same e atof sort address address' gr lx arg locale filt G).
  intros x L. rewrite (unread_phrases e lx locale filt address x RT U R L). exact (unread_phrases e lx locale filt address' x RT U' R' L).
Qed.
Lemma unread_parse : forall e address lx arg locale filt, real_tables (e_uni e) -> given_as e lx arg -> unread_with e lx locale address -> readable_with e lx locale address ->
  parse_table (std_parse_address e address arg locale filt) = Ok [].
Proof.
  intros e address lx arg locale filt RT G U R. unfold std_parse_address. destruct (lexicon_given e lx arg G) as [(x & y & L & E & Z)|(m & _ & E)]; rewrite E; cbn [obind]; [|reflexivity].
  rewrite (proj1 (proj2 (Z (mkGrammar [] [] []) locale filt address))). unfold parse_addr. rewrite (unread_phrases e lx locale filt address x RT U R L). reflexivity.
Qed.

(** No tokens, no match. *)
Lemma derives_some : forall g names k rs, linked g -> derives g names k rs -> names <> [] -> rs <> [].
Proof.
  intros g names k rs L D. induction D as [|ms refs rest k rs I J D IH|sec r rest k rs I J D IH]; intros N; [destruct (N eq_refl)| |discriminate].
  apply IH. assert (R := lk_nonempty g L ms refs I J). destruct refs; [destruct (R eq_refl)|discriminate].
Qed.
Lemma derives_full : forall g names k rs, full_rules g -> derives g names k rs -> Forall (fun r => r_in r <> []) rs.
Proof. intros g names k rs F D. induction D; auto. constructor; [eapply F; eassumption|assumption]. Qed.
Lemma search_nothing : forall g, is_loaded g -> full_rules g -> search g [] = Ok [].
Proof.
  intros g G F. assert (L := loaded_linked g G). destruct (search_defined g ADDRESS [] L (loaded_address g G)) as (ps & E). unfold search. rewrite E. destruct ps as [|p ps]; [reflexivity|]. exfalso.
  destruct (search_sound g ADDRESS [] _ p L E (or_introl eq_refl)) as (k & (D & C) & _). assert (N := derives_some _ _ _ _ L D ltac:(discriminate)). assert (A := derives_full _ _ _ _ F D).
  destruct (p_rules p) as [|r rs]; [exact (N eq_refl)|]. inversion A; subst. unfold rule_inputs in C. cbn [map concat] in C. destruct (r_in r); [tauto|inversion C].
Qed.
Lemma unread_nothing : forall e atof sort address gr lx arg locale filt, real_tables (e_uni e) -> given_as e lx arg -> unread_with e lx locale address -> readable_with e lx locale address ->
  (forall l : list mresult, Permutation (sort l) l) -> (forall g, grammar_of (e_uni e) atof gr g -> full_rules g) ->
  address_row (std_standardize e atof address gr arg locale filt) = Ok (repeat None 17) /\
  exists rows, match_table (std_match_address e atof sort address gr arg locale filt) = Ok rows /\
    ((exists g x, grammar_of (e_uni e) atof gr g /\ lexicon_of e lx x) -> map m_matched rows = [s2t "Failed to match to grammar!"%string]) /\
    (((exists m, grammar_refused (e_uni e) atof gr m) \/ exists m, rejection e lx m) -> rows = []).
Proof.
  intros e atof sort address gr lx arg locale filt RT G U R S FR. unfold std_standardize, std_match_address.
  destruct (grammar_cases e atof gr (proj1 RT)) as [(g & E & GO & GL)|(m & E & GR)]; rewrite E; cbn [obind].
  2:{ split; [reflexivity|]. exists []. split; [reflexivity|]. split; [|reflexivity]. intros (g & x & GO & _). exfalso. destruct (grammar_exists e atof gr g (proj1 RT) GO) as (g' & E' & _). congruence. }
  destruct (lexicon_given e lx arg G) as [(x & y & L & EX & Z)|(m & LR & EX)]; rewrite EX; cbn [obind].
  2:{ split; [reflexivity|]. exists []. split; [reflexivity|]. split; [|reflexivity]. intros (g' & x & _ & L). destruct (lexicon_exclusive _ _ _ _ L LR). }
  destruct (Z g locale filt address) as (Z1 & _ & Z3). rewrite Z1, (Z3 sort). unfold standardize_addr, match_addr. rewrite (unread_phrases e lx locale filt address x RT U R L). cbn [obind].
  assert (N := search_nothing g GL (FR g GO)). split.
  - destruct (choice_sign g [[]] GL) as (b & EB & SG). rewrite EB. cbn [obind]. destruct (f_le f_zero (b_score b)) eqn:Q; [|reflexivity]. exfalso.
    destruct (proj1 SG Q) as (ph & ps & [<-|[]] & K & NE). rewrite N in K. injection K as <-. exact (NE eq_refl).
  - unfold search_all. cbn [omap]. unfold all_phrase. rewrite N. cbn. exists (sort [fail_row]). split; [reflexivity|]. split.
    + intros _. assert (P := S [fail_row]). apply Permutation_sym, Permutation_length_1_inv in P. rewrite P. reflexivity.
    + intros [(m & K)|(m & K)]; exfalso; [apply (grammar_refusal e atof gr m (proj1 RT)) in K; congruence|exact (lexicon_exclusive _ _ _ _ L K)].
Qed.

(** ** Examples *)
Definition sign_addr : text := s2t "  #12 Main st"%string.
Definition sign_addr' : text := s2t "(PO Box 7)"%string.
Lemma sign_readable : forall a, a = sign_addr \/ a = sign_addr' -> readable_with ascii_env w_lexicon en a.
Proof.
  intros a A x H. rewrite (w_only x H). split; [exact w_x_simple|]. destruct A as [-> | ->]; (split; [apply ascii_lines; absent|]);
    apply (upper_clear w_x _ [s2t "PO BOX"%string; s2t "ST"%string] w_x_built); vm_compute; reflexivity.
Qed.
Lemma no_sign_words : forall w d, word_like ascii_uni w_x w -> hd_error w = Some d -> ~ In d [32; 35; 40].
Proof.
  intros w d (v & L & N & F) E I. apply (listed_keys w_x _ [s2t "PO BOX"; s2t "ST"]%string w_x_built eq_refl) in L.
  assert (K : forall c, hd_error v = Some c -> c = 80 \/ c = 83). { cbn [In] in L. destruct L as [<-|[<-|[]]]; vm_compute; intros c Q; injection Q as <-; auto. }
  inversion F as [|c d' v' w' LK _]; subst; [discriminate|]. injection E as ->. destruct (K c eq_refl) as [-> | ->]; cbn [In] in I; destruct I as [<-|[<-|[<-|[]]]]; vm_compute in LK; intuition discriminate.
Qed.
Lemma sign_at : forall a, a = sign_addr \/ a = sign_addr' -> one_line (reading ascii_env w_x en a) /\ sign_first ascii_uni w_x (reading ascii_env w_x en a).
Proof.
  intros a [-> | ->].
  - split; [apply Forall_forall; intros c I K; revert I K; vm_compute; intuition (subst; discriminate)|].
    exists [32; 32], 35, (s2t "12 MAIN ST"%string). split; [vm_compute; reflexivity|]. split; [repeat constructor|]. split; [intros [Z|Z]; vm_compute in Z; discriminate|]. split; [reflexivity|].
    intros w d W E I. apply (no_sign_words w d W E). cbn [In app] in *. intuition.
  - split; [apply Forall_forall; intros c I K; revert I K; vm_compute; intuition (subst; discriminate)|].
    exists [], 40, (s2t "PO BOX 7)"%string). split; [vm_compute; reflexivity|]. split; [constructor|]. split; [intros [Z|Z]; vm_compute in Z; discriminate|]. split; [reflexivity|].
    intros w d W E I. apply (no_sign_words w d W E). cbn [In app] in *. intuition.
Qed.
Lemma sign_unread_with : forall a, a = sign_addr \/ a = sign_addr' -> unread_with ascii_env w_lexicon en a.
Proof.
  intros a A x L. rewrite (w_only x L). split; [exact w_some|]. destruct (sign_at a A) as (O & S). split; [exact O|]. exact (sign_unread _ _ _ ascii_apart w_some S).
Qed.
Lemma sign_setting : real_tables ascii_uni /\ built w_x /\ simple_words w_x /\ some_words w_x /\
  (let t := reading ascii_env w_x en sign_addr in one_line t /\ case_clear ascii_uni w_x t /\ sign_first ascii_uni w_x t /\ ~ readable ascii_uni w_x t).
Proof.
  split; [exact ascii_real|]. split; [exact w_x_built|]. split; [exact w_x_simple|]. split; [exact w_some|]. destruct (sign_at sign_addr (or_introl eq_refl)) as (O & S).
  split; [exact O|]. split; [|split; [exact S|exact (sign_unread _ _ _ ascii_apart w_some S)]].
  apply (upper_clear w_x _ [s2t "PO BOX"%string; s2t "ST"%string] w_x_built); vm_compute; reflexivity.
Qed.
Lemma unread_setting : real_tables ascii_uni /\ given_as ascii_env w_lexicon w_lexicon /\ unread_with ascii_env w_lexicon en sign_addr /\ readable_with ascii_env w_lexicon en sign_addr /\
  unread_with ascii_env w_lexicon en sign_addr' /\ readable_with ascii_env w_lexicon en sign_addr' /\ sign_addr <> sign_addr'.
Proof.
  split; [exact ascii_real|]. split; [exact w_given|]. split; [apply sign_unread_with; auto|]. split; [apply sign_readable; auto|]. split; [apply sign_unread_with; auto|]. split; [apply sign_readable; auto|discriminate].
Qed.
(** A sign that begins a listed word; a sign before the end of a line. *)
Definition pound_lines : list text := [
  s2t "LEXICON:"%string ++ wt ++ s2t "demo"%string ++ wt ++ s2t "ENG"%string ++ wt ++ s2t "en"%string ++ wt;
  s2t "LEXENTRY:"%string ++ wt ++ s2t "#"%string ++ wt ++ s2t "UNIT"%string ++ wt ++ s2t "UNITH"%string ++ wt ++ wt].
Definition pound_lexicon : text := file pound_lines [].
Lemma pound : exists rows, parse_table (std_parse_address ascii_env (s2t "# 12"%string) pound_lexicon en w_filter) = Ok rows /\ rows <> [].
Proof. eexists. split; [vm_compute; reflexivity|discriminate]. Qed.
Lemma broken : exists rows, parse_table (std_parse_address ascii_env (s2t "#"%string ++ [10] ++ s2t "12"%string) w_lexicon en w_filter) = Ok rows /\ rows <> [].
Proof. eexists. split; [vm_compute; reflexivity|discriminate]. Qed.
Lemma nothing_setting : real_tables ascii_uni /\ given_as ascii_env w_lexicon w_lexicon /\ unread_with ascii_env w_lexicon en sign_addr /\ readable_with ascii_env w_lexicon en sign_addr /\
  (forall l : list mresult, Permutation (rev l) l) /\ (forall g, grammar_of ascii_uni sample_atof w_grammar g -> full_rules g) /\
  (exists g x, grammar_of ascii_uni sample_atof w_grammar g /\ lexicon_of ascii_env w_lexicon x).
Proof.
  destruct unread_setting as (A & B & C & D & _). split; [exact A|]. split; [exact B|]. split; [exact C|]. split; [exact D|]. split; [intros l; apply Permutation_sym, Permutation_rev|]. split.
  2:{ exists w_g, w_x. split; [exact (proj1 (grammar_loads ascii_env sample_atof w_grammar w_g (proj1 ascii_real) w_grammar_ok))|exact (proj1 (lexicon_loads ascii_env w_lexicon w_x) w_x_loaded)]. }
  intros g G. apply w_alike in G. destruct G as (_ & E). intros sec r I J. rewrite <- E in I. revert sec r I J. vm_compute. intros sec r I J. repeat (destruct I as [<-|I]; [cbn in J; intuition (subst; discriminate)|]). destruct I.
Qed.
(** A rule without classes standardizes what has no tokens. *)
Definition empty_rule_grammar : text := s2t "[ADDRESS]
-> -> 0.9
"%string.
Lemma empty_matched : exists r, std_standardize ascii_env sample_atof sign_addr empty_rule_grammar w_lexicon en w_filter = Ok (Some r) /\ sa_pattern r = s2t "->"%string.
Proof. eexists. split; [vm_compute; reflexivity|reflexivity]. Qed.
