(** Lemmas about the row of as_standardize from the rows of as_parse. *)
From Coq Require Import String List NArith Bool Lia Arith Floats.SpecFloat.
From Verif Require Import Base_model Class_model Uni_model Regex_model Token_model Lexicon_model Tokenizer_model Archive_model Float_model Rule_model Search_model Grammar_model Wrapper_model
  Sample_model Class_spec Grammar_spec Search_spec Loaded_spec LexText_spec Lexicon_spec Tokenizer_spec Address_spec Wrapper_spec Answer_spec End_spec Score_spec PMatch_spec Derived_spec
  Class_proofs Address_proofs Filter_proofs Search_proofs SearchTop_proofs Loaded_proofs Score_proofs ScoreTop_proofs Wrapper_proofs WrapperTop_proofs TokSplit_proofs TokExample_proofs WrapperEx_proofs End_proofs Tells_proofs Words_proofs Explain_proofs PMatch_proofs.
Import ListNotations.
Local Open Scope N_scope.

Lemma phrase_words : forall ks i j, map pr_word (fst (phrase_rows i j ks)) = map t_text ks.
Proof. induction ks as [|k ks IH]; intros i j; [reflexivity|]. cbn [phrase_rows]. specialize (IH i (j + 1)). destruct (phrase_rows i (j + 1) ks) as (l, j'). cbn [fst map] in *. rewrite IH. reflexivity. Qed.
Lemma words_of_number : forall phs a i j ph, nth_error phs a = Some ph -> map pr_word (filter (fun r => pr_pat r =? i + N.of_nat a) (all_rows i j phs)) = map t_text ph.
Proof.
  induction phs as [|p phs IH]; intros a i j ph H; [destruct a; discriminate|]. cbn [all_rows]. destruct (phrase_rows_are p i j) as (A & _). assert (B := phrase_words p i j). destruct (phrase_rows i j p) as (l, j'). cbn [fst] in *. rewrite filter_app.
  destruct a as [|a].
  - injection H as ->. change (N.of_nat 0) with 0. rewrite N.add_0_r. rewrite filter_every by (eapply Forall_impl; [|exact A]; intros r ->; apply N.eqb_refl).
    rewrite filter_never, app_nil_r by (eapply Forall_impl; [|exact (rows_later phs (i + 1) j')]; intros r K; cbv beta in K; apply N.eqb_neq; lia). exact B.
  - rewrite filter_never by (eapply Forall_impl; [|exact A]; intros r ->; apply N.eqb_neq; lia). cbn [app]. replace (i + N.of_nat (S a)) with ((i + 1) + N.of_nat a) by lia. apply IH. exact H.
Qed.
Lemma shown_filter_words : forall p l, map pr_word (filter (fun r => pr_pat r =? p + 1) (map shown l)) = map pr_word (filter (fun r => pr_pat r =? p) l).
Proof.
  intros p l. induction l as [|r l IH]; [reflexivity|]. cbn [map filter]. change (pr_pat (shown r)) with (pr_pat r + 1). destruct (N.eqb_spec (pr_pat r) p) as [->|N].
  - rewrite N.eqb_refl. cbn [map]. rewrite IH. reflexivity.
  - replace (pr_pat r + 1 =? p + 1) with false by (symmetry; apply N.eqb_neq; lia). exact IH.
Qed.
Lemma numbered_words : forall phs a ph, nth_error phs a = Some ph -> map pr_word (with_number (N.of_nat a + 1) (map shown (all_rows 0 0 phs))) = map t_text ph.
Proof. intros phs a ph H. unfold with_number. rewrite shown_filter_words. exact (words_of_number phs a 0 0 ph H). Qed.
Lemma texts_of : forall x ks cs ws rows, Forall fresh ks -> map pr_word rows = map t_text ks -> standards x ks cs ws -> texts_for x rows cs ws.
Proof.
  intros x ks cs ws rows F E S. revert rows F E. induction S as [|k c w ks cs ws H S IH]; intros [|row rows] F E; try discriminate; [constructor|]. cbn [map] in E. injection E as E1 E2. inversion F as [|a b F1 F2]; subst. constructor; [|auto].
  rewrite E1. destruct H as [H|(H1 & H2)]; [left; exact H|right]. split; [exact H1|]. rewrite F1 in H2. exact H2.
Qed.
Lemma at_explains : forall g rows p rs, explains_at g rows p rs -> explains g rows rs.
Proof. intros g rows p rs (k & H). exists p, k. exact H. Qed.
Lemma parse_row : forall e atof address gr arg locale filt g rows a, uni_ok (e_uni e) -> get_grammar e atof gr = Ok g ->
  parse_table (std_parse_address e address arg locale filt) = Ok rows -> rows <> [] -> (forall p, choices (with_number p rows) <= 2 ^ 32) ->
  std_standardize e atof address gr arg locale filt = Ok (Some a) ->
  exists x p rs, get_lexicon e arg = Ok x /\ explains_at g rows p rs /\ unbeaten g rows rs /\
    sa_pattern a = join [32] (pattern_words (rule_inputs rs) (rule_outputs rs)) /\
    (~ In 9 (reading e x locale address) -> exists ws, texts_for x (with_number p rows) (rule_inputs rs) ws /\ sa_fields a = map (fun c => content c (combine (rule_outputs rs) ws)) columns).
Proof.
  intros e atof address gr arg locale filt g rows a U Gr P N B S. destruct (grammar_cases e atof gr U) as [(g' & E & _ & G)|(m & E & _)]; rewrite Gr in E; [injection E as <-|discriminate].
  destruct (table_rows _ _ P N) as (l & Q & ->). destruct (parsed _ _ _ _ _ _ Q) as (x & phs & X & Mp & ->).
  assert (F : Forall (fun p => p <> []) phs) by (destruct (phrases_some _ _ _ _ _ _ Mp) as [->|F]; [exfalso; apply N; reflexivity|exact F]).
  unfold std_standardize in S. rewrite Gr, X in S. cbn [obind] in S. destruct (row_any e g x locale filt address a phs G Mp S) as (ph & k & rs & ws & I & D & C & K & St & Fi & Pa & Max).
  rewrite Forall_forall in F. assert (Ne := F ph I). assert (I' := I). apply In_nth_error in I'. destruct I' as (i & H). assert (R := numbered_rows phs i ph H). assert (L := same_length _ _ R).
  exists x, (N.of_nat i + 1), rs. split; [exact X|]. split; [|split; [|split; [exact Pa|]]].
  - exists k. split; [intros Z; rewrite Z in L; destruct ph; [congruence|discriminate]|]. split; [exact D|]. split; [rewrite L; exact K|]. apply (proj2 (choice_of ph _ _ R)). exact C.
  - intros p' rs' (k' & N' & D' & K' & C'). destruct (numbered_some phs p' N') as (i' & ph' & H' & ->). assert (R' := numbered_rows phs i' ph' H'). assert (L' := same_length _ _ R'). apply (proj1 (choice_of ph' _ _ R')) in C'. rewrite L' in K'.
    apply (Max ph' k' rs'); [eapply nth_error_In; exact H'|eapply N.le_trans; [apply (choices_bound ph' _ R')|apply B]|exact D'|exact C'|exact K'].
  - intros T. exists ws. split; [|exact Fi]. assert (Fr := fresh_phrases _ _ _ _ _ _ T Mp). rewrite Forall_forall in Fr. apply (texts_of x ph); [apply Fr; exact I|apply numbered_words; exact H|exact St].
Qed.
Lemma parse_row_setting : uni_ok (e_uni ascii_env) /\ (forall x, get_lexicon ascii_env w_lexicon = Ok x -> ~ In 9 (reading ascii_env x en w_addr)) /\ exists g rows a, get_grammar ascii_env sample_atof w_grammar = Ok g /\
  parse_table (std_parse_address ascii_env w_addr w_lexicon en w_filter) = Ok rows /\ rows <> [] /\ (forall p, choices (with_number p rows) <= 2 ^ 32) /\
  std_standardize ascii_env sample_atof w_addr w_grammar w_lexicon en w_filter = Ok (Some a) /\ nth 14 (sa_fields a) None = Some (s2t "PO BOX 7"%string).
Proof.
  split; [exact ascii_uni_ok|]. split; [intros x X; vm_compute; intuition discriminate|]. do 3 eexists. split; [vm_compute; reflexivity|]. split; [vm_compute; reflexivity|]. split; [discriminate|].
  split; [intros p; eapply N.le_trans; [apply choices_part|vm_compute; discriminate]|]. split; vm_compute; reflexivity.
Qed.
(** With tabs a field can have a character that is in no word of as_parse and in no standard word of the lexicon for them. *)
Lemma texts_free : forall x rows cs ws d, texts_for x rows cs ws -> Forall (fun row => ~ In d (pr_word row) /\ Forall (fun le => ~ In d (le_std le)) (lex_find x (pr_word row))) rows -> Forall (fun w => ~ In d w) ws.
Proof.
  intros x rows cs ws d T. induction T as [|row c w rows cs ws H T IH]; intros F; [constructor|]. inversion F as [|a b (F1 & F2) F3]; subst. constructor; [|auto]. destruct H as [(l1 & le & l2 & E & _ & _ & ->)|(_ & ->)]; [|exact F1].
  rewrite E in F2. apply Forall_app in F2. destruct F2 as (_ & F2). inversion F2 as [|a b F4 F5]; subst. unfold or_text. destruct (le_std le); [exact F1|exact F4].
Qed.
Lemma joined_free : forall (d : N) (ws : list text), d <> 32 -> Forall (fun w => ~ In d w) ws -> ~ In d (blank_joined ws).
Proof.
  intros d ws N F. induction F as [|w ws H F IH]; [intros []|]. destruct ws as [|v ws]; [exact H|]. change (blank_joined (w :: v :: ws)) with (w ++ 32 :: blank_joined (v :: ws)). intros I. apply in_app_or in I. destruct I as [I|[I|I]]; [exact (H I)|congruence|exact (IH I)].
Qed.
Lemma picked_free : forall (d : N) c (os : list outtype) (ws : list text), Forall (fun w => ~ In d w) ws -> Forall (fun w => ~ In d w) (map snd (filter (fun ow => in_column c (fst ow)) (combine os ws))).
Proof.
  intros d c os ws F. apply Forall_forall. intros w I. apply in_map_iff in I. destruct I as ((o, v) & <- & I). apply filter_In in I. destruct I as (I & _). apply in_combine_r in I. rewrite Forall_forall in F. exact (F v I).
Qed.
Lemma content_free : forall (d : N) c (os : list outtype) (ws : list text) t, d <> 32 -> Forall (fun w => ~ In d w) ws -> content c (combine os ws) = Some t -> ~ In d t.
Proof.
  intros d c os ws t N F H. assert (P := picked_free d c os ws F). unfold content, field in H. destruct (map snd _) as [|w l]; [discriminate H|]. injection H as <-. exact (joined_free d (w :: l) N P).
Qed.
Lemma number_part : forall (P : prow -> Prop) p rows, Forall P rows -> Forall P (with_number p rows).
Proof. intros P p rows F. apply Forall_forall. intros row I. unfold with_number in I. apply filter_In in I. rewrite Forall_forall in F. apply F. apply I. Qed.
Lemma parse_row_tabs : exists x g rows a, get_lexicon ascii_env w_lexicon = Ok x /\ get_grammar ascii_env sample_atof punct_grammar = Ok g /\
  parse_table (std_parse_address ascii_env hash_addr w_lexicon en []) = Ok rows /\ std_standardize ascii_env sample_atof hash_addr punct_grammar w_lexicon en [] = Ok (Some a) /\
  nth 9 (sa_fields a) None = Some (s2t "# "%string) /\
  forall p rs ws, texts_for x (with_number p rows) (rule_inputs rs) ws -> sa_fields a <> map (fun c => content c (combine (rule_outputs rs) ws)) columns.
Proof.
  do 4 eexists. split; [vm_compute; reflexivity|]. split; [vm_compute; reflexivity|]. split; [vm_compute; reflexivity|]. split; [vm_compute; reflexivity|]. split; [vm_compute; reflexivity|].
  intros p rs ws T E. apply (texts_free _ _ _ _ 35) in T; [|apply number_part; repeat (constructor; [split; [vm_compute; intuition discriminate|vm_compute; repeat (constructor; [intuition discriminate|]); constructor]|]); constructor].
  apply (f_equal (fun l => nth 9 l None)) in E. cbn [columns map nth sa_fields] in E. symmetry in E. refine (content_free 35 _ _ _ _ _ T E _); [discriminate|left; reflexivity].
Qed.
(** A derivation that is better than all with another pattern decides the pattern. *)
Lemma parse_clear : forall e atof address gr arg locale filt g rows p rs, uni_ok (e_uni e) -> get_grammar e atof gr = Ok g ->
  parse_table (std_parse_address e address arg locale filt) = Ok rows -> (forall p, choices (with_number p rows) <= 2 ^ 32) -> explains_at g rows p rs ->
  (forall p' rs', explains_at g rows p' rs' -> pattern_words (rule_inputs rs') (rule_outputs rs') <> pattern_words (rule_inputs rs) (rule_outputs rs) -> SFltb (counted (average32 rs')) (counted (average32 rs)) = true) ->
  exists a, std_standardize e atof address gr arg locale filt = Ok (Some a) /\ sa_pattern a = join [32] (pattern_words (rule_inputs rs) (rule_outputs rs)).
Proof.
  intros e atof address gr arg locale filt g rows p rs U Gr P B X W. assert (N : rows <> []) by (intros ->; destruct X as (k & Z & _); apply Z; reflexivity).
  destruct (proj2 (parse_standardize e atof address gr arg locale filt g rows U Gr P N B) (ex_intro _ rs (at_explains _ _ _ _ X))) as (a & A). exists a. split; [exact A|].
  destruct (parse_row e atof address gr arg locale filt g rows a U Gr P N B A) as (x & p0 & rs0 & _ & X0 & M & -> & _). f_equal.
  destruct (list_eq_dec (list_eq_dec N.eq_dec) (pattern_words (rule_inputs rs0) (rule_outputs rs0)) (pattern_words (rule_inputs rs) (rule_outputs rs))) as [E|E]; [exact E|].
  exfalso. assert (L := W p0 rs0 X0 E). rewrite (M p rs X) in L. discriminate.
Qed.
Definition two_grammar : text := s2t "[ADDRESS]
NUMBER WORD -> HOUSE CITY -> 0.4
NUMBER WORD -> HOUSE STREET -> 0.9
"%string.
Definition two_addr : text := s2t "12 Main"%string.
Lemma clear_setting : uni_ok (e_uni ascii_env) /\ exists g rows rs rs', get_grammar ascii_env sample_atof two_grammar = Ok g /\
  parse_table (std_parse_address ascii_env two_addr w_lexicon en w_filter) = Ok rows /\ (forall p, choices (with_number p rows) <= 2 ^ 32) /\ explains_at g rows 1 rs /\ explains_at g rows 1 rs' /\
  pattern_words (rule_inputs rs') (rule_outputs rs') <> pattern_words (rule_inputs rs) (rule_outputs rs) /\
  (forall p' rs', explains_at g rows p' rs' -> pattern_words (rule_inputs rs') (rule_outputs rs') <> pattern_words (rule_inputs rs) (rule_outputs rs) -> SFltb (counted (average32 rs')) (counted (average32 rs)) = true) /\
  join [32] (pattern_words (rule_inputs rs) (rule_outputs rs)) = s2t "NUMBER WORD -> HOUSE STREET"%string.
Proof.
  split; [exact ascii_uni_ok|].
  assert (Gr : exists g sec r1 r2, get_grammar ascii_env sample_atof two_grammar = Ok g /\ g_metas g = [] /\ g_rules g = [sec] /\ rs_name sec = s2t "ADDRESS"%string /\ rs_rules sec = [r1; r2] /\
    r_in r1 = [I_NUMBER; I_WORD] /\ r_in r2 = [I_NUMBER; I_WORD] /\ r_out r1 = [O_HOUSE; O_CITY] /\ r_out r2 = [O_HOUSE; O_STREET] /\ SFltb (counted (average32 [r1])) (counted (average32 [r2])) = true)
    by (do 4 eexists; split; [vm_compute; reflexivity|]; repeat (split; [vm_compute; reflexivity|]); vm_compute; reflexivity).
  destruct Gr as (g & sec & r1 & r2 & Gr & G1 & G2 & G3 & G4 & G5 & G6 & G7 & G8 & Lt). exists g.
  assert (Ro : exists a b, parse_table (std_parse_address ascii_env two_addr w_lexicon en w_filter) = Ok [a; b] /\ pr_pat a = 1 /\ pr_pat b = 1 /\ pr_class a = iset_str [I_NUMBER] /\ pr_class b = iset_str [I_WORD])
    by (do 2 eexists; split; [vm_compute; reflexivity|]; repeat (split; [vm_compute; reflexivity|]); vm_compute; reflexivity).
  destruct Ro as (a & b & Ro & P1 & P2 & C1 & C2). exists [a; b], [r2], [r1].
  assert (De : forall k rs, derives g [s2t "ADDRESS"%string] k rs -> rs = [r1] \/ rs = [r2]).
  { intros k rs D. inversion D as [|ms refs rest k' rs' I|s r rest k' rs' I J D']; subst; [rewrite G1 in I; destruct I|]. rewrite G2 in I. destruct I as [<-|[]]. rewrite G4 in J. inversion D'; subst. destruct J as [<-|[<-|[]]]; auto. }
  assert (Ex : forall r, In r [r1; r2] -> explains_at g [a; b] 1 [r]).
  { intros r I. assert (In_r : r_in r = [I_NUMBER; I_WORD]) by (destruct I as [<-|[<-|[]]]; assumption). exists 0%nat. unfold with_number. cbn [filter]. rewrite P1, P2. cbn [N.eqb Pos.eqb]. split; [discriminate|]. split; [|split; [apply Nat.le_0_l|]].
    - rewrite <- G3. apply (d_rule g sec r [] 0 []); [rewrite G2; left; reflexivity|rewrite G4; exact I|constructor].
    - unfold rule_inputs. cbn [map concat]. rewrite In_r. cbn [app]. apply Forall2_cons; [rewrite C1; apply (proj2 (names_in _ _)); left; reflexivity|]. apply Forall2_cons; [rewrite C2; apply (proj2 (names_in _ _)); left; reflexivity|]. apply Forall2_nil. }
  split; [exact Gr|]. split; [exact Ro|]. split; [intros p; eapply N.le_trans; [apply choices_part|]; unfold choices; cbn [fold_right]; rewrite C1, C2; vm_compute; discriminate|].
  split; [apply Ex; right; left; reflexivity|]. split; [apply Ex; left; reflexivity|]. split; [unfold rule_inputs, rule_outputs; cbn [map concat]; rewrite G5, G6, G7, G8; discriminate|]. split.
  - intros p' rs' (k & _ & D & _) N. destruct (De k rs' D) as [->| ->]; [exact Lt|congruence].
  - unfold rule_inputs, rule_outputs. cbn [map concat]. rewrite G6, G8. reflexivity.
Qed.
