(** Lemmas about two addresses in one. *)
From Coq Require Import String List NArith Bool Lia Arith.
From Verif Require Import Read_proofs Base_model Class_model Uni_model Token_model Lexicon_model Tokenizer_model Archive_model Float_model Rule_model Search_model Grammar_model Wrapper_model
  Sample_model Class_spec Grammar_spec LexText_spec Lexicon_spec Tokenizer_spec Split_spec Read_spec Address_spec Answer_spec End_spec Local_spec Gap_spec Join_spec Blank_proofs
  TokAlt_proofs Tab_proofs Split_proofs SplitEx_proofs Address_proofs Wrapper_proofs WrapperTop_proofs TokExample_proofs WrapperEx_proofs AddressEx_proofs TokPieces_proofs TokKeep_proofs TokRead_proofs Enum_proofs End_proofs EndEx_proofs Edges_proofs Gap_proofs.
Import ListNotations.
Local Open Scope N_scope.

Section Join.
Variables (u : uni) (x : lexicon) (g b : text).
Hypothesis AT : apart_tables u.
Hypothesis SM : some_words x.
Hypothesis GN : g <> [].
Hypothesis GS : Forall (sep_char u) g.
Hypothesis BN : ~ begins_sep u b.
Hypothesis GJ : forall s, g = [s] -> ~ joins u s.
Notation G := (g ++ b).

Lemma joint_stops : forall r, stops u r -> stops u (r ++ G).
Proof. intros [|c r] H; [|exact H]. destruct g as [|c g']; [destruct (GN eq_refl)|]. inversion GS; subst. left. assumption. Qed.
Lemma back_stops : forall r, stops u (r ++ G) -> stops u r.
Proof. intros [|c r] H; [exact I|exact H]. Qed.
Lemma join_dash : forall t, t <> [] -> (begins_dash u (t ++ G) <-> begins_dash u t).
Proof. intros [|c t] N; [destruct (N eq_refl)|]. reflexivity. Qed.
Lemma no_nothing : forall t, ~ nothing_at x u t.
Proof. intros t (H & _). destruct SM as (w & L & N). exact (N (H w L)). Qed.
Lemma cut_inside : forall (t w r z : text), t ++ z = w ++ r -> (List.length w <= List.length t)%nat -> exists r', t = w ++ r' /\ r = r' ++ z.
Proof.
  intros t w r z E L. destruct (app_eq_app _ _ _ _ E) as (m & [(E1 & E2)|(E1 & E2)]).
  - exists m. auto.
  - rewrite E1, app_length in L. destruct m as [|c m]; [|cbn [List.length] in L; lia]. exists []. rewrite app_nil_r in *. cbn [app] in *. subst. auto.
Qed.
Lemma cut_beyond : forall (t w r z : text), t ++ z = w ++ r -> (List.length t < List.length w)%nat -> exists c m, w = t ++ c :: m /\ z = c :: m ++ r.
Proof.
  intros t w r z E L. destruct (app_eq_app _ _ _ _ E) as (m & [(E1 & E2)|(E1 & E2)]).
  - rewrite E1, app_length in L. lia.
  - destruct m as [|c m]; [rewrite app_nil_r in E1; subst; lia|]. exists c, m. auto.
Qed.
Lemma run_inside : forall t w r, t ++ G = w ++ r -> Forall (alnum u) w -> (List.length w <= List.length t)%nat.
Proof.
  intros t w r E F. destruct (Nat.le_gt_cases (List.length w) (List.length t)) as [L|L]; [exact L|]. exfalso. destruct (cut_beyond _ _ _ _ E L) as (c & m & -> & E2).
  destruct g as [|d g']; [exact (GN eq_refl)|]. injection E2 as -> _. apply Forall_app in F. destruct F as (_ & F). inversion F as [|? ? A _]; subst. inversion GS as [|? ? S _]; subst. exact (proj1 (proj1 AT c A) S).
Qed.
Lemma number_inside : forall t w r, t ++ G = w ++ r -> number_like u w -> (List.length w <= List.length t)%nat.
Proof.
  intros t w r E (d1 & s & d2 & -> & D1 & D2 & S). destruct (Nat.le_gt_cases (List.length (d1 ++ s :: d2)) (List.length t)) as [L|L]; [exact L|]. exfalso.
  apply digits_alnum in D1. rewrite <- app_assoc in E. assert (L1 := run_inside t d1 _ E D1). destruct (cut_inside _ _ _ _ E L1) as (t1 & -> & E2). cbn [app] in E2.
  destruct t1 as [|c t1].
  - cbn [app] in E2. destruct g as [|c g']; [exact (GN eq_refl)|]. injection E2 as <- E2. destruct g' as [|e g'].
    + exact (GJ s eq_refl S).
    + destruct D2 as (N2 & F2). destruct d2 as [|f d2]; [exact (N2 eq_refl)|]. injection E2 as <- _. inversion F2 as [|? ? DG _]; subst. inversion GS as [|? ? _ GS']; subst. inversion GS' as [|? ? S' _]; subst.
      exact (proj1 (proj1 AT f (or_intror DG)) S').
  - injection E2 as <- E2. apply digits_alnum in D2. assert (L2 := run_inside t1 d2 r (eq_sym E2) D2). rewrite !app_length in L. cbn [List.length] in L. lia.
Qed.

Definition inside (t : text) : Prop := forall w r, word_at x u (t ++ G) w r -> (List.length w <= List.length t)%nat.
Lemma j_word : forall t w r, word_at x u t w r -> word_at x u (t ++ G) w (r ++ G).
Proof. intros t w r (-> & L & S). split; [rewrite <- app_assoc; reflexivity|]. split; [exact L|exact (joint_stops _ S)]. Qed.
Lemma j_number : forall t w r, number_at u t w r -> number_at u (t ++ G) w (r ++ G).
Proof. intros t w r (-> & L & S). split; [rewrite <- app_assoc; reflexivity|]. split; [exact L|exact (joint_stops _ S)]. Qed.
Lemma j_run : forall t w r, run_at u t w r -> run_at u (t ++ G) w (r ++ G).
Proof. intros t w r (-> & N & L & S). split; [rewrite <- app_assoc; reflexivity|]. split; [exact N|]. split; [exact L|exact (joint_stops _ S)]. Qed.
Lemma b_word : forall t w r, inside t -> word_at x u (t ++ G) w r -> exists r', r = r' ++ G /\ word_at x u t w r'.
Proof. intros t w r IN W. assert (L := IN w r W). destruct W as (E & L0 & S). destruct (cut_inside _ _ _ _ E L) as (r' & -> & ->). exists r'. split; [reflexivity|]. split; [reflexivity|]. split; [exact L0|exact (back_stops _ S)]. Qed.
Lemma b_number : forall t w r, number_at u (t ++ G) w r -> exists r', r = r' ++ G /\ number_at u t w r'.
Proof. intros t w r (E & L0 & S). destruct (cut_inside _ _ _ _ E (number_inside t w r E L0)) as (r' & -> & ->). exists r'. split; [reflexivity|]. split; [reflexivity|]. split; [exact L0|exact (back_stops _ S)]. Qed.
Lemma b_run : forall t w r, run_at u (t ++ G) w r -> exists r', r = r' ++ G /\ run_at u t w r'.
Proof. intros t w r (E & N & L0 & S). destruct (cut_inside _ _ _ _ E (run_inside t w r E L0)) as (r' & -> & ->). exists r'. split; [reflexivity|]. split; [reflexivity|]. split; [exact N|]. split; [exact L0|exact (back_stops _ S)]. Qed.
Lemma j_token : forall t w r, t <> [] -> inside t -> token_at u x t w r -> token_at u x (t ++ G) w (r ++ G).
Proof.
  intros t w r N IN T. destruct T as [w r D W M|D Z|w r D N1 N2 Z|w r D N1 N2 N3 Z]; [|destruct (no_nothing _ Z)| |]; rewrite <- (join_dash t N) in D.
  - apply ta_word; [exact D|exact (j_word _ _ _ W)|]. intros w' r' W'. destruct (b_word _ _ _ IN W') as (r2 & _ & W2). exact (M _ _ W2).
  - apply ta_number; [exact D| |exact (no_nothing _)|exact (j_number _ _ _ Z)]. intros w' r' W'. destruct (b_word _ _ _ IN W') as (r2 & _ & W2). exact (N1 _ _ W2).
  - apply ta_run; [exact D| |exact (no_nothing _)| |exact (j_run _ _ _ Z)].
    + intros w' r' W'. destruct (b_word _ _ _ IN W') as (r2 & _ & W2). exact (N1 _ _ W2).
    + intros w' r' W'. destruct (b_number _ _ _ W') as (r2 & _ & W2). exact (N3 _ _ W2).
Qed.
Lemma b_token : forall t w r, t <> [] -> inside t -> token_at u x (t ++ G) w r -> exists r', token_at u x t w r'.
Proof.
  intros t w r N IN T. destruct T as [w r D W M|D Z|w r D N1 N2 Z|w r D N1 N2 N3 Z]; [|destruct (no_nothing _ Z)| |]; rewrite (join_dash t N) in D.
  - destruct (b_word _ _ _ IN W) as (r' & -> & W2). exists r'. apply ta_word; [exact D|exact W2|]. intros w' r2 W'. exact (M _ _ (j_word _ _ _ W')).
  - destruct (b_number _ _ _ Z) as (r' & -> & W2). exists r'. apply ta_number; [exact D| |exact (no_nothing _)|exact W2]. intros w' r2 W'. exact (N1 _ _ (j_word _ _ _ W')).
  - destruct (b_run _ _ _ Z) as (r' & -> & W2). exists r'. apply ta_run; [exact D| |exact (no_nothing _)| |exact W2].
    + intros w' r2 W'. exact (N1 _ _ (j_word _ _ _ W')).
    + intros w' r2 W'. exact (N3 _ _ (j_number _ _ _ W')).
Qed.

Definition ready (t : text) : Prop := ends_word u t /\ forall a1 a2, t = a1 ++ a2 -> a2 <> [] -> inside a2.
Lemma ready_back : forall a t, t <> [] -> ready (a ++ t) -> ready t.
Proof.
  intros a t N ((t' & c & E & S & D) & IN). split.
  - destruct (exists_last N) as (t1 & d & ->). rewrite app_assoc in E. apply app_inj_tail in E. destruct E as (_ & ->). exists t1, c. auto.
  - intros a1 a2 -> N2. apply (IN (a ++ a1) a2); [rewrite app_assoc; reflexivity|exact N2].
Qed.
Lemma j_read : forall t b0 w r, ready t -> read_at u x t b0 w r -> read_at u x (t ++ G) b0 w (r ++ G).
Proof.
  intros t b0 w r RD (E & B & T & M). assert (EW := proj1 RD). assert (IN := proj2 RD).
  assert (NB : forall b' : text, blanks u b' -> forall z, t ++ G = b' ++ z -> exists t1, t = b' ++ t1 /\ t1 <> [] /\ z = t1 ++ G).
  { intros b' B' z Ez. destruct EW as (t' & c & -> & S & _). assert (L : (List.length b' <= List.length t')%nat).
    { destruct (Nat.le_gt_cases (List.length b') (List.length t')) as [L|L]; [exact L|]. exfalso. rewrite <- app_assoc in Ez. destruct (cut_beyond _ _ _ _ Ez L) as (d & m & -> & E2). cbn [app] in E2. injection E2 as <- _.
      apply Forall_app in B'. destruct B' as (_ & B'). inversion B' as [|? ? K _]; subst. apply S. right; right; right; left. exact K. }
    rewrite <- app_assoc in Ez. destruct (cut_inside _ _ _ _ Ez L) as (r' & -> & ->). exists (r' ++ [c]). rewrite <- !app_assoc. split; [reflexivity|]. split; [destruct r'; discriminate|reflexivity]. }
  assert (NW : w ++ r <> []). { destruct (NB b0 B ((w ++ r) ++ G)) as (t1 & E1 & N1 & _); [rewrite E, <- !app_assoc; reflexivity|]. rewrite E in E1. apply app_inv_head in E1. rewrite E1. exact N1. }
  split; [rewrite E, <- !app_assoc; reflexivity|]. split; [exact B|]. split.
  - assert (K := j_token (w ++ r) w r NW (IN b0 (w ++ r) E NW) T). rewrite <- app_assoc in K. exact K.
  - intros b' t' E' B' L w' r' T'. destruct (NB b' B' t' E') as (t1 & E1 & N1 & ->). destruct (b_token t1 w' r' N1 (IN b' t1 E1 N1) T') as (r2 & T2). exact (M b' t1 E1 B' L w' r2 T2).
Qed.
Lemma one_skip : forall t p rest, one_line t -> read_round u x t p rest -> pc_skip p = [].
Proof.
  intros t p rest O (b0 & t' & E & LS & _). destruct LS as [-> |(a' & c & E2 & L & _)]; [reflexivity|]. exfalso. unfold one_line in O. rewrite Forall_forall in O. apply (O c); [|exact L].
  rewrite E, E2. apply in_or_app. left. apply in_or_app. right. left. reflexivity.
Qed.
Lemma j_round : forall t p rest, one_line t -> ready t -> read_round u x t p rest ->
  (rest <> [] /\ read_round u x (t ++ G) p (rest ++ G)) \/
  (rest = [] /\ pc_sep p = [] /\ exists p', pc_tok p' = pc_tok p /\ pc_sep p' = g /\ read_round u x (t ++ G) p' b).
Proof.
  intros t p rest O RD RR. assert (SK := one_skip _ _ _ O RR). destruct RR as (b0 & t' & E & LS & RA & SP & PA & NO). rewrite SK in E. cbn [app] in E. subst t'.
  assert (RA' := j_read _ _ _ _ RD RA). destruct rest as [|c rest].
  - right. split; [reflexivity|]. rewrite app_nil_r in RA, RA'.
    assert (SE : pc_sep p = []).
    { destruct RD as ((t1 & d & E1 & NS & ND) & _). destruct RA as (E & _). rewrite E1 in E. clear RA'. destruct SP as [(-> & _)|[(N & F & _)|(d' & E2 & DD & _)]]; [reflexivity| |].
      - exfalso. destruct (exists_last N) as (s1 & d2 & E2). rewrite E2 in *. rewrite !app_assoc in E. apply app_inj_tail in E. destruct E as (_ & ->). apply Forall_app in F. destruct F as (_ & F). inversion F; contradiction.
      - exfalso. rewrite E2 in E. rewrite !app_assoc in E. apply app_inj_tail in E. destruct E as (_ & ->). contradiction. }
    split; [exact SE|]. rewrite SE in RA'. cbn [app] in RA'. exists (mkPiece [] (b0 ++ pc_tok p ++ g) (pc_tok p) g). split; [reflexivity|]. split; [reflexivity|].
    exists b0, (t ++ G). cbn [pc_skip pc_all pc_tok pc_sep]. split; [reflexivity|]. split; [left; reflexivity|]. split; [exact RA'|]. split; [right; left; split; [exact GN|split; [exact GS|destruct b; [exact I|exact BN]]]|]. split; [reflexivity|].
    intros a1 a2 EA NA. destruct a1; [|discriminate]. cbn [app] in EA. subst a2. destruct (NA eq_refl).
  - left. split; [discriminate|]. exists b0, (t ++ G). rewrite SK. split; [reflexivity|]. split; [left; reflexivity|]. rewrite <- app_assoc in RA'. split; [exact RA'|]. split.
    + destruct SP as [(_ & K)|[(N & F & K)|K]]; [discriminate|right; left; auto|right; right; exact K].
    + split; [exact PA|]. intros a1 a2 EA NA. destruct a1; [|discriminate]. cbn [app] in EA. subst a2. destruct (NA eq_refl).
Qed.
Lemma round_taken : forall t p rest, read_round u x t p rest -> t = taken p ++ rest.
Proof. intros t p rest (b0 & t1 & E & _ & (E2 & _) & _ & PA & _). unfold taken. rewrite PA, E, E2, <- !app_assoc. reflexivity. Qed.
Lemma end_stops : forall ps, scanned u x [] ps -> ps = [].
Proof.
  intros ps H. inversion H as [|p RR|]; subst; [reflexivity| |contradiction]. exfalso. destruct RR as (b0 & t1 & E & _ & (E2 & _ & T & _) & _). symmetry in E. apply app_eq_nil in E. destruct E as (_ & ->).
  symmetry in E2. apply app_eq_nil in E2. destruct E2 as (_ & E2). rewrite E2 in T. apply app_eq_nil in E2. destruct E2 as (EW & _). revert T. generalize (pc_sep p ++ []). rewrite EW. intros r T.
  inversion T as [w r' _ (_ & (w0 & _ & N & F) & _) _|_ Z|w r' _ _ _ (_ & (d1 & s & d2 & K & _) & _)|w r' _ _ _ _ (_ & N & _)]; subst.
  - inversion F; subst. exact (N eq_refl).
  - exact (no_nothing _ Z).
  - destruct d1; discriminate K.
  - exact (N eq_refl).
Qed.
(** The rounds of the first text, the last of which ends with the separator, and those of the second. *)
Inductive with_last : list piece -> list piece -> Prop :=
| wl_last : forall p p', pc_sep p = [] -> pc_tok p' = pc_tok p -> pc_sep p' = g -> with_last [p] [p']
| wl_more : forall p ps ps', with_last ps ps' -> with_last (p :: ps) (p :: ps').
Lemma j_scanned : forall t ps, scanned u x t ps -> t <> [] -> concat (map taken ps) = t -> one_line t -> ready t -> forall qs, scanned u x b qs ->
  exists ps', with_last ps ps' /\ scanned u x (t ++ G) (ps' ++ qs).
Proof.
  intros t ps SC. induction SC as [t U|p RR|t p rest ps N RR SC IH]; intros NE W O RD qs SQ.
  - cbn [map concat] in W. subst t. destruct (NE eq_refl).
  - destruct (NE eq_refl).
  - assert (ET := round_taken _ _ _ RR). cbn [map concat] in W. rewrite ET in W at 1. apply app_inv_head in W. assert (NT : t ++ G <> []) by (destruct t; [destruct (N eq_refl)|discriminate]).
    destruct (j_round _ _ _ O RD RR) as [(NR & RR')|(-> & S & p' & P1 & P2 & RR')].
    + destruct (IH NR W) with (qs := qs) as (ps' & WL & SC'); [unfold one_line in *; rewrite ET in O; apply Forall_app in O; exact (proj2 O)|rewrite ET in RD; exact (ready_back _ _ NR RD)|exact SQ|].
      exists (p :: ps'). split; [constructor; exact WL|]. exact (sc_more u x _ p _ _ NT RR' SC').
    + rewrite (end_stops _ SC). exists [p']. split; [constructor; assumption|]. exact (sc_more u x _ p' _ _ NT RR' SQ).
Qed.
Lemma j_groups : forall ps ps', with_last ps ps' -> forall gs kg, sep_exact u x g kg -> Forall2 (exact_tokens u x) ps gs ->
  exists gs', Forall2 (exact_tokens u x) ps' gs' /\ concat gs' = concat gs ++ kg.
Proof.
  intros ps ps' WL. induction WL as [p p' S T S'|p ps ps' WL IH]; intros gs kg K F.
  - inversion F as [|? ks ? gs1 (k1 & k2 & -> & W & SE) F']; subst. inversion F'; subst. rewrite S in SE. destruct SE as [(_ & ->)|(fs & m & k & X & _)]; [|destruct (X eq_refl)].
    exists [k1 ++ kg]. split; [constructor; [|constructor]; exists k1, kg; rewrite T; auto|]. cbn [concat]. rewrite !app_nil_r. reflexivity.
  - inversion F as [|? ks ? gs1 X F']; subst. destruct (IH _ _ K F') as (gs' & F2 & E). exists (ks :: gs'). split; [constructor; assumption|]. cbn [concat]. rewrite E, app_assoc. reflexivity.
Qed.
Lemma scanned_end : forall a, ends_inside u x a G -> ends_word u a -> ready a.
Proof. intros a EI EW. split; [exact EW|]. intros a1 a2 E N w r W. exact (EI a1 a2 w r E N W). Qed.
End Join.


Lemma tokens_join : forall u x a g b ka kg kb, apart_tables u -> some_words x -> joined_at u x a g b ->
  tokens_are u x a ka -> sep_exact u x g kg -> Forall (fun k => is_inset (t_in k)) kg -> tokens_are u x b kb -> tokens_are u x (a ++ g ++ b) (ka ++ kg ++ kb).
Proof.
  intros u x a g b ka kg kb AT SM (O & EW & (ps0 & SC0 & W) & GN & GS & BN & GJ & EI) (ps & gs & SC & F & -> & IS) K KS (qs & hs & SQ & FQ & -> & IQ).
  assert (ps0 = ps) by (exact (scan_one _ _ AT _ _ _ SC0 SC)). subst ps0. assert (N : a <> []) by (destruct EW as (t' & c & -> & _); destruct t'; discriminate).
  destruct (j_scanned u x g b AT SM GN GS BN GJ a ps SC N W O (scanned_end u x g b a EI EW) qs SQ) as (ps' & WL & SC').
  destruct (j_groups u x g GN GS GJ ps ps' WL gs kg K F) as (gs' & F' & E). exists (ps' ++ qs), (gs' ++ hs). split; [exact SC'|]. split; [apply Forall2_app; assumption|].
  rewrite concat_app, E, <- app_assoc. split; [reflexivity|]. apply Forall_app. split; [exact IS|]. apply Forall_app. split; assumption.
Qed.
Lemma lines_part : forall u a g b, blank_lines u (a ++ g ++ b) -> blank_lines u a /\ blank_lines u b.
Proof. intros u a g b H. split; intros c I; apply H; apply in_or_app; [left; exact I|right; apply in_or_app; right; exact I]. Qed.
Lemma case_part : forall u x a g b, case_clear u x (a ++ g ++ b) -> case_clear u x a /\ case_clear u x b.
Proof. intros u x a g b H. split; intros w w' c c' d L L' I I' J; apply (H w w' c c' d L L' I I'); apply in_or_app; [left; exact J|right; apply in_or_app; right; exact J]. Qed.
(** The tokens of the whole are those of the first address, the separator and the second address. *)
Lemma join_tokens : forall e x s sa sb g, real_tables (e_uni e) -> built x -> simple_words x -> tab_free x -> some_words x ->
  let t := e_upper e (x_locale x) (e_nfc e s) in let a := e_upper e (x_locale x) (e_nfc e sa) in let b := e_upper e (x_locale x) (e_nfc e sb) in
  t = a ++ g ++ b -> joined_at (e_uni e) x a g b -> blank_lines (e_uni e) t -> case_clear (e_uni e) x t ->
  exists ka kg kb, all_tokens e x sa = Ok ka /\ sep_exact (e_uni e) x g kg /\ all_tokens e x sb = Ok kb /\ all_tokens e x s = Ok (ka ++ kg ++ kb).
Proof.
  intros e x s sa sb g (UO & AT & WT & TT) B SW TF SM t a b E J BL CC. assert (BL' := BL). assert (CC' := CC). rewrite E in BL', CC'.
  destruct (lines_part _ _ _ _ BL') as (BA & BB). destruct (case_part _ _ _ _ _ CC') as (CA & CB).
  destruct (tokens_ok e x sa B SW BA) as (ka & Ka). destruct (tokens_ok e x sb B SW BB) as (kb & Kb).
  assert (TA := conj TT TF : tabs_apart (e_uni e) x). assert (Ta := proj1 (all_tokens_are e x sa ka B SW AT WT BA CA TA) Ka). assert (Tb := proj1 (all_tokens_are e x sb kb B SW AT WT BB CB TA) Kb).
  assert (SP : separator (e_uni e) g []). { destruct J as (_ & _ & _ & GN & GS & _). right; left. auto. }
  assert (SE := sep_any (e_uni e) x g [] TT SP). exists ka, (sep_tokens (e_uni e) x g), kb. split; [exact Ka|]. split; [exact SE|]. split; [exact Kb|].
  apply (all_tokens_are e x s _ B SW AT WT BL CC TA). fold t. rewrite E. exact (tokens_join _ _ _ _ _ _ _ _ AT SM J Ta SE (seps_set _ _ _) Tb).
Qed.
Lemma join_filtered : forall e x filt s sa sb g, real_tables (e_uni e) -> built x -> simple_words x -> tab_free x -> some_words x ->
  let t := e_upper e (x_locale x) (e_nfc e s) in let a := e_upper e (x_locale x) (e_nfc e sa) in let b := e_upper e (x_locale x) (e_nfc e sb) in
  t = a ++ g ++ b -> joined_at (e_uni e) x a g b -> blank_lines (e_uni e) t -> case_clear (e_uni e) x t ->
  (forall k, sep_exact (e_uni e) x g [k] -> exists c, In c (t_in k) /\ in_list filt c) ->
  exists ka kb, get_tokens e (mkTz x (as_type filt)) sa = Ok ka /\ get_tokens e (mkTz x (as_type filt)) sb = Ok kb /\ get_tokens e (mkTz x (as_type filt)) s = Ok (ka ++ kb).
Proof.
  intros e x filt s sa sb g RT B SW TF SM t a b E J BL CC D. destruct (join_tokens e x s sa sb g RT B SW TF SM E J BL CC) as (ka & kg & kb & Ka & SE & Kb & K).
  exists (apply_filter (as_type filt) ka), (apply_filter (as_type filt) kb). unfold get_tokens. cbn [z_lex z_filter]. rewrite Ka, Kb, K. cbn [obind]. split; [reflexivity|]. split; [reflexivity|]. f_equal.
  assert (N : apply_filter (as_type filt) kg = []). { apply (sifted_none (caught (as_type filt)) kg); [|apply filter_sifted]. destruct J as (_ & _ & _ & GN & _). destruct SE as [(Z & _)|(fs & m & k & X)]; [contradiction|].
    assert (EK : kg = [k]) by tauto. subst kg. constructor; [|constructor]. apply filter_iff. apply D. right. exists fs, m, k. exact X. }
  unfold apply_filter in *. rewrite !filter_app, N. reflexivity.
Qed.

(** ** Any number of parts *)
Definition filtered_are (u : uni) (x : lexicon) (filt t : text) (ks : list token) : Prop :=
  exists all, tokens_are u x t all /\ sifted (fun k => exists c, In c (t_in k) /\ in_list filt c) all ks.
Lemma parts_join : forall u x filt t ps, apart_tables u -> tab_tables u -> some_words x -> in_parts u x filt t ps -> forall kss, Forall2 (filtered_are u x filt) ps kss -> filtered_are u x filt t (concat kss).
Proof.
  intros u x filt t ps AT TT SM H. induction H as [t|a g t ps J D H IH]; intros kss F.
  - inversion F as [|? k ? kss' X F']; subst. inversion F'; subst. cbn [concat]. rewrite app_nil_r. exact X.
  - inversion F as [|? k ? kss' (aa & TA & SA) F']; subst. destruct (IH kss' F') as (ab & TB & SB). assert (GN : g <> []) by (destruct J as (_ & _ & _ & GN & _); exact GN).
    assert (SE : sep_exact u x g (sep_tokens u x g)). { apply (sep_any u x g [] TT). destruct J as (_ & _ & _ & _ & GS & _). right; left. auto. }
    exists (aa ++ sep_tokens u x g ++ ab). split; [exact (tokens_join u x a g t aa _ ab AT SM J TA SE (seps_set _ _ _) TB)|].
    cbn [concat]. apply sifted_app; [exact SA|]. change (concat kss') with ([] ++ concat kss'). apply sifted_app; [|exact SB]. apply sifted_all.
    destruct SE as [(Z & _)|(fs & m & k0 & X)]; [contradiction|]. assert (EK : sep_tokens u x g = [k0]) by tauto. rewrite EK in X |- *. constructor; [|constructor]. apply D. right. exists fs, m, k0. exact X.
Qed.
Lemma filtered_get : forall e x filt str ks, real_tables (e_uni e) -> built x -> simple_words x -> tab_free x ->
  blank_lines (e_uni e) (search_text e x str) -> case_clear (e_uni e) x (search_text e x str) ->
  (get_tokens e (mkTz x (as_type filt)) str = Ok ks <-> filtered_are (e_uni e) x filt (search_text e x str) ks).
Proof.
  intros e x filt str ks (UO & AT & WT & TT) B SW TF BL CC. assert (A := fun all => all_tokens_are e x str all B SW AT WT BL CC (conj TT TF)). split.
  - intros H. apply tokens_sifted in H. destruct H as (all & E & X). cbn [z_lex z_filter] in E, X. exists all. split; [apply A; exact E|exact (sifted_ext _ _ _ _ (filter_iff filt) X)].
  - intros (all & T & X). apply tokens_sifted. exists all. cbn [z_lex z_filter]. split; [apply A; exact T|]. apply (sifted_ext _ (caught (as_type filt))) in X; [exact X|]. intros k. symmetry. apply filter_iff.
Qed.
Lemma parts_chars : forall u x filt t ps, in_parts u x filt t ps -> forall p c, In p ps -> In c p -> In c t.
Proof.
  intros u x filt t ps H. induction H as [t|a g t ps J D H IH]; intros p c I K.
  - destruct I as [<-|[]]. exact K.
  - destruct I as [<-|I]; [apply in_or_app; left; exact K|]. apply in_or_app. right. apply in_or_app. right. exact (IH p c I K).
Qed.
Lemma parts_tokens : forall e x filt str strs, real_tables (e_uni e) -> built x -> simple_words x -> tab_free x -> some_words x ->
  let t := e_upper e (x_locale x) (e_nfc e str) in in_parts (e_uni e) x filt t (map (fun s => e_upper e (x_locale x) (e_nfc e s)) strs) ->
  blank_lines (e_uni e) t -> case_clear (e_uni e) x t ->
  exists kss, Forall2 (fun s ks => get_tokens e (mkTz x (as_type filt)) s = Ok ks) strs kss /\ get_tokens e (mkTz x (as_type filt)) str = Ok (concat kss).
Proof.
  intros e x filt str strs RT B SW TF SM t H BL CC. assert (PC := parts_chars _ _ _ _ _ H).
  assert (BP : forall s, In s strs -> blank_lines (e_uni e) (search_text e x s)) by (intros s I c J; apply BL, (PC (search_text e x s)); [apply (in_map (fun s0 => e_upper e (x_locale x) (e_nfc e s0))); exact I|exact J]).
  assert (CP : forall s, In s strs -> case_clear (e_uni e) x (search_text e x s)) by (intros s I w w' c c' d L L' K K' J; apply (CC w w' c c' d L L' K K'), (PC (search_text e x s)); [apply (in_map (fun s0 => e_upper e (x_locale x) (e_nfc e s0))); exact I|exact J]).
  assert (G : exists kss, Forall2 (fun s ks => get_tokens e (mkTz x (as_type filt)) s = Ok ks) strs kss /\ Forall2 (filtered_are (e_uni e) x filt) (map (fun s => e_upper e (x_locale x) (e_nfc e s)) strs) kss).
  { clear H PC. induction strs as [|s strs IH]; [exists []; split; constructor|]. destruct IH as (kss & F1 & F2); [intros s' I; apply BP; right; exact I|intros s' I; apply CP; right; exact I|].
    destruct (tokens_ok e x s B SW (BP s (or_introl eq_refl))) as (all & E). assert (K : get_tokens e (mkTz x (as_type filt)) s = Ok (apply_filter (as_type filt) all)) by (unfold get_tokens; cbn [z_lex z_filter]; rewrite E; reflexivity).
    exists (apply_filter (as_type filt) all :: kss). split; [constructor; assumption|]. cbn [map]. constructor; [|exact F2]. apply (filtered_get e x filt s _ RT B SW TF (BP s (or_introl eq_refl)) (CP s (or_introl eq_refl))). exact K. }
  destruct G as (kss & F1 & F2). exists kss. split; [exact F1|]. apply (filtered_get e x filt str _ RT B SW TF BL CC). destruct RT as (UO & AT & WT & TT). exact (parts_join _ _ _ _ _ AT TT SM H kss F2).
Qed.

(** ** Alternatives *)
(** Both numbers of an alternative. *)
Lemma phrases_app : forall a b, phrases (a ++ b) = (phrases a + phrases b)%nat.
Proof. intros a b. unfold phrases. rewrite filter_app, app_length. reflexivity. Qed.
Lemma alt_app : forall u x i a b n, alt_one u x i n (a ++ b) = alt_one u x i n a ++ alt_one u x i (n + N.of_nat (phrases a)) b.
Proof.
  intros u x i a b. induction a as [|k a IH]; intros n; [cbn [app alt_one]; f_equal; unfold phrases; cbn [filter List.length]; lia|]. cbn [app alt_one]. unfold phrases. cbn [filter]. destruct (is_phrase k).
  - rewrite IH, <- app_assoc. do 3 f_equal. cbn [List.length]. fold (phrases a). lia.
  - cbn [app]. f_equal. apply IH.
Qed.
Lemma alt_ext : forall u x i j m ks n, (forall d, n <= d < n + N.of_nat (phrases ks) -> (i / 2 ^ d) mod 2 = (j / 2 ^ (d + m)) mod 2) -> alt_one u x i n ks = alt_one u x j (n + m) ks.
Proof.
  intros u x i j m. induction ks as [|k ks IH]; intros n H; [reflexivity|]. cbn [alt_one]. unfold phrases in H. cbn [filter] in H. destruct (is_phrase k).
  - cbn [List.length] in H. fold (phrases ks) in H. rewrite (H n) by lia. f_equal. replace (n + m + 1) with (n + 1 + m) by lia. apply IH. intros d D. apply H. lia.
  - f_equal. apply IH. exact H.
Qed.
Lemma bit_low : forall i j n d, d < n -> ((i + 2 ^ n * j) / 2 ^ d) mod 2 = (i / 2 ^ d) mod 2.
Proof.
  intros i j n d L. replace n with (d + 1 + (n - d - 1)) by lia. rewrite !N.pow_add_r, N.pow_1_r. replace (i + 2 ^ d * 2 * 2 ^ (n - d - 1) * j) with (i + (2 ^ (n - d - 1) * j * 2) * 2 ^ d) by lia.
  rewrite N.div_add by (apply N.pow_nonzero; lia). apply N.mod_add. lia.
Qed.
Lemma bit_high : forall i j n d, i < 2 ^ n -> ((i + 2 ^ n * j) / 2 ^ (d + n)) mod 2 = (j / 2 ^ d) mod 2.
Proof.
  intros i j n d L. replace (d + n) with (n + d) by lia. rewrite N.pow_add_r, <- N.div_div by (apply N.pow_nonzero; lia). replace (i + 2 ^ n * j) with (i + j * 2 ^ n) by lia. rewrite N.div_add by (apply N.pow_nonzero; lia).
  rewrite (N.div_small i) by exact L. reflexivity.
Qed.
Lemma alt_pair : forall u x a b i j, i < 2 ^ N.of_nat (phrases a) -> alt_one u x (i + 2 ^ N.of_nat (phrases a) * j) 0 (a ++ b) = alt_one u x i 0 a ++ alt_one u x j 0 b.
Proof.
  intros u x a b i j L. rewrite alt_app. f_equal.
  - symmetry. apply (alt_ext u x i (i + 2 ^ N.of_nat (phrases a) * j) 0 a 0). intros d D. rewrite N.add_0_r. symmetry. apply bit_low. lia.
  - symmetry. apply (alt_ext u x j (i + 2 ^ N.of_nat (phrases a) * j) (N.of_nat (phrases a)) b 0). intros d D. symmetry. apply bit_high. exact L.
Qed.
Lemma count_blocks : forall m n s, count_up (n * m) (N.of_nat m * s) = flat_map (fun j => map (fun i => i + N.of_nat m * j) (count_up m 0)) (count_up n s).
Proof.
  intros m. induction n as [|n IH]; intros s; [reflexivity|]. cbn [Nat.mul count_up flat_map]. rewrite count_up_app. f_equal.
  - replace (N.of_nat m * s) with (N.of_nat m * s + 0) at 1 by lia. rewrite count_up_shift. apply map_ext. intros i. lia.
  - rewrite <- IH. f_equal. lia.
Qed.
Lemma all_alternatives : forall u x ks alts, get_alt_tokens u x ks = Ok alts -> ks :: alts = map (fun i => alt_one u x i 0 ks) (count_up (N.to_nat (2 ^ N.of_nat (phrases ks))) 0).
Proof.
  intros u x ks alts H. unfold get_alt_tokens in H. destruct (phrases ks) as [|n] eqn:P.
  - injection H as <-. change (N.to_nat (2 ^ N.of_nat 0)) with 1%nat. cbn [count_up map]. rewrite alt_zero. reflexivity.
  - destruct (Nat.ltb 31 (S n)); [discriminate|]. injection H as <-. set (K := 2 ^ N.of_nat (S n)). assert (K <> 0) by (apply N.pow_nonzero; lia). replace (N.to_nat K) with (S (N.to_nat (K - 1))) by lia.
    cbn [count_up map]. rewrite alt_zero. reflexivity.
Qed.
Lemma flat_map_map : forall (A B C : Type) (f : B -> C) (h : A -> list B) l, map f (flat_map h l) = flat_map (fun a => map f (h a)) l.
Proof. intros A B C f h l. induction l as [|a l IH]; [reflexivity|]. cbn [flat_map]. rewrite map_app, IH. reflexivity. Qed.
Lemma flat_map_in : forall (A B C : Type) (f : A -> B) (h : B -> list C) l, flat_map h (map f l) = flat_map (fun a => h (f a)) l.
Proof. intros A B C f h l. induction l as [|a l IH]; [reflexivity|]. cbn [flat_map map]. rewrite IH. reflexivity. Qed.
Lemma flat_map_same : forall (A B : Type) (f h : A -> list B) l, (forall a, f a = h a) -> flat_map f l = flat_map h l.
Proof. intros A B f h l E. induction l as [|a l IH]; [reflexivity|]. cbn [flat_map]. rewrite E, IH. reflexivity. Qed.
Lemma alternatives_join : forall u x a b pa pb ps, get_alt_tokens u x a = Ok pa -> get_alt_tokens u x b = Ok pb -> get_alt_tokens u x (a ++ b) = Ok ps ->
  (a ++ b) :: ps = flat_map (fun q => map (fun p => p ++ q) (a :: pa)) (b :: pb).
Proof.
  intros u x a b pa pb ps A B C. rewrite (all_alternatives _ _ _ _ A), (all_alternatives _ _ _ _ B), (all_alternatives _ _ _ _ C), phrases_app.
  replace (N.to_nat (2 ^ N.of_nat (phrases a + phrases b))) with (N.to_nat (2 ^ N.of_nat (phrases b)) * N.to_nat (2 ^ N.of_nat (phrases a)))%nat by (rewrite Nat2N.inj_add, N.pow_add_r; lia).
  assert (E := count_blocks (N.to_nat (2 ^ N.of_nat (phrases a))) (N.to_nat (2 ^ N.of_nat (phrases b))) 0). rewrite N.mul_0_r, N2Nat.id in E. rewrite E. clear E.
  rewrite flat_map_map, flat_map_in. apply flat_map_same. intros j. rewrite !map_map. apply map_ext_in. intros i I. apply count_up_In in I. apply alt_pair. lia.
Qed.
Lemma join_phrases : forall e x locale filt address aa ab g pa pb ps, real_tables (e_uni e) -> built x -> simple_words x -> tab_free x -> some_words x ->
  reading e x locale address = reading e x locale aa ++ g ++ reading e x locale ab -> joined_at (e_uni e) x (reading e x locale aa) g (reading e x locale ab) ->
  blank_lines (e_uni e) (reading e x locale address) -> case_clear (e_uni e) x (reading e x locale address) ->
  (forall k, sep_exact (e_uni e) x g [k] -> exists c, In c (t_in k) /\ in_list filt c) ->
  make_phrases e x locale filt aa = Ok pa -> make_phrases e x locale filt ab = Ok pb -> make_phrases e x locale filt address = Ok ps ->
  ps = flat_map (fun q => map (fun p => p ++ q) pa) pb.
Proof.
  intros e x locale filt address aa ab g pa pb ps RT B SW TF SM EQ J BL CC D PA PB P.
  destruct (join_filtered e x filt (prepared e locale address) (prepared e locale aa) (prepared e locale ab) g RT B SW TF SM EQ J BL CC D) as (ka & kb & Ka & Kb & K).
  unfold make_phrases in PA, PB, P. change (set_filter (mkTz x []) (as_type filt)) with (mkTz x (as_type filt)) in PA, PB, P. rewrite Ka in PA. rewrite Kb in PB. rewrite K in P. cbn [obind] in PA, PB, P.
  destruct (get_alt_tokens (e_uni e) x ka) as [qa| |] eqn:QA; try discriminate. destruct (get_alt_tokens (e_uni e) x kb) as [qb| |] eqn:QB; try discriminate. destruct (get_alt_tokens (e_uni e) x (ka ++ kb)) as [q| |] eqn:QQ; try discriminate.
  cbn [obind] in PA, PB, P. injection PA as <-. injection PB as <-. injection P as <-. exact (alternatives_join _ _ _ _ _ _ _ QA QB QQ).
Qed.

(** ** as_parse *)
Definition row_of (k : token) : text * text * text := (t_text k, iset_str (t_in k), aset_str (t_att k)).
Lemma phrase_rows_pat : forall ks i j, Forall (fun r => pr_pat r = i) (fst (phrase_rows i j ks)) /\ map (fun r => (pr_word r, pr_class r, pr_att r)) (fst (phrase_rows i j ks)) = map row_of ks.
Proof.
  induction ks as [|k ks IH]; intros i j; [split; constructor|]. cbn [phrase_rows]. destruct (IH i (j + 1)) as (H1 & H2). destruct (phrase_rows i (j + 1) ks) as (l, j'). cbn [fst] in *.
  split; [constructor; [reflexivity|exact H1]|]. cbn [map]. rewrite H2. reflexivity.
Qed.
Lemma later_rows : forall phs i j, Forall (fun r => i <= pr_pat r) (all_rows i j phs).
Proof.
  induction phs as [|p phs IH]; intros i j; [constructor|]. cbn [all_rows]. destruct (phrase_rows_pat p i j) as (H & _). destruct (phrase_rows i j p) as (l, j'). cbn [fst] in H.
  apply Forall_app. split; [eapply Forall_impl; [|exact H]; intros r ->; apply N.le_refl|]. eapply Forall_impl; [|exact (IH (i + 1) j')]. intros r K. cbv beta in K. lia.
Qed.
Lemma keep_all : forall (l : list prow) f, Forall (fun r => f r = true) l -> filter f l = l.
Proof. intros l f F. induction F as [|r l H F IH]; [reflexivity|]. cbn [filter]. rewrite H, IH. reflexivity. Qed.
Lemma keep_none : forall (l : list prow) f, Forall (fun r => f r = false) l -> filter f l = [].
Proof. intros l f F. induction F as [|r l H F IH]; [reflexivity|]. cbn [filter]. rewrite H. exact IH. Qed.
Lemma first_rows : forall ks alts, first_reading (map shown (all_rows 0 0 (ks :: alts))) = map row_of ks.
Proof.
  intros ks alts. unfold first_reading. cbn [all_rows]. destruct (phrase_rows_pat ks 0 0) as (H1 & H2). destruct (phrase_rows 0 0 ks) as (l, j'). cbn [fst] in *.
  rewrite map_app, filter_app. rewrite (keep_all (map shown l)), (keep_none (map shown (all_rows (0 + 1) j' alts))).
  - rewrite app_nil_r, map_map. cbn [shown pr_word pr_class pr_att]. exact H2.
  - apply Forall_map. eapply Forall_impl; [|exact (later_rows alts (0 + 1) j')]. intros r K. cbv beta in K. cbn [shown pr_pat]. apply N.eqb_neq. lia.
  - apply Forall_map. eapply Forall_impl; [|exact H1]. intros r K. cbv beta in K. cbn [shown pr_pat]. rewrite K. reflexivity.
Qed.
Lemma parse_first : forall e x locale filt address rows ks, get_tokens e (mkTz x (as_type filt)) (prepared e locale address) = Ok ks ->
  parse_table (parse_addr e x locale filt address) = Ok rows -> first_reading rows = map row_of ks.
Proof.
  intros e x locale filt address rows ks K H. unfold parse_addr, make_phrases in H. change (set_filter (mkTz x []) (as_type filt)) with (mkTz x (as_type filt)) in H. rewrite K in H. cbn [obind] in H.
  assert (A : forall m, get_alt_tokens (e_uni e) x ks <> Throw m) by (intros m; unfold get_alt_tokens; destruct (phrases ks); [discriminate|]; destruct (Nat.ltb 31 (S n)); discriminate).
  destruct (get_alt_tokens (e_uni e) x ks) as [alts|m|]; [|destruct (A m eq_refl)|discriminate H]. cbn [obind parse_table] in H. injection H as <-. apply first_rows.
Qed.
Lemma join_parse : forall e lx arg locale filt address aa ab rows ra rb, real_tables (e_uni e) -> given_as e lx arg -> readable_with e lx locale address ->
  (forall x, lexicon_of e lx x -> some_words x /\ exists g : text, reading e x locale address = reading e x locale aa ++ g ++ reading e x locale ab /\
     joined_at (e_uni e) x (reading e x locale aa) g (reading e x locale ab) /\ (forall k, sep_exact (e_uni e) x g [k] -> exists c, In c (t_in k) /\ in_list filt c)) ->
  parse_table (std_parse_address e address arg locale filt) = Ok rows -> parse_table (std_parse_address e aa arg locale filt) = Ok ra ->
  parse_table (std_parse_address e ab arg locale filt) = Ok rb -> first_reading rows = first_reading ra ++ first_reading rb.
Proof.
  intros e lx arg locale filt address aa ab rows ra rb RT GA RD H P PA PB. unfold std_parse_address in *.
  destruct (lexicon_given e lx arg GA) as [(x & y & L & E & R)|(m & _ & E)]; rewrite E in P, PA, PB; cbn [obind] in P, PA, PB; [|cbn [parse_table] in P, PA, PB; injection P as <-; injection PA as <-; injection PB as <-; reflexivity].
  assert (RR := fun z => proj1 (proj2 (R (mkGrammar [] [] []) locale filt z))). rewrite RR in P, PA, PB.
  destruct (H x L) as (SM & g & EQ & J & D). destruct (RD x L) as (SW & BL & CC). cbv zeta in BL, CC.
  destruct (join_filtered e x filt (prepared e locale address) (prepared e locale aa) (prepared e locale ab) g RT (lexicon_built _ _ _ L) SW (lexicon_tabs _ _ _ L) SM EQ J BL CC D) as (ka & kb & Ka & Kb & K).
  rewrite (parse_first _ _ _ _ _ _ _ K P), (parse_first _ _ _ _ _ _ _ Ka PA), (parse_first _ _ _ _ _ _ _ Kb PB). apply map_app.
Qed.

(** ** When the conditions hold *)
Lemma clear_whole : forall e x str, real_tables (e_uni e) -> built x -> simple_words x -> let t := e_upper e (x_locale x) (e_nfc e str) in
  blank_lines (e_uni e) t -> case_clear (e_uni e) x t -> clear_text (e_uni e) t -> starts (e_uni e) t -> whole_read (e_uni e) x t.
Proof.
  intros e x str (_ & AT & _) B SW t BL CC CT ST. destruct (pieces_end e x str B BL) as [K|(ps & E & _)]; [destruct (simple_no_throw e x str B SW K)|].
  exists ps. split; [apply (pieces_scanned e x str ps B SW AT BL CC); exact E|]. destruct (pieces_read e x str ps B SW BL E) as (left & ET & WR & L).
  destruct (all_read (e_uni e) x ps left t ET WR L CT (or_intror ST)) as (-> & _). rewrite app_nil_r in ET. symmetry. exact ET.
Qed.
(** Words without the first sign of the separator end before it. *)
Lemma inside_by_sign : forall u x a c g b, (forall w, word_like u x w -> ~ In c w) -> ends_inside u x a ((c :: g) ++ b).
Proof.
  intros u x a c g b H a1 a2 w r -> N (E & L & _). destruct (Nat.le_gt_cases (List.length w) (List.length a2)) as [K|K]; [exact K|]. exfalso.
  destruct (cut_beyond _ _ _ _ E K) as (d & m & -> & E2). cbn [app] in E2. injection E2 as <- _. apply (H _ L). apply in_or_app. right. left. reflexivity.
Qed.
Lemma clear_joined : forall e x sa c g b, real_tables (e_uni e) -> built x -> simple_words x -> let a := e_upper e (x_locale x) (e_nfc e sa) in
  one_line a -> case_clear (e_uni e) x a -> clear_text (e_uni e) a -> starts (e_uni e) a -> ends_word (e_uni e) a ->
  Forall (sep_char (e_uni e)) (c :: g) -> ~ begins_sep (e_uni e) b -> (g = [] -> ~ joins (e_uni e) c) -> (forall w, word_like (e_uni e) x w -> ~ In c w) ->
  joined_at (e_uni e) x a (c :: g) b.
Proof.
  intros e x sa c g b RT B SW a O CC CT ST EW GS BN GJ NW. split; [exact O|]. split; [exact EW|]. split; [|split; [discriminate|split; [exact GS|split; [exact BN|split; [|apply inside_by_sign; exact NW]]]]].
  - apply (clear_whole e x sa RT B SW); [|exact CC|exact CT|exact ST]. intros d I L. exfalso. unfold one_line in O. rewrite Forall_forall in O. exact (O d I L).
  - intros s E. injection E as <- ->. apply GJ. reflexivity.
Qed.

(** ** Examples *)
Definition front_addr : text := s2t "12 Main st"%string.
Definition back_addr : text := s2t "PO Box 7"%string.
Lemma w_some : some_words w_x.
Proof. exists (s2t "ST"%string). split; [apply (listed_keys w_x _ [s2t "PO BOX"; s2t "ST"]%string w_x_built eq_refl); right; left; reflexivity|discriminate]. Qed.
Lemma join_readings : reading ascii_env w_x en w_addr = reading ascii_env w_x en front_addr ++ [44; 32; 32] ++ reading ascii_env w_x en back_addr.
Proof. vm_compute. reflexivity. Qed.
Lemma front_read : whole_read ascii_uni w_x (reading ascii_env w_x en front_addr).
Proof.
  set (ps := [mkPiece [] [49; 50; 32] [49; 50] [32]; mkPiece [] [77; 65; 73; 78; 32] [77; 65; 73; 78] [32]; mkPiece [] [83; 84] [83; 84] []]).
  exists ps. split; [|vm_compute; reflexivity]. assert (E : get_pieces ascii_env w_x (prepared ascii_env en front_addr) = Ok ps) by (vm_compute; reflexivity).
  apply (pieces_scanned ascii_env w_x (prepared ascii_env en front_addr) ps w_x_built w_x_simple ascii_apart); [apply ascii_lines; absent| |exact E].
  apply (upper_clear w_x _ [s2t "PO BOX"%string; s2t "ST"%string] w_x_built); vm_compute; reflexivity.
Qed.
Lemma no_comma_words : forall w, word_like ascii_uni w_x w -> ~ In 44 w.
Proof.
  intros w (v & V & _ & F) I. apply (listed_keys w_x v [s2t "PO BOX"; s2t "ST"]%string w_x_built eq_refl) in V.
  assert (J : exists d, In d v /\ like ascii_uni d 44). { clear - F I. induction F as [|d c' v w Q F IH]; [destruct I|]. destruct I as [-> |I]; [exists d; split; [left; reflexivity|exact Q]|]. destruct (IH I) as (d' & J & Q'). exists d'. split; [right; exact J|exact Q']. }
  destruct J as (d & J & Q). destruct V as [<-|[<-|[]]]; vm_compute in J; repeat (destruct J as [<-|J]; [vm_compute in Q; discriminate Q|]); destruct J.
Qed.
Lemma join_joint : joined_at ascii_uni w_x (reading ascii_env w_x en front_addr) [44; 32; 32] (reading ascii_env w_x en back_addr).
Proof.
  split; [|split; [|split; [exact front_read|split; [discriminate|split; [|split; [|split; [intros s E; discriminate E|]]]]]]].
  - let t := eval vm_compute in (reading ascii_env w_x en front_addr) in change (reading ascii_env w_x en front_addr) with t. unfold one_line.
    repeat (constructor; [intros L; vm_compute in L; repeat (destruct L as [L|L]; [discriminate L|]); exact L|]). constructor.
  - exists [49; 50; 32; 77; 65; 73; 78; 32; 83], 84. split; [vm_compute; reflexivity|]. apply (proj1 ascii_apart 84). left. reflexivity.
  - repeat (constructor; [apply ascii_sep; cbn [In]; tauto|]). constructor.
  - apply (proj1 ascii_apart 80). left. reflexivity.
  - apply inside_by_sign. exact no_comma_words.
Qed.
Lemma join_setting : real_tables ascii_uni /\ given_as ascii_env w_lexicon w_lexicon /\ readable_with ascii_env w_lexicon en w_addr /\
  (forall x, lexicon_of ascii_env w_lexicon x -> some_words x /\ exists g : text, reading ascii_env x en w_addr = reading ascii_env x en front_addr ++ g ++ reading ascii_env x en back_addr /\
     joined_at ascii_uni x (reading ascii_env x en front_addr) g (reading ascii_env x en back_addr) /\ (forall k, sep_exact ascii_uni x g [k] -> exists c, In c (t_in k) /\ in_list w_filter c)) /\
  exists rows ra rb, parse_table (std_parse_address ascii_env w_addr w_lexicon en w_filter) = Ok rows /\ parse_table (std_parse_address ascii_env front_addr w_lexicon en w_filter) = Ok ra /\
    parse_table (std_parse_address ascii_env back_addr w_lexicon en w_filter) = Ok rb /\ List.length (first_reading ra) = 3%nat /\ List.length (first_reading rb) = 2%nat /\ List.length rows = 11%nat.
Proof.
  split; [exact ascii_real|]. split; [exact w_given|]. split; [exact w_readable|]. split.
  - intros x L. rewrite (w_only x L). split; [exact w_some|]. exists [44; 32; 32]. split; [exact join_readings|]. split; [exact join_joint|].
    assert (D := gap_drop [44; 32; 32] (or_introl eq_refl)). exact (proj2 (proj2 (proj2 (proj2 D)))).
  - do 3 eexists. split; [vm_compute; reflexivity|]. split; [vm_compute; reflexivity|]. split; [vm_compute; reflexivity|]. split; [vm_compute; reflexivity|]. split; vm_compute; reflexivity.
Qed.
Lemma join_direct : real_tables ascii_uni /\ built w_x /\ simple_words w_x /\ tab_free w_x /\ some_words w_x /\
  (let t := reading ascii_env w_x en w_addr in let a := reading ascii_env w_x en front_addr in let b := reading ascii_env w_x en back_addr in
   t = a ++ [44; 32; 32] ++ b /\ joined_at ascii_uni w_x a [44; 32; 32] b /\ blank_lines ascii_uni t /\ case_clear ascii_uni w_x t) /\
  forall k, sep_exact ascii_uni w_x [44; 32; 32] [k] -> exists c, In c (t_in k) /\ in_list w_filter c.
Proof.
  destruct w_setting as (A0 & A1 & _ & _ & A2 & A3 & A4). split; [exact ascii_real|]. split; [exact A0|]. split; [exact A1|]. split; [exact (proj2 A4)|]. split; [exact w_some|].
  split; [split; [exact join_readings|split; [exact join_joint|split; [exact A2|exact A3]]]|]. exact (proj2 (proj2 (proj2 (proj2 (gap_drop [44; 32; 32] (or_introl eq_refl)))))).
Qed.
(** A listed word across the separator. *)
Lemma across : exists rows ra rb, parse_table (std_parse_address ascii_env (s2t "PO Box 7"%string) w_lexicon en w_filter) = Ok rows /\
  parse_table (std_parse_address ascii_env (s2t "PO"%string) w_lexicon en w_filter) = Ok ra /\ parse_table (std_parse_address ascii_env (s2t "Box 7"%string) w_lexicon en w_filter) = Ok rb /\
  first_reading rows <> first_reading ra ++ first_reading rb.
Proof. do 3 eexists. split; [vm_compute; reflexivity|]. split; [vm_compute; reflexivity|]. split; [vm_compute; reflexivity|]. vm_compute. discriminate. Qed.
(** A sign that joins two numbers. *)
Lemma joined : exists rows ra rb, parse_table (std_parse_address ascii_env (s2t "3/5"%string) w_lexicon en w_filter) = Ok rows /\
  parse_table (std_parse_address ascii_env (s2t "3"%string) w_lexicon en w_filter) = Ok ra /\ parse_table (std_parse_address ascii_env (s2t "5"%string) w_lexicon en w_filter) = Ok rb /\
  first_reading rows <> first_reading ra ++ first_reading rb.
Proof. do 3 eexists. split; [vm_compute; reflexivity|]. split; [vm_compute; reflexivity|]. split; [vm_compute; reflexivity|]. vm_compute. discriminate. Qed.
(** Two addresses with two tokenizations each. *)
Definition box_addr : text := s2t "PO Box 5"%string.
Definition boxes_addr : text := s2t "PO Box 5,  PO Box 7"%string.
Lemma box_read : whole_read ascii_uni w_x (reading ascii_env w_x en box_addr).
Proof.
  set (ps := [mkPiece [] [80; 79; 32; 66; 79; 88; 32] [80; 79; 32; 66; 79; 88] [32]; mkPiece [] [53] [53] []]).
  exists ps. split; [|vm_compute; reflexivity]. assert (E : get_pieces ascii_env w_x (prepared ascii_env en box_addr) = Ok ps) by (vm_compute; reflexivity).
  apply (pieces_scanned ascii_env w_x (prepared ascii_env en box_addr) ps w_x_built w_x_simple ascii_apart); [apply ascii_lines; absent| |exact E].
  apply (upper_clear w_x _ [s2t "PO BOX"%string; s2t "ST"%string] w_x_built); vm_compute; reflexivity.
Qed.
Lemma boxes_setting : real_tables ascii_uni /\ built w_x /\ simple_words w_x /\ tab_free w_x /\ some_words w_x /\
  (let t := reading ascii_env w_x en boxes_addr in let a := reading ascii_env w_x en box_addr in let b := reading ascii_env w_x en back_addr in
   t = a ++ [44; 32; 32] ++ b /\ joined_at ascii_uni w_x a [44; 32; 32] b /\ blank_lines ascii_uni t /\ case_clear ascii_uni w_x t) /\
  (forall k, sep_exact ascii_uni w_x [44; 32; 32] [k] -> exists c, In c (t_in k) /\ in_list w_filter c) /\
  exists pa pb ps, make_phrases ascii_env w_x en w_filter box_addr = Ok pa /\ make_phrases ascii_env w_x en w_filter back_addr = Ok pb /\ make_phrases ascii_env w_x en w_filter boxes_addr = Ok ps /\
    map (@List.length token) pa = [2; 3]%nat /\ map (@List.length token) pb = [2; 3]%nat /\ map (@List.length token) ps = [4; 5; 5; 6]%nat.
Proof.
  destruct join_direct as (A0 & A1 & A2 & A3 & A4 & (_ & (_ & _ & _ & J3 & J4 & J5 & J6 & _) & _) & A6). split; [exact A0|]. split; [exact A1|]. split; [exact A2|]. split; [exact A3|]. split; [exact A4|].
  split; [split; [vm_compute; reflexivity|]; split; [|split]|split; [exact A6|]].
  - split; [|split; [|split; [exact box_read|split; [exact J3|split; [exact J4|split; [exact J5|split; [exact J6|apply inside_by_sign; exact no_comma_words]]]]]]].
    + let t := eval vm_compute in (reading ascii_env w_x en box_addr) in change (reading ascii_env w_x en box_addr) with t. unfold one_line.
      repeat (constructor; [intros L; vm_compute in L; repeat (destruct L as [L|L]; [discriminate L|]); exact L|]). constructor.
    + exists [80; 79; 32; 66; 79; 88; 32], 53. split; [vm_compute; reflexivity|]. apply (proj1 ascii_apart 53). right. reflexivity.
  - apply ascii_lines; absent.
  - apply (upper_clear w_x _ [s2t "PO BOX"%string; s2t "ST"%string] w_x_built); vm_compute; reflexivity.
  - do 3 eexists. split; [vm_compute; reflexivity|]. split; [vm_compute; reflexivity|]. split; [vm_compute; reflexivity|]. split; [vm_compute; reflexivity|]. split; [vm_compute; reflexivity|vm_compute; reflexivity].
Qed.
Lemma clear_setting : real_tables ascii_uni /\ built w_x /\ simple_words w_x /\ (let a := reading ascii_env w_x en front_addr in
  one_line a /\ case_clear ascii_uni w_x a /\ clear_text ascii_uni a /\ starts ascii_uni a /\ ends_word ascii_uni a) /\
  Forall (sep_char ascii_uni) [44; 32; 32] /\ ~ begins_sep ascii_uni (reading ascii_env w_x en back_addr) /\ ([32; 32] = @nil N -> ~ joins ascii_uni 44) /\ forall w, word_like ascii_uni w_x w -> ~ In 44 w.
Proof.
  destruct join_direct as (A0 & A1 & A2 & _ & _ & (E & (J1 & J2 & _ & J3 & J4 & J5 & J6 & _) & _ & CC) & _). split; [exact A0|]. split; [exact A1|]. split; [exact A2|].
  split; [|split; [exact J4|split; [exact J5|split; [discriminate|exact no_comma_words]]]]. split; [exact J1|]. split; [|split; [|split; [|exact J2]]].
  - rewrite E in CC. exact (proj1 (case_part _ _ _ _ _ CC)).
  - assert (K : forall c, In c [49; 50; 77; 65; 73; 78; 83; 84] -> alnum ascii_uni c) by (intros c I; cbn [In] in I; unfold alnum; repeat (destruct I as [<-|I]; [vm_compute; tauto|]); destruct I).
    intros c I. let t := eval vm_compute in (reading ascii_env w_x en front_addr) in change (reading ascii_env w_x en front_addr) with t in I.
    destruct (N.eq_dec c 32) as [-> |NE]; [right; split; [apply ascii_sep; cbn [In]; tauto|intros [Z|Z]; vm_compute in Z; discriminate Z]|]. left.
    assert (AL : alnum ascii_uni c) by (apply K; cbn [In] in *; repeat (destruct I as [<-|I]; [first [tauto|destruct (NE eq_refl)]|]); destruct I). split; [exact AL|]. destruct (proj1 ascii_apart c AL) as (Z1 & Z2). split; [exact Z1|]. split; [exact Z2|].
    intros ->. destruct AL as [Z|Z]; vm_compute in Z; discriminate Z.
  - exists [], 49, [50; 32; 77; 65; 73; 78; 32; 83; 84]. split; [vm_compute; reflexivity|]. split; [constructor|]. right. reflexivity.
Qed.
(** Three parts. *)
Definition three_addr : text := s2t "12 Main st,  PO Box 5,  PO Box 7"%string.
Lemma three_setting : real_tables ascii_uni /\ built w_x /\ simple_words w_x /\ tab_free w_x /\ some_words w_x /\
  (let t := reading ascii_env w_x en three_addr in
   in_parts ascii_uni w_x w_filter t (map (fun s => e_upper ascii_env (x_locale w_x) (e_nfc ascii_env s)) [front_addr; box_addr; back_addr]) /\ blank_lines ascii_uni t /\ case_clear ascii_uni w_x t).
Proof.
  destruct clear_setting as (A0 & A1 & A2 & (B1 & B2 & B3 & B4 & B5) & J4 & J5 & J6 & NC). destruct boxes_setting as (_ & _ & _ & A3 & A4 & (E & J & _) & D & _).
  split; [exact A0|]. split; [exact A1|]. split; [exact A2|]. split; [exact A3|]. split; [exact A4|]. split; [|split].
  - assert (ET : reading ascii_env w_x en three_addr = reading ascii_env w_x en front_addr ++ [44; 32; 32] ++ (reading ascii_env w_x en box_addr ++ [44; 32; 32] ++ reading ascii_env w_x en back_addr)) by (vm_compute; reflexivity).
    cbv zeta. rewrite ET. change (map (fun s => e_upper ascii_env (x_locale w_x) (e_nfc ascii_env s)) [front_addr; box_addr; back_addr]) with
      [e_upper ascii_env (x_locale w_x) (e_nfc ascii_env front_addr); e_upper ascii_env (x_locale w_x) (e_nfc ascii_env box_addr); e_upper ascii_env (x_locale w_x) (e_nfc ascii_env back_addr)].
    assert (R1 : e_upper ascii_env (x_locale w_x) (e_nfc ascii_env front_addr) = reading ascii_env w_x en front_addr) by (vm_compute; reflexivity).
    assert (R2 : e_upper ascii_env (x_locale w_x) (e_nfc ascii_env box_addr) = reading ascii_env w_x en box_addr) by (vm_compute; reflexivity).
    assert (R3 : e_upper ascii_env (x_locale w_x) (e_nfc ascii_env back_addr) = reading ascii_env w_x en back_addr) by (vm_compute; reflexivity). rewrite R1, R2, R3.
    apply ip_more; [|exact D|apply ip_more; [exact J|exact D|apply ip_last]].
    apply (clear_joined ascii_env w_x (prepared ascii_env en front_addr) 44 [32; 32] _ A0 A1 A2 B1 B2 B3 B4 B5 J4); [|exact J6|exact NC]. apply (proj1 ascii_apart 80). left. reflexivity.
  - apply ascii_lines; absent.
  - apply (upper_clear w_x _ [s2t "PO BOX"%string; s2t "ST"%string] w_x_built); vm_compute; reflexivity.
Qed.
