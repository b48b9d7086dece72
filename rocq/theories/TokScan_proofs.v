(** What the scan reads. *)
From Coq Require Import String List NArith Bool Lia Arith Sorting.Sorted.
From Verif Require Import Base_model Class_model Uni_model Token_model Regex_model Trie_model Trie_spec Lexicon_model Tokenizer_model
  Lexicon_spec Tokenizer_spec Search_proofs Trie_proofs TrieRegex_proofs TrieWords_proofs TrieLang_proofs TokParse_proofs Match_proofs TokMatch_proofs
  LexMap_proofs.
Import ListNotations.
Local Open Scope N_scope.

(** ** Lexicons *)
Lemma fold_wf : forall f x e is line acc cnt r, lex_wf (x_lex x) /\ cache_ok x -> read_entries f e is line acc cnt x = Ok r ->
  lex_wf (x_lex (snd r)) /\ cache_ok (snd r).
Proof.
  induction f as [|f IH]; intros x e is line acc cnt r H E; [discriminate|]. cbn [read_entries] in E.
  destruct (s_fail is); [injection E as <-; exact H|]. destruct (getline LF is line) as (is' & raw).
  destruct (entry_line e (x_locale x) (cnt + 1) raw) as [[o l]| |]; try discriminate. cbn [obind fst snd] in E.
  eapply IH; [|exact E]. destruct o as [le|]; [|exact H]. destruct H as (H1 & H2). split.
  - apply (step_wf x (Ins le)); exact H1.
  - apply (step_cache x (Ins le)); exact H2.
Qed.
Lemma built_ok : forall x, built x -> lex_wf (x_lex x) /\ cache_ok x.
Proof.
  intros x H. induction H as [n|e n src x H|x o H (IH1 & IH2)].
  - split; [apply new_wf|apply new_cache].
  - unfold load_lexicon in H. destruct (getline LF (open_stream src) []) as (is & raw).
    destruct (lex_strip_bom raw) as [line| |]; try discriminate. cbn [obind] in H.
    destruct (skip_header _ _ _ _ _) as [h| |]; try discriminate. cbn [obind] in H. destruct h as (((is' & hline) & acc) & cnt).
    destruct (header_fields hline) as ((t1 & t3) & loc). destruct (_ || _); [|discriminate].
    destruct (read_entries _ _ _ _ _ _ _) as [r| |] eqn:R; try discriminate. cbn [obind] in H. injection H as <-.
    apply fold_wf in R.
    + destruct R as (R1 & R2). split; [exact R1|]. exact R2.
    + split; [split; constructor|repeat split; left; reflexivity].
  - split; [apply step_wf; exact IH1|apply step_cache; exact IH2].
Qed.
Lemma listed_in : forall x w, lex_wf (x_lex x) -> (listed x w <-> In w (map fst (x_lex x))).
Proof.
  intros x w (Hs & Hf). unfold listed, lex_find. split.
  - destruct (map_get w (x_lex x)) as [l|] eqn:E; [|congruence]. intros _. apply map_get_in in E. apply in_map_iff. exists (w, l). auto.
  - intros H. apply in_map_iff in H. destruct H as ((k & l) & <- & H). rewrite Forall_forall in Hf. destruct (Hf _ H) as (Hl & _). simpl in *.
    destruct (map_get k (x_lex x)) as [l'|] eqn:E.
    + apply map_get_in in E. destruct (Hf _ E) as (K & _). exact K.
    + exfalso. clear - H E. induction (x_lex x) as [|(k1 & v1) L IH]; [destruct H|]. simpl in E. destruct H as [H|H].
      * injection H as -> ->. rewrite teqb_refl in E. discriminate.
      * destruct (teqb k k1); [discriminate|]. apply IH; assumption.
Qed.

(** ** First ways *)
Lemma hd_flat : forall A B (f : A -> list B) l y, hd_error (flat_map f l) = Some y -> exists x, In x l /\ hd_error (f x) = Some y.
Proof.
  induction l as [|x l IH]; intros y H; [discriminate|]. simpl in H. destruct (f x) as [|z zs] eqn:E.
  - destruct (IH y H) as (x' & H1 & H2). exists x'. split; [right; exact H1|exact H2].
  - exists x. split; [left; reflexivity|]. rewrite E. exact H.
Qed.
Lemma hd_map : forall A B (f : A -> B) l y, hd_error (map f l) = Some y -> exists x, hd_error l = Some x /\ f x = y.
Proof. intros A B f [|x l] y H; [discriminate|]. injection H as <-. exists x. auto. Qed.
Lemma hd_in : forall A (l : list A) y, hd_error l = Some y -> In y l.
Proof. intros A [|x l] y H; [discriminate|]. injection H as <-. left. reflexivity. Qed.
Lemma hd_app_pick : forall A B (f : A -> list B) l1 a l2 y, (forall x, In x l1 -> f x = []) -> hd_error (f a) = Some y ->
  hd_error (flat_map f (l1 ++ a :: l2)) = Some y.
Proof.
  induction l1 as [|x l1 IH]; intros a l2 y H1 H2; simpl.
  - destruct (f a); [discriminate|exact H2].
  - rewrite (H1 x) by (left; reflexivity). apply IH; [intros z Hz; apply H1; right; exact Hz|exact H2].
Qed.
Lemma spans_hd : forall p t, exists w ws, spans p t = w :: ws.
Proof.
  intros p [|c t]; simpl; [eexists; eexists; reflexivity|]. destruct (p c); [|eexists; eexists; reflexivity].
  destruct (spans p t) as [|w ws]; simpl; eexists; eexists; reflexivity.
Qed.
Lemma spans_in : forall p t w, In w (spans p t) <-> Forall (fun c => p c = true) w /\ exists r, t = w ++ r.
Proof.
  induction t as [|c t IH]; intros w; simpl.
  - split.
    + intros [<-|[]]. split; [constructor|exists []; reflexivity].
    + intros (_ & r & E). symmetry in E. apply app_eq_nil in E. destruct E as (-> & _). left. reflexivity.
  - destruct (p c) eqn:P.
    + rewrite in_app_iff, in_map_iff. split.
      * intros [(v & <- & Hv)|[<-|[]]].
        -- apply IH in Hv. destruct Hv as (F & r & ->). split; [constructor; assumption|exists r; reflexivity].
        -- split; [constructor|exists (c :: t); reflexivity].
      * intros (F & r & E). destruct w as [|d w]; [right; left; reflexivity|]. injection E as <- ->. left. exists w. split; [reflexivity|].
        inversion F; subst. apply IH. split; [assumption|exists r; reflexivity].
    + split.
      * intros [<-|[]]. split; [constructor|exists (c :: t); reflexivity].
      * intros (F & r & E). destruct w as [|d w]; [left; reflexivity|]. injection E as <- ->. inversion F; subst. congruence.
Qed.
(** The longest run comes first. *)
Lemma spans_longest : forall p b r, Forall (fun c => p c = true) b -> match r with c :: _ => p c = false | [] => True end ->
  exists ws, spans p (b ++ r) = b :: ws.
Proof.
  induction b as [|c b IH]; intros r F H; simpl.
  - destruct r as [|c r]; simpl; [|rewrite H]; eexists; reflexivity.
  - inversion F as [|? ? Hc Hb]; subst. rewrite Hc. destruct (IH r Hb H) as (ws & ->). simpl. eexists; reflexivity.
Qed.

Section S.
Variable u : uni.
Notation mtT := (mt u true).
Definition spp : N -> bool := set_pred u true false [ISpace].
Definition sepp : N -> bool := set_pred u true false sep_items.
Definition dashp (c : N) : bool := ceq u true EMDASH c.
Lemma spp_eq : forall c, spp c = u_space u c.
Proof. intros c. unfold spp, set_pred. cbn [existsb item_has]. rewrite xorb_false_l, orb_false_r. reflexivity. Qed.
Lemma blanks_spp : forall b, blanks u b <-> Forall (fun c => spp c = true) b.
Proof. intros b. unfold blanks. split; apply Forall_impl; intros c; rewrite spp_eq; auto. Qed.
Lemma ceq_like : forall a c, ceq u true a c = true <-> like u a c.
Proof. intros a c. unfold ceq, like. apply N.eqb_eq. Qed.
Lemma sepp_iff : forall c, sepp c = true <-> sep_char u c.
Proof.
  intros c. unfold sepp, set_pred, sep_items, sep_char. cbn [existsb item_has]. rewrite xorb_false_l, orb_false_r, !orb_true_iff, !ceq_like. tauto.
Qed.
Lemma dashp_iff : forall c, dashp c = true <-> dash u c.
Proof. intros c. apply ceq_like. Qed.
Lemma sep_line : forall c, is_sep c = true <-> line_end c.
Proof.
  intros c. unfold is_sep, line_end. rewrite !orb_true_iff, !N.eqb_eq. cbn [In]. intuition.
Qed.
Lemma star_set_ways : forall ic neg l s, mt u ic (RStar (RSet neg l)) s = map (adv s) (spans (set_pred u ic neg l) (m_rest s)).
Proof. intros ic neg l s. cbn [mt]. apply (star_ways (set_pred u ic neg l)). apply le_n. Qed.
Lemma dash_ways : forall s, mtT (RSet false [IChr EMDASH]) s = match m_rest s with c :: t => if dashp c then [adv s [c]] else [] | [] => [] end.
Proof.
  intros s. cbn [mt]. unfold one_char. destruct (m_rest s) as [|c t] eqn:E; [reflexivity|]. cbn [existsb item_has].
  rewrite xorb_false_l, orb_false_r. change (ceq u true EMDASH c) with (dashp c). destruct (dashp c); [|reflexivity].
  rewrite <- (adv_cons s c t [] E), adv_nil. reflexivity.
Qed.
Lemma sep_ways : forall s, mtT sep_re s = map (adv s) (spans1 sepp (m_rest s)) ++
  match m_rest s with c :: t => if dashp c then [adv s [c]] else [] | [] => [] end ++ guard (at_eol s) s.
Proof.
  intros s. unfold sep_re. change (mtT (RAlt ?a (RAlt ?b ?c)) s) with (mtT a s ++ mtT b s ++ mtT c s).
  rewrite !cat_empty, plus_ways, dash_ways. reflexivity.
Qed.
Lemma spans_max : forall p t w ws, spans p t = w :: ws -> Forall (fun c => p c = true) w /\ exists r, t = w ++ r /\ match r with c :: _ => p c = false | [] => True end.
Proof.
  induction t as [|c t IH]; intros w ws H; simpl in H.
  - injection H as <- <-. split; [constructor|exists []; auto].
  - destruct (p c) eqn:P.
    + destruct (spans_hd p t) as (v & vs & Ev). rewrite Ev in H. simpl in H. injection H as <- _. destruct (IH _ _ Ev) as (F & r & -> & Hr).
      split; [constructor; assumption|exists r; auto].
    + injection H as <- <-. split; [constructor|exists (c :: t); auto].
Qed.
Lemma sep_first : forall s s', blank_lines u (m_rest s) -> hd_error (mtT sep_re s) = Some s' ->
  exists w, reads s s' w /\ separator u w (m_rest s').
Proof.
  intros s s' BL H. rewrite sep_ways in H. destruct (m_rest s) as [|c t] eqn:Er.
  - simpl in H. unfold guard in H. destruct (at_eol s); [|discriminate]. injection H as <-. exists []. split; [apply reads_nil|]. left. auto.
  - cbn [spans1] in H. destruct (sepp c) eqn:S.
    + destruct (spans_hd sepp t) as (v & vs & Ev). rewrite Ev in H. simpl in H. injection H as <-.
      destruct (spans_max _ _ _ _ Ev) as (F & r & -> & Hr). exists (c :: v).
      assert (ER : m_rest (adv s (c :: v)) = r) by (apply adv_rest; exact Er). split; [split; [rewrite ER; exact Er|reflexivity]|].
      rewrite ER. right. left. split; [discriminate|]. split.
      * constructor; [apply sepp_iff; exact S|]. eapply Forall_impl; [|exact F]. intros d. apply sepp_iff.
      * destruct r as [|d r]; [exact I|]. intros K. apply sepp_iff in K. congruence.
    + simpl in H. destruct (dashp c) eqn:D.
      * simpl in H. injection H as <-. exists [c]. assert (ER : m_rest (adv s [c]) = t) by (apply adv_rest; exact Er).
        split; [split; [rewrite ER; exact Er|reflexivity]|]. right. right. exists c. split; [reflexivity|]. split; [apply dashp_iff; exact D|].
        intros K. apply sepp_iff in K. congruence.
      * exfalso. simpl in H. unfold guard in H. destruct (at_eol s) eqn:A; [|discriminate]. unfold at_eol in A. rewrite Er in A. apply andb_true_iff in A. destruct A as (A & _).
        apply sep_line in A. assert (K : u_space u c = true) by (apply BL; [left; reflexivity|exact A]).
        assert (sepp c = true) by (apply sepp_iff; unfold sep_char; tauto). congruence.
Qed.
Lemma sep_ok : forall s, blank_lines u (m_rest s) -> (mtT sep_re s <> [] <-> stops u (m_rest s)).
Proof.
  intros s BL. rewrite sep_ways. unfold stops. destruct (m_rest s) as [|c t] eqn:Er.
  - split; [intros _; exact I|]. intros _. simpl. unfold at_eol. rewrite Er. discriminate.
  - cbn [spans1]. rewrite <- sepp_iff, <- dashp_iff. split.
    + intros H. destruct (sepp c) eqn:S; [left; reflexivity|]. destruct (dashp c) eqn:D; [right; reflexivity|]. exfalso. apply H. simpl.
      unfold guard. destruct (at_eol s) eqn:A; [|reflexivity]. unfold at_eol in A. rewrite Er in A. apply andb_true_iff in A. destruct A as (A & _).
      apply sep_line in A. assert (K : u_space u c = true) by (apply BL; [left; reflexivity|exact A]).
      assert (sepp c = true) by (apply sepp_iff; unfold sep_char; tauto). congruence.
    + intros [S|D].
      * rewrite S. destruct (spans_hd sepp t) as (v & vs & ->). discriminate.
      * rewrite D. intros K. apply app_eq_nil in K. destruct K as (_ & K). discriminate.
Qed.
Lemma dash_ahead : forall s, mtT (RNotAhead dash_re) s = match m_rest s with c :: _ => if dashp c then [] else [s] | [] => [s] end.
Proof.
  intros s. change (mtT (RNotAhead dash_re) s) with (match mtT dash_re s with [] => [s] | _ => [] end).
  unfold dash_re. rewrite cat_empty.
  change (mtT (RPlus (RCat (RSet false [IChr EMDASH]) REmpty)) s) with
    (flat_map (fun s' => star_of (mtT (RCat (RSet false [IChr EMDASH]) REmpty)) (List.length (m_rest s')) s') (mtT (RCat (RSet false [IChr EMDASH]) REmpty) s)).
  rewrite cat_empty, dash_ways. destruct (m_rest s) as [|c t]; [reflexivity|]. destruct (dashp c); [|reflexivity].
  cbn [flat_map]. rewrite app_nil_r.
  destruct (List.length (m_rest (adv s [c]))); cbn [star_of]; [reflexivity|].
  destruct (flat_map _ _); reflexivity.
Qed.
Lemma token_ways : forall g s, mtT (token_re g) s =
  if at_bol s then
    flat_map (fun b => match skipn (List.length b) (m_rest s) with
                       | c :: _ => if dashp c then [] else mtT (pair_re g sep_re) (adv s b)
                       | [] => mtT (pair_re g sep_re) (adv s b)
                       end) (spans spp (m_rest s))
  else [].
Proof.
  intros g s. unfold token_re. change (mtT (RCat RBol ?r) s) with (flat_map (mtT r) (guard (at_bol s) s)).
  unfold guard. destruct (at_bol s); [|reflexivity]. cbn [flat_map]. rewrite app_nil_r.
  change (mtT (RCat blanks_re ?r) s) with (flat_map (mtT r) (mtT blanks_re s)). unfold blanks_re. rewrite star_set_ways. fold spp.
  induction (spans spp (m_rest s)) as [|b l IH]; [reflexivity|]. cbn [map flat_map]. rewrite IH. f_equal.
  change (mtT (RCat (RNotAhead dash_re) ?r) ?s) with (flat_map (mtT r) (mtT (RNotAhead dash_re) s)). rewrite dash_ahead.
  change (m_rest (adv s b)) with (skipn (List.length b) (m_rest s)).
  destruct (skipn (List.length b) (m_rest s)) as [|c t]; [cbn [flat_map]; rewrite app_nil_r; reflexivity|].
  destruct (dashp c); [reflexivity|]. cbn [flat_map]. rewrite app_nil_r. reflexivity.
Qed.

(** A way of the whole pattern. *)
Lemma blank_lines_suffix : forall a b, blank_lines u (a ++ b) -> blank_lines u b.
Proof. intros a b H c Hc. apply H. apply in_app_iff. right. exact Hc. Qed.
Lemma token_in : forall g s s', no_cap g = true -> In s' (mtT (token_re g) s) ->
  at_bol s = true /\ exists b, blanks u b /\ m_rest s = b ++ cap 1 s' ++ cap 2 s' ++ m_rest s'.
Proof.
  intros g s s' N H. rewrite token_ways in H. destruct (at_bol s); [|destruct H]. split; [reflexivity|].
  apply in_flat_map in H. destruct H as (b & Hb & H). apply spans_in in Hb. destruct Hb as (Fb & r & Er). exists b.
  split; [apply blanks_spp; exact Fb|]. rewrite Er in H |- *.
  assert (H' : In s' (mtT (pair_re g sep_re) (adv s b))).
  { destruct (skipn (List.length b) (b ++ r)) as [|c t]; [exact H|]. destruct (dashp c); [destruct H|exact H]. }
  apply pair_in in H'; [|reflexivity]. destruct H' as (s1 & s2 & a & w & _ & _ & E & _ & _ & C1 & C2 & _).
  rewrite (adv_rest s b r Er) in E. rewrite E, C1, C2. reflexivity.
Qed.
Lemma token_first : forall g s s', no_cap g = true -> blank_lines u (m_rest s) -> hd_error (mtT (token_re g) s) = Some s' ->
  separator u (cap 2 s') (m_rest s') /\ (exists b s1, m_rest s = b ++ m_rest s1 /\ exists s2, In s2 (mtT g s1) /\ reads s1 s2 (cap 1 s')) /\
  (m_rest s' = [] \/ (List.length (m_rest s') < List.length (m_rest s))%nat).
Proof.
  intros g s s' N BL H. rewrite token_ways in H. destruct (at_bol s); [|discriminate].
  apply hd_flat in H. destruct H as (b & Hb & H). apply spans_in in Hb. destruct Hb as (Fb & r & Er).
  assert (H' : hd_error (mtT (pair_re g sep_re) (adv s b)) = Some s').
  { destruct (skipn (List.length b) (m_rest s)) as [|c t]; [exact H|]. destruct (dashp c); [discriminate|exact H]. }
  rewrite pair_ways in H'. apply hd_flat in H'. destruct H' as (s1 & H1 & H2). apply hd_map in H2. destruct H2 as (s2 & H2 & <-). cbn [m_rest].
  destruct (mt_reads _ _ _ _ _ H1) as (a & RA). assert (Ca := consumed_reads _ _ _ RA). destruct RA as (Ra & Pa). assert (Ra' := Ra). rewrite (adv_rest s b r Er) in Ra.
  assert (Mc := mt_caps u true sep_re eq_refl _ _ (hd_in _ _ _ H2)).
  apply sep_first in H2; [|cbn [m_rest]; rewrite Er, Ra in BL; apply blank_lines_suffix in BL; apply blank_lines_suffix in BL; exact BL].
  cbn [m_rest] in H2. destruct H2 as (w & Rw & Hw). assert (Cw := consumed_reads _ _ _ Rw). destruct Rw as (Rw & _). cbn [m_rest] in Rw.
  unfold cap. cbn [m_caps cap_find Nat.eqb]. rewrite Cw, Mc. cbn [m_caps cap_find Nat.eqb]. rewrite Ca. split; [exact Hw|]. split.
  - exists b, (adv s b). rewrite (adv_rest s b r Er). split; [exact Er|]. exists s1. split; [exact H1|]. split; assumption.
  - rewrite Er, Ra, Rw. destruct Hw as [(-> & Hw)|[(Hw & _)|(c & -> & _)]].
    + left. exact Hw.
    + right. destruct w; [congruence|]. rewrite !app_length. simpl. lia.
    + right. rewrite !app_length. simpl. lia.
Qed.

(** ** Searching *)
Lemma search_spec : forall ic r t prev a s, search_from u ic r prev t = Some (a, s) ->
  exists t', t = a ++ t' /\ hd_error (mt u ic r (mkM (m_prev (adv (mkM prev t []) a)) t' [])) = Some s /\
    forall a1 a2, a = a1 ++ a2 -> a2 <> [] -> mt u ic r (mkM (m_prev (adv (mkM prev t []) a1)) (a2 ++ t') []) = [].
Proof.
  intros ic r. induction t as [|c t IH]; intros prev a s H.
  - cbn [search_from] in H. destruct (mt u ic r (mkM prev [] [])) as [|x l] eqn:E; [discriminate|]. injection H as <- <-.
    exists []. split; [reflexivity|]. split; [unfold adv; cbn [rev m_prev]; rewrite E; reflexivity|].
    intros a1 a2 K1 K2. symmetry in K1. apply app_eq_nil in K1. destruct K1; congruence.
  - cbn [search_from] in H. destruct (mt u ic r (mkM prev (c :: t) [])) as [|x l] eqn:E.
    + destruct (search_from u ic r (Some c) t) as [[a' s']|] eqn:F; [|discriminate]. injection H as <- <-.
      destruct (IH _ _ _ F) as (t' & -> & Hh & Hn). exists t'. split; [reflexivity|]. split.
      * rewrite <- Hh. do 3 f_equal. unfold adv. cbn [m_prev rev]. destruct (rev a') as [|d l]; reflexivity.
      * intros a1 a2 K1 K2. destruct a1 as [|d a1].
        -- simpl in K1. subst a2. unfold adv. cbn [m_prev rev]. exact E.
        -- injection K1 as -> ->. rewrite <- (Hn a1 a2 eq_refl K2). do 2 f_equal. unfold adv. cbn [m_prev rev]. destruct (rev a1) as [|e l]; reflexivity.
    + injection H as <- <-. exists (c :: t). split; [reflexivity|]. split; [unfold adv; cbn [rev m_prev]; rewrite E; reflexivity|].
      intros a1 a2 K1 K2. symmetry in K1. apply app_eq_nil in K1. destruct K1; congruence.
Qed.
Lemma search_none : forall ic r t prev, search_from u ic r prev t = None -> mt u ic r (mkM prev t []) = [].
Proof. intros ic r t prev H. destruct t; cbn [search_from] in H; destruct (mt u ic r _); (reflexivity || discriminate). Qed.
Lemma search_first : forall ic r t prev s, hd_error (mt u ic r (mkM prev t [])) = Some s -> search_from u ic r prev t = Some ([], s).
Proof. intros ic r t prev s H. destruct t; cbn [search_from]; destruct (mt u ic r _); try discriminate; injection H as <-; reflexivity. Qed.

(** One round. *)
Definition round (p : piece) (t rest : text) : Prop :=
  t = pc_skip p ++ pc_all p ++ rest /\ in_order u p /\ (pc_skip p = [] \/ exists a c, pc_skip p = a ++ [c] /\ line_end c).
Lemma piece_all : forall (a w r : text), skipn (List.length a) (firstn (List.length (a ++ w ++ r) - List.length r) (a ++ w ++ r)) = w.
Proof.
  intros a w r. rewrite !app_length. replace (List.length a + (List.length w + List.length r) - List.length r)%nat with (List.length (a ++ w)) by (rewrite app_length; lia).
  rewrite app_assoc, firstn_app, Nat.sub_diag, firstn_O, app_nil_r, firstn_all. apply skipn_app_len.
Qed.
Lemma search_round : forall g t a s, no_cap g = true -> regex_search u true (token_re g) t = Some (a, s) ->
  round (mkPiece a (skipn (List.length a) (firstn (List.length t - List.length (m_rest s)) t)) (cap 1 s) (cap 2 s)) t (m_rest s) /\
  (blank_lines u t -> t <> [] -> (List.length (m_rest s) < List.length t)%nat).
Proof.
  intros g t a s N H. destruct (search_spec _ _ _ _ _ _ H) as (t' & -> & Hh & _).
  destruct (token_in _ _ _ N (hd_in _ _ _ Hh)) as (B & b & Fb & E). cbn [m_rest] in E.
  assert (E2 : t' = (b ++ cap 1 s ++ cap 2 s) ++ m_rest s) by (rewrite E at 1; rewrite <- !app_assoc; reflexivity).
  split.
  - unfold round. cbn [pc_skip pc_all pc_tok pc_sep]. rewrite E2. rewrite piece_all. split; [reflexivity|]. split; [exists b; cbn [pc_all pc_tok pc_sep]; auto|].
    destruct a as [|c a] using rev_ind; [left; reflexivity|right]. exists a, c. split; [reflexivity|].
    unfold at_bol in B. unfold adv in B. cbn [m_prev] in B. rewrite rev_app_distr in B. cbn [rev app m_rest] in B.
    apply andb_true_iff in B. destruct B as (B & _). apply sep_line. exact B.
  - intros BL Ne. apply token_first in Hh; [|exact N|cbn [m_rest]; apply blank_lines_suffix in BL; exact BL]. cbn [m_rest] in Hh. destruct Hh as (_ & _ & Hh).
    destruct Hh as [->|Hh]; [destruct (a ++ t'); [congruence|simpl; lia]|]. rewrite app_length. lia.
Qed.
(** All rounds. *)
Lemma scan_spec : forall g, no_cap g = true -> forall f t ps, scan f u (token_re g) t = Some ps ->
  exists left, t = concat (map taken ps) ++ left /\
    Forall (fun p => in_order u p /\ (pc_skip p = [] \/ exists a c, pc_skip p = a ++ [c] /\ line_end c)) ps /\
    (left = [] \/ regex_search u true (token_re g) left = None).
Proof.
  intros g N. induction f as [|f IH]; intros t ps H; [discriminate|]. cbn [scan] in H.
  destruct (regex_search u true (token_re g) t) as [(a & s)|] eqn:E.
  - destruct (search_round g t a s N E) as ((R1 & R2 & R3) & _).
    set (p := mkPiece _ _ _ _) in *. 
    assert (Done : forall qs, option_map (cons p) (scan f u (token_re g) (m_rest s)) = Some qs -> exists left, t = concat (map taken qs) ++ left /\
      Forall (fun p => in_order u p /\ (pc_skip p = [] \/ exists a c, pc_skip p = a ++ [c] /\ line_end c)) qs /\
      (left = [] \/ regex_search u true (token_re g) left = None)).
    { intros qs K. destruct (scan f u (token_re g) (m_rest s)) as [qs'|] eqn:F; [|discriminate]. injection K as <-.
      destruct (IH _ _ F) as (left & El & Fl & Hl). exists left. cbn [map concat]. unfold taken at 1. rewrite <- !app_assoc, <- El.
      split; [exact R1|]. split; [|exact Hl]. constructor; auto. }
    destruct t as [|c t]; [|apply Done; exact H]. injection H as <-. exists []. cbn [map concat]. unfold taken.
    symmetry in R1. apply app_eq_nil in R1. destruct R1 as (R1 & R1'). apply app_eq_nil in R1'. destruct R1' as (R1' & _). rewrite R1, R1'.
    split; [reflexivity|]. split; [|left; reflexivity]. constructor; [|constructor]. rewrite R1 in R3. auto.
  - injection H as <-. exists t. split; [reflexivity|]. split; [constructor|right; exact E].
Qed.
Lemma scan_enough : forall g, no_cap g = true -> forall f t, blank_lines u t -> (List.length t < f)%nat ->
  exists ps, scan f u (token_re g) t = Some ps /\ (List.length ps <= S (List.length t))%nat /\
    forall ps1 p ps2, ps = ps1 ++ p :: ps2 -> ps2 <> [] -> taken p <> [].
Proof.
  intros g N. induction f as [|f IH]; intros t BL L; [lia|]. cbn [scan].
  destruct (regex_search u true (token_re g) t) as [(a & s)|] eqn:E.
  - destruct (search_round g t a s N E) as ((R1 & _ & _) & R4). set (p := mkPiece _ _ _ _) in *. destruct t as [|c t].
    + exists [p]. split; [reflexivity|]. split; [simpl; lia|]. intros [|q ps1] p' ps2 K1 K2; [injection K1 as _ <-; congruence|].
      injection K1 as _ K1. destruct ps1; discriminate.
    + specialize (R4 BL ltac:(discriminate)).
      destruct (IH (m_rest s)) as (ps & -> & Hl & Hn).
      { rewrite R1 in BL. rewrite app_assoc in BL. apply blank_lines_suffix in BL. exact BL. }
      { simpl in *. lia. }
      exists (p :: ps). split; [reflexivity|]. split; [simpl in *; lia|]. intros [|q ps1] p' ps2 K1 K2.
      * injection K1 as <- <-. intros K. unfold taken in K. rewrite R1, app_assoc, K in R4. simpl in R4. lia.
      * injection K1 as <- ->. eapply Hn; [reflexivity|exact K2].
  - exists []. split; [reflexivity|]. split; [simpl; lia|]. intros [|q ps1] p' ps2 K1; discriminate.
Qed.
End S.
