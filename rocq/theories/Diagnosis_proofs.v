(** The message of a rejected grammar and the warnings of an accepted one. *)
From Coq Require Import String List NArith ZArith Bool Lia.
From Verif Require Import Base_model Class_model Float_model Uni_model Rule_model Search_model Grammar_model Sample_model
  Search_spec Grammar_spec Search_proofs SearchTop_proofs GrammarLine_proofs GrammarLoad_proofs GrammarLink_proofs GrammarTop_proofs
  GrammarMore_proofs Loaded_proofs Diagnosis_spec.
Import ListNotations.
Local Open Scope N_scope.

(** Appending a line. *)
Lemma doc_snoc_comment : forall u ls o bs l, doc u ls o bs -> comment_line u l -> doc u (ls ++ [l]) o bs.
Proof.
  intros u ls o bs l H. induction H; intros C; simpl.
  - apply doc_comment; auto. constructor.
  - apply doc_comment; auto.
  - apply doc_header; auto.
  - apply doc_data; auto.
Qed.
Lemma doc_snoc_header : forall u ls o bs l n, doc u ls o bs -> ~ comment_line u l -> header_line u l n -> doc u (ls ++ [l]) o (bs ++ [(n, [])]).
Proof.
  intros u ls o bs l n H. induction H; intros C Hh; simpl.
  - apply doc_header; auto. constructor.
  - apply doc_comment; auto.
  - apply doc_header; auto.
  - apply doc_data; auto.
Qed.
Definition add_data (l : text) (o : list text) (bs : list (text * list text)) : list text * list (text * list text) :=
  match rev bs with
  | [] => (o ++ [l], [])
  | (n, d) :: r => (o, rev r ++ [(n, d ++ [l])])
  end.
Lemma add_data_nil : forall l o, add_data l o [] = (o ++ [l], []).
Proof. reflexivity. Qed.
Lemma add_data_snoc : forall l o bs n d, add_data l o (bs ++ [(n, d)]) = (o, bs ++ [(n, d ++ [l])]).
Proof. intros. unfold add_data. rewrite rev_app_distr. simpl. rewrite rev_involutive. reflexivity. Qed.
Lemma snoc_cases : forall {A} (l : list A), l = [] \/ exists l' x, l = l' ++ [x].
Proof. intros. destruct (rev l) as [|x r] eqn:E; [left|right].
  - apply (f_equal (@rev A)) in E. rewrite rev_involutive in E. exact E.
  - exists (rev r), x. apply (f_equal (@rev A)) in E. rewrite rev_involutive in E. exact E.
Qed.
Lemma doc_snoc_data : forall u ls o bs l, doc u ls o bs -> data_line u l -> doc u (ls ++ [l]) (fst (add_data l o bs)) (snd (add_data l o bs)).
Proof.
  intros u ls o bs l H. induction H; intros D; simpl.
  - apply doc_data; auto. constructor.
  - apply doc_comment; auto.
  - specialize (IHdoc D). destruct (snoc_cases bs) as [->|(bs' & (n' & d) & ->)].
    + rewrite add_data_nil in IHdoc. cbn [fst snd] in IHdoc. change [(n, o)] with (([] : list (text * list text)) ++ [(n, o)]). rewrite add_data_snoc. cbn [fst snd app].
      apply doc_header; auto.
    + rewrite add_data_snoc in IHdoc. change ((n, o) :: bs' ++ [(n', d)]) with (((n, o) :: bs') ++ [(n', d)]). rewrite add_data_snoc. cbn [fst snd] in *. simpl. apply doc_header; auto.
  - specialize (IHdoc D). destruct (snoc_cases bs) as [->|(bs' & (n' & d) & ->)].
    + rewrite add_data_nil in *. cbn [fst snd] in *. simpl. apply doc_data; auto.
    + rewrite add_data_snoc in *. cbn [fst snd] in *. apply doc_data; auto.
Qed.

Lemma fresh_snoc : forall bs seen n, fresh seen bs -> ~ In n seen -> (forall ls, In (n, ls) bs -> ls = []) -> fresh seen (bs ++ [(n, [])]).
Proof.
  induction bs as [|(a, ls) bs IH]; intros seen n F Hs Hb; simpl.
  - constructor; auto; constructor.
  - apply fresh_inv in F. destruct F as (F1 & F2). constructor; auto. apply IH; auto.
    + destruct ls; auto. intros [K|K]; [|auto]. subst. assert (t :: ls = []) by (apply Hb; left; reflexivity). discriminate.
    + intros l K. apply Hb. right. exact K.
Qed.
Lemma fresh_last : forall bs seen n d d', fresh seen (bs ++ [(n, d)]) -> fresh seen (bs ++ [(n, d')]).
Proof.
  induction bs as [|(a, ls) bs IH]; intros seen n d d' F; simpl in *; apply fresh_inv in F; destruct F as (F1 & F2); constructor; auto.
  - constructor.
  - eapply IH; eauto.
Qed.
Lemma fresh_last_inv : forall bs seen n d, fresh seen (bs ++ [(n, d)]) -> ~ In n seen /\ forall ls, In (n, ls) bs -> ls = [].
Proof.
  induction bs as [|(a, ls) bs IH]; intros seen n d F; simpl in *; apply fresh_inv in F; destruct F as (F1 & F2).
  - split; [exact F1|]. intros ls [].
  - destruct (IH _ _ _ F2) as (I1 & I2). split.
    + intros K. apply I1. destruct ls; auto. right. exact K.
    + intros l [K|K]; [|auto]. injection K; intros; subst. destruct l as [|x l]; auto. exfalso. apply I1. left. reflexivity.
Qed.

Lemma defines_app : forall u atof a m r, defines u atof a m r -> forall b m' r', defines u atof b m' r' -> defines u atof (a ++ b) (m ++ m') (r ++ r').
Proof. intros u atof a m r H. induction H; intros; simpl; auto; constructor; auto. Qed.
Lemma defines_app_inv : forall u atof a b m r, defines u atof (a ++ b) m r -> exists m1 r1 m2 r2, defines u atof a m1 r1 /\ defines u atof b m2 r2 /\
  m = m1 ++ m2 /\ r = r1 ++ r2.
Proof.
  induction a as [|x a IH]; intros b m r H; simpl in *.
  - exists [], [], m, r. repeat split; auto. constructor.
  - apply defines_cons in H. destruct H as (m1 & r1 & m2 & r2 & H1 & H2 & -> & ->). destruct (IH _ _ _ H2) as (m3 & r3 & m4 & r4 & I1 & I2 & -> & ->).
    exists (m1 ++ m3), (r1 ++ r3), m4, r4. rewrite !app_assoc. repeat split; auto. apply defines_cons. exists m1, r1, m3, r3. auto.
Qed.

(** The state of the reading loop after lines that could be read. *)
Definition after (u : uni) (atof : text -> flt) (s : loadst) (ls : list text) (bs : list (text * list text)) : Prop :=
  readable u atof ls bs /\
  ((bs = [] /\ l_sec s = [] /\ l_type s = UNKNWN /\ l_mrules s = [] /\ l_rules s = [] /\ l_index s = []) \/
   exists bs' d, bs = bs' ++ [(l_sec s, d)] /\ l_sec s <> [] /\ cur u atof s d /\
     forall n, In n (keys s) <-> exists ls', In (n, ls') bs' /\ ls' <> []).

Lemma after0 : forall u atof, after u atof load0 [] [].
Proof. intros. split. { split; [constructor|]. split; [constructor|]. exists [], []. constructor. } left. repeat split; reflexivity. Qed.

Lemma header_comment : forall u l n, uni_ok u -> header_line u l n -> ~ comment_line u l.
Proof.
  intros u l n Hu (a & b & -> & Ha & Hb & Hn) C. apply is_comment_spec in C; auto. unfold is_comment in C.
  rewrite drop_while_app in C by exact Ha. cbn [drop_while] in C. rewrite (uo_lbrack u Hu) in C. discriminate.
Qed.

Lemma cur_defines : forall u atof s d, cur u atof s d -> exists ms rs, defines u atof [(l_sec s, d)] ms rs.
Proof. intros u atof s d H. destruct (flush_defines u atof s d H) as (ms & rs & K & _). eauto. Qed.

Lemma step_line : forall u atof, uni_ok u -> forall s ls bs l, after u atof s ls bs ->
  match load_line u atof s l with
  | Ok s' => exists bs', after u atof s' (ls ++ [l]) bs'
  | Throw m => fault u atof bs l m
  | UB => False
  end.
Proof.
  intros u atof Hu s ls bs l ((Hd & Hf & Hdef) & Hst). unfold load_line.
  destruct (is_comment u l) eqn:Ec.
  { apply is_comment_spec in Ec; auto. exists bs. split; [|exact Hst]. split; [apply doc_snoc_comment; auto|]. auto. }
  assert (Hnc : ~ comment_line u l) by (intro K; apply is_comment_spec in K; auto; congruence).
  destruct (section_header u l) as [n|] eqn:Eh.
  { apply section_header_spec in Eh; auto.
    assert (Hgo : forall X : outcome loadst, match l_type s, l_sec s with
               | ISMETA, [] | ISRULE, [] => Throw (s2t "Grammar-Empty-Section-Defined")
               | _, _ => X end = X).
    { intros X. destruct Hst as [(_ & -> & -> & _)|(bs' & d & _ & Hs & _)]; [reflexivity|]. destruct (l_sec s); [congruence|]. destruct (l_type s); reflexivity. }
    rewrite Hgo. clear Hgo. cbv zeta.
    assert (HK : forall m, In m (keys (flush s)) <-> exists ls', In (m, ls') bs /\ ls' <> []).
    { intros m. destruct Hst as [(-> & Hs & Ht & _ & _ & Hi)|(bs' & d & -> & Hs & Hc & Hk)].
      - unfold flush. rewrite Ht. unfold keys. rewrite Hi. simpl. split; [intros []|]. intros (ls' & [] & _).
      - destruct (flush_defines u atof s d Hc) as (_ & _ & _ & _ & _ & F4 & _). rewrite F4. split.
        + intros K. assert (K' : In m (keys s) \/ (d <> [] /\ m = l_sec s)).
          { destruct d; [auto|]. destruct K as [K|K]; [right; split; [discriminate|auto]|auto]. }
          destruct K' as [K'|(K1 & ->)].
          * apply Hk in K'. destruct K' as (ls' & K1 & K2). exists ls'. split; auto. apply in_or_app. auto.
          * exists d. split; auto. apply in_or_app. right. left. reflexivity.
        + intros (ls' & K1 & K2). apply in_app_or in K1. destruct K1 as [K1|[K1|[]]].
          * assert (In m (keys s)) by (apply Hk; eauto). destruct d; auto. right. auto.
          * injection K1; intros; subst. destruct ls'; [congruence|]. left. reflexivity. }
    assert (HF : l_type (flush s) = UNKNWN /\ l_mrules (flush s) = [] /\ l_rules (flush s) = []).
    { destruct Hst as [(-> & Hs & Ht & Hm & Hr & Hi)|(bs' & d & -> & Hs & Hc & Hk)].
      - unfold flush. rewrite Ht. auto.
      - destruct (flush_defines u atof s d Hc) as (_ & _ & _ & _ & _ & _ & F). exact F. }
    destruct HF as (F1 & F2 & F3).
    destruct (index_find (l_index (flush s)) n) as [i|] eqn:Ei.
    - apply index_find_In in Ei. assert (K : In n (keys (flush s))) by (apply in_map_iff; exists (n, i); auto).
      apply HK in K. destruct K as (ls' & K1 & K2). eapply ft_repeat; eauto.
    - apply index_find_None in Ei. assert (K : ~ In n (keys (flush s))) by exact Ei.
      exists (bs ++ [(n, [])]). split.
      + split; [apply doc_snoc_header; auto|]. split.
        * apply fresh_snoc; auto. intros ls' J. destruct ls'; auto. exfalso. apply K. apply HK. exists (t :: ls'). split; auto. discriminate.
        * destruct Hdef as (ms & rs & Hdef). exists (ms ++ []), (rs ++ []). eapply defines_app; eauto. apply df_empty. constructor.
      + right. exists bs, []. simpl. split; auto. split. { destruct Eh as (? & ? & _ & _ & _ & E). exact E. }
        split. { unfold cur. simpl. rewrite F1. auto. }
        intros m. apply HK. }
  assert (Hdl : data_line u l). { split; auto. apply header_None; auto. }
  destruct Hst as [(-> & Hs & Ht & _)|(bs' & d & -> & Hs & Hc & Hk)].
  { rewrite Hs. apply ft_outside; auto. }
  destruct (l_sec s) as [|c0 s0] eqn:Es; [congruence|]. rewrite <- Es in *. clear Es.
  assert (Hdoc : doc u (ls ++ [l]) [] (bs' ++ [(l_sec s, d ++ [l])])).
  { assert (K := doc_snoc_data u ls [] _ l Hd Hdl). rewrite add_data_snoc in K. exact K. }
  assert (Hfr : fresh [] (bs' ++ [(l_sec s, d ++ [l])])) by (eapply fresh_last; eauto).
  assert (Hok : forall s2, l_sec s2 = l_sec s -> l_index s2 = l_index s -> cur u atof s2 (d ++ [l]) -> exists bs'', after u atof s2 (ls ++ [l]) bs'').
  { intros s2 E1 E2 C2. exists (bs' ++ [(l_sec s, d ++ [l])]). split.
    - split; auto. split; auto. destruct Hdef as (ms & rs & Hdef). apply defines_app_inv in Hdef. destruct Hdef as (m1 & r1 & _ & _ & D1 & _).
      destruct (cur_defines u atof s2 _ C2) as (m2 & r2 & D2). rewrite E1 in D2. exists (m1 ++ m2), (r1 ++ r2). apply defines_app; auto.
    - right. exists bs', (d ++ [l]). rewrite E1. repeat split; auto; unfold keys in *; rewrite ?E2; apply Hk. }
  destruct (has_char AT l) eqn:Ea.
  - apply has_at_spec in Ea.
    assert (Hstep : l_type s <> ISRULE -> exists bs'', after u atof (mkLoad (l_sec s) ISMETA
                              (if is_meta u l then l_mrules s ++ [meta_rule_of u l] else l_mrules s)
                              (l_rules s) (l_metas s) (l_rsecs s) (l_index s)) (ls ++ [l]) bs'').
    { intros Ht. apply Hok; auto. unfold cur in *. simpl. split. { destruct d; discriminate. }
      assert (Hd2 : Forall at_line d /\ kept u d (l_mrules s) /\ l_rules s = []).
      { destruct (l_type s); [tauto|congruence|]. destruct Hc as (-> & -> & ->). repeat split; auto. constructor. }
      destruct Hd2 as (D1 & D2 & D3). split. { apply Forall_app. auto. }
      split; auto. destruct (is_meta u l) eqn:Em.
      - apply is_meta_spec in Em; auto. destruct Em as (ns & Em). rewrite (meta_rule_of_spec u l ns Hu Em). apply kept_snoc_ref; auto.
      - apply kept_snoc_skip; auto. apply is_meta_false; auto. }
    destruct (l_type s) eqn:Et; try (apply Hstep; discriminate).
    unfold cur in Hc. rewrite Et in Hc. destruct Hc as (C1 & C2 & _). destruct d as [|k d]; [congruence|].
    eapply ft_mixed; eauto. inversion C2; subst. tauto.
  - apply has_at_false in Ea.
    assert (Hstep : l_type s <> ISMETA -> match obind (rule_parse atof l) (fun r =>
                          Ok (mkLoad (l_sec s) ISRULE (l_mrules s) (l_rules s ++ [r]) (l_metas s) (l_rsecs s) (l_index s))) with
             | Ok s' => exists bs'', after u atof s' (ls ++ [l]) bs''
             | Throw m => fault u atof (bs' ++ [(l_sec s, d)]) l m
             | UB => False end).
    { intros Ht. assert (Hd2 : Forall (fun l => ~ at_line l) d /\ Forall2 (rule_line atof) d (l_rules s) /\ l_mrules s = []).
      { unfold cur in Hc. destruct (l_type s); [congruence|tauto|]. destruct Hc as (-> & -> & ->). repeat split; auto. }
      destruct Hd2 as (D1 & D2 & D3).
      destruct (rule_parse atof l) as [r|m|] eqn:Er; cbn [obind].
      - apply Hok; auto. unfold cur. simpl. split. { destruct d; discriminate. }
        split. { apply Forall_app. auto. } split; auto. apply Forall2_app; auto. constructor; auto. apply rule_parse_spec. auto.
      - rewrite (rule_parse_throw _ _ _ Er). eapply ft_rule; eauto. intros r K. apply rule_parse_spec in K. congruence.
      - exact (rule_parse_total _ _ Er). }
    destruct (l_type s) eqn:Et; try (apply Hstep; discriminate).
    unfold cur in Hc. rewrite Et in Hc. destruct Hc as (C1 & C2 & _). destruct d as [|k d]; [congruence|].
    eapply ft_mixed; eauto. inversion C2; subst. tauto.
Qed.

(** A faulty line stops the loop with the message of the fault. *)
Lemma fault_line : forall u atof, uni_ok u -> forall s ls bs l m, after u atof s ls bs -> fault u atof bs l m -> load_line u atof s l = Throw m.
Proof.
  intros u atof Hu s ls bs l m A F. assert (K := step_line u atof Hu s ls bs l A).
  destruct A as (Hrd & Hst). unfold load_line in *.
  assert (Hdata : data_line u l -> is_comment u l = false /\ section_header u l = None).
  { intros (D1 & D2). split; [|apply header_None; auto]. destruct (is_comment u l) eqn:E; auto. apply is_comment_spec in E; auto. contradiction. }
  destruct F as [E D|n d Hh Hi Hne|bs' n k d D E Hk|bs' n d D E Ha Hf Hr].
  - destruct (Hdata D) as (-> & ->). destruct Hst as [(_ & -> & _)|(b & d & E' & _)]; [reflexivity|]. subst. destruct b; discriminate.
  - assert (Ec : is_comment u l = false).
    { destruct (is_comment u l) eqn:E; auto. apply is_comment_spec in E; auto. exfalso. eapply header_comment; eauto. }
    assert (Es := proj2 (section_header_spec u l n Hu) Hh). rewrite Ec, Es in *.
    destruct Hst as [(-> & _)|(b & d' & -> & Hs & Hc & Hk)]; [destruct Hi|].
    destruct (l_sec s) as [|c0 s0] eqn:Esec; [congruence|]. rewrite <- Esec in *.
    assert (Hgo : forall X : outcome loadst, match l_type s with
               | ISMETA | ISRULE | _ => X end = X) by (intros; destruct (l_type s); reflexivity).
    rewrite Hgo in *. cbv zeta in *.
    destruct (index_find (l_index (flush s)) n) as [i|] eqn:Ei; [reflexivity|]. exfalso.
    apply index_find_None in Ei. apply Ei. change (In n (keys (flush s))).
    destruct (flush_defines u atof s d' Hc) as (_ & _ & _ & _ & _ & F4 & _). rewrite F4.
    apply in_app_or in Hi. destruct Hi as [Hi|[Hi|[]]].
    + assert (In n (keys s)) by (apply Hk; eauto). destruct d'; auto. right. auto.
    + injection Hi; intros; subst. destruct d; [congruence|]. left. reflexivity.
  - destruct (Hdata D) as (-> & ->). destruct Hst as [(-> & _)|(b & d' & E' & Hs & Hc & _)]; [destruct bs'; discriminate|].
    rewrite E in E'. apply app_last_inv in E'. destruct E' as (_ & E'). injection E'; intros; subst.
    destruct (l_sec s) as [|c0 s0] eqn:Esec; [congruence|]. rewrite <- Esec in *. unfold cur in Hc.
    destruct (has_char AT l) eqn:Ea.
    + apply has_at_spec in Ea. destruct (l_type s); [|reflexivity|destruct Hc as (Hc & _); discriminate].
      destruct Hc as (_ & Hc & _). inversion Hc; subst. tauto.
    + apply has_at_false in Ea. destruct (l_type s); [reflexivity| |destruct Hc as (Hc & _); discriminate].
      destruct Hc as (_ & Hc & _). inversion Hc; subst. tauto.
  - destruct (Hdata D) as (-> & ->). destruct Hst as [(-> & _)|(b & d' & E' & Hs & Hc & _)]; [destruct bs'; discriminate|].
    rewrite E in E'. apply app_last_inv in E'. destruct E' as (_ & E'). injection E'; intros; subst.
    destruct (l_sec s) as [|c0 s0] eqn:Esec; [congruence|]. rewrite <- Esec in *. unfold cur in Hc.
    rewrite (proj2 (has_at_false l) Ha).
    assert (Et : l_type s <> ISMETA).
    { destruct (l_type s); try discriminate. destruct Hc as (C1 & C2 & _). destruct d'; [congruence|]. inversion C2; subst. inversion Hf; subst. contradiction. }
    destruct (l_type s); [congruence| |];
      (destruct (rule_parse atof l) as [r|m'|] eqn:Er;
        [exfalso; apply (Hr r); apply rule_parse_spec; exact Er
        |rewrite (rule_parse_throw _ _ _ Er); reflexivity
        |exfalso; exact (rule_parse_total _ _ Er)]).
Qed.

Lemma run_after : forall u atof, uni_ok u -> forall ls s pre bs, after u atof s pre bs ->
  match run u atof ls s with
  | Ok s' => exists bs', after u atof s' (pre ++ ls) bs'
  | Throw m => exists p l post bs', ls = p ++ l :: post /\ readable u atof (pre ++ p) bs' /\ fault u atof bs' l m
  | UB => False
  end.
Proof.
  intros u atof Hu ls. induction ls as [|l ls IH]; intros s pre bs A; cbn [run].
  - rewrite app_nil_r. eauto.
  - assert (K := step_line u atof Hu s pre bs l A). destruct (load_line u atof s l) as [s'|m|]; cbn [obind]; auto.
    + destruct K as (bs1 & A1). specialize (IH s' _ _ A1). destruct (run u atof ls s') as [s2|m|]; auto.
      * rewrite <- app_assoc in IH. exact IH.
      * destruct IH as (p & l' & post & bs' & -> & I1 & I2). exists (l :: p), l', post, bs'. rewrite <- app_assoc in I1. auto.
    + exists [], l, ls, bs. rewrite app_nil_r. destruct A as (A & _). auto.
Qed.

Lemma run_throw : forall u atof, uni_ok u -> forall ls m, run u atof ls load0 = Throw m <-> stops u atof ls m.
Proof.
  intros u atof Hu ls m. split.
  - intros E. assert (K := run_after u atof Hu ls load0 [] [] (after0 u atof)). rewrite E in K.
    destruct K as (p & l & post & bs & -> & K1 & K2). exists p, l, post, bs. auto.
  - intros (pre & l & post & bs & -> & (Hd & Hf & Hdef) & F). rewrite run_app.
    assert (K := run_after u atof Hu pre load0 [] [] (after0 u atof)).
    destruct (run u atof pre load0) as [s|m'|] eqn:E; [| |contradiction].
    + destruct K as (bs' & A). simpl in A. assert (bs' = bs) as ->.
      { destruct A as ((D & _) & _). destruct (doc_det u _ _ _ Hu Hd _ _ D) as (_ & E'). exact E'. }
      cbn [obind run]. rewrite (fault_line u atof Hu s pre bs l m A F). reflexivity.
    + exfalso. assert (R := run_spec u atof Hu _ _ _ Hd load0 []).
      assert (Hcur0 : cur u atof load0 []) by (unfold cur; simpl; auto).
      specialize (R Hcur0 inv0 (fun K => K) (fun _ => eq_refl)). rewrite E in R. apply R. split; auto. simpl. split.
      * constructor; auto.
      * destruct Hdef as (ms & rs & Hdef). exists ms, rs. apply df_empty. auto.
Qed.

Lemma load_sections_mark : forall u atof file m, (forall t, ~ effective file t) -> (load_sections u atof file = Throw m <-> bad_mark file m).
Proof.
  intros u atof src m H. destruct src as [|c r].
  { exfalso. apply (H []). constructor. intros (t' & K). discriminate. }
  destruct (N.eq_dec c 0xFEFF) as [->|Hc].
  2: { exfalso. apply (H (c :: r)). constructor. intros (t' & K). injection K; intros; congruence. }
  unfold load_sections, open_stream. replace (List.length (0xFEFF%N :: r) + 3)%nat with (S (List.length r + 3)) by (simpl; lia).
  cbn [load_loop s_fail]. unfold getline. cbn [s_eof s_fail orb s_rest]. change LF with 10.
  cbn [span_to]. replace (0xFEFF =? 10) with false by reflexivity.
  destruct r as [|d t].
  { cbn [span_to strip_bom obind]. replace (0xFEFF =? BOM) with true by reflexivity. cbn [obind]. split.
    - intros K. injection K as <-. constructor. auto.
    - intros K. inversion K; subst. reflexivity. }
  cbn [span_to]. destruct (d =? 10) eqn:E10.
  { apply N.eqb_eq in E10. subst d. cbn [strip_bom obind]. replace (0xFEFF =? BOM) with true by reflexivity. cbn [obind]. split.
    - intros K. injection K as <-. constructor. right. eauto.
    - intros K. inversion K; subst; [reflexivity|lia]. }
  apply N.eqb_neq in E10.
  assert (Hd : 128 <= d). { destruct (N.lt_ge_cases d 128) as [H1|H1]; auto. exfalso. apply (H t). constructor; auto. }
  assert (El : Nat.eqb (utf8_len d) 1 = false).
  { unfold utf8_len. replace (d <? 0x80) with false by (symmetry; apply N.ltb_ge; exact Hd). destruct (d <? 0x800); [reflexivity|]. destruct (d <? 0x10000); reflexivity. }
  destruct (span_to 10 t) as [a [q|]]; cbn [strip_bom]; replace (0xFEFF =? BOM) with true by reflexivity; rewrite El; cbn [obind];
    (split; [intros K; injection K as <-; constructor; exact Hd|intros K; inversion K as [t0 K1|]; subst; [|reflexivity];
       destruct K1 as [K1|(t' & K1)]; [discriminate|injection K1; intros; congruence]]).
Qed.

(** The report. *)
Lemma known_In : forall n l, known n l = true <-> In n l.
Proof. intros. unfold known. destruct (in_dec _ _ _); split; intros; auto; try discriminate; contradiction. Qed.
Lemma known_false : forall n l, known n l = false <-> ~ In n l.
Proof. intros. rewrite <- known_In. destruct (known n l); split; intros; congruence. Qed.

Lemma link_ref_text : forall g self m n, prelinked g -> nth_error (g_metas g) self = Some m ->
  exists y, link_ref (g_metas g) (g_rules g) (g_index g) self (ms_name m) (new_ref n) =
    Ok (y, if known n (section_names g) then [] else s2t "Missing rule: " ++ n ++ s2t " : referenced at [" ++ ms_name m ++ s2t "]" ++ [10]).
Proof.
  intros g self m n Hg Hm. destruct (link_ref_spec g self m n Hg Hm) as (y & t & E & _ & Ht). exists y. rewrite E. f_equal. f_equal.
  unfold ref_def in Ht. cbn [f_name new_ref] in Ht.
  destruct (known n (section_names g)) eqn:K.
  - apply Ht. apply known_In. exact K.
  - apply known_false in K. unfold link_ref in E. cbn [f_name new_ref f_meta f_rule] in E. cbv zeta in E.
    destruct (teqb n (ms_name m)) eqn:En.
    { injection E; intros; subst. exfalso. apply K. apply Ht. reflexivity. }
    destruct (index_find (g_index g) n) as [i|].
    + destruct (match nth_error (g_metas g) i with Some ms => teqb (ms_name ms) n | None => false end).
      { injection E; intros; subst. exfalso. apply K. apply Ht. reflexivity. }
      destruct (match nth_error (g_rules g) i with Some rs => teqb (rs_name rs) n | None => false end); [|discriminate].
      injection E; intros; subst. exfalso. apply K. apply Ht. reflexivity.
    + injection E; intros E1 E2. rewrite <- E1. reflexivity.
Qed.
Lemma link_all_text : forall {A} (f : A -> outcome (A * text)) (g : A -> text) l,
  (forall x, In x l -> exists y, f x = Ok (y, g x)) -> exists ys, link_all f l = Ok (ys, flat_map g l).
Proof.
  intros A f g l. induction l as [|x l IH]; intros H; simpl.
  - eauto.
  - destruct (H x (or_introl eq_refl)) as (y & E). destruct IH as (ys & E'). { intros; apply H; right; auto. }
    rewrite E. simpl. rewrite E'. simpl. eauto.
Qed.
Lemma flat_map_flat_map : forall {A B C} (f : A -> list B) (g : B -> list C) l, flat_map g (flat_map f l) = flat_map (fun x => flat_map g (f x)) l.
Proof. induction l as [|x l IH]; simpl; auto. rewrite flat_map_app, IH. reflexivity. Qed.
Lemma flat_map_map : forall {A B C} (f : A -> B) (g : B -> list C) l, flat_map g (map f l) = flat_map (fun x => g (f x)) l.
Proof. induction l as [|x l IH]; simpl; auto. rewrite IH. reflexivity. Qed.
Lemma link_section_text : forall g self m, prelinked g -> nth_error (g_metas g) self = Some m ->
  exists y, link_section (g_metas g) (g_rules g) (g_index g) self m = Ok (y, flat_map (fun n =>
    if known n (section_names g) then [] else s2t "Missing rule: " ++ n ++ s2t " : referenced at [" ++ ms_name m ++ s2t "]" ++ [10]) (ref_names m)).
Proof.
  intros g self m Hg Hm. unfold link_section, ref_names. rewrite flat_map_flat_map.
  destruct (link_all_text (link_rule (g_metas g) (g_rules g) (g_index g) self (ms_name m))
    (fun x => flat_map (fun n => if known n (section_names g) then [] else s2t "Missing rule: " ++ n ++ s2t " : referenced at [" ++ ms_name m ++ s2t "]" ++ [10]) (map f_name x))
    (ms_rules m)) as (ys & E).
  - intros r Hr. unfold link_rule. rewrite flat_map_map. apply link_all_text. intros x Hx.
    assert (Hin : In m (g_metas g)) by (eapply nth_error_In; eauto).
    destruct (pl_unlinked g Hg m r Hin Hr) as (_ & ns & ->). apply in_map_iff in Hx. destruct Hx as (n & <- & _). apply link_ref_text; auto.
  - rewrite E. cbn [obind]. eauto.
Qed.
Lemma link_metas_text : forall g, prelinked g -> forall l self,
  (forall i m, nth_error l i = Some m -> nth_error (g_metas g) (self + i) = Some m) ->
  exists ys, link_metas (g_metas g) (g_rules g) (g_index g) self l = Ok (ys, flat_map (fun m => flat_map (fun n =>
    if known n (section_names g) then [] else s2t "Missing rule: " ++ n ++ s2t " : referenced at [" ++ ms_name m ++ s2t "]" ++ [10]) (ref_names m)) l).
Proof.
  intros g Hg. induction l as [|m l IH]; intros self H; simpl.
  - eauto.
  - destruct (link_section_text g self m Hg) as (y & E). { rewrite <- (Nat.add_0_r self). apply H. reflexivity. }
    destruct (IH (S self)) as (ys & E'). { intros i m' K. replace (S self + i)%nat with (self + S i)%nat by lia. apply H. exact K. }
    rewrite E. cbn [obind]. rewrite E'. cbn [obind]. eauto.
Qed.

Lemma all_refs_flat : forall ms, all_refs ms = flat_map ref_names ms.
Proof.
  intros. unfold all_refs. rewrite flat_map_concat_map. f_equal. apply map_ext. intros m. unfold ref_names. rewrite flat_map_concat_map. reflexivity.
Qed.
Lemma unref_text : forall ms n, unref_issue (all_refs ms) n =
  if known n (ADDRESS :: flat_map ref_names ms) then [] else s2t "Rule '" ++ n ++ s2t "' defined by not referenced!" ++ [10].
Proof.
  intros. rewrite <- all_refs_flat. destruct (known n (ADDRESS :: all_refs ms)) eqn:K.
  - apply known_In in K. apply unref_issue_nil. destruct K as [K|K]; auto.
  - apply known_false in K. unfold unref_issue. destruct (text_mem n (all_refs ms)) eqn:E.
    { apply text_mem_In in E. exfalso. apply K. right. exact E. }
    destruct (teqb n ADDRESS) eqn:E2.
    { apply teqb_eq in E2. exfalso. apply K. left. auto. }
    reflexivity.
Qed.

Lemma update_pointers_text : forall g, prelinked g ->
  Forall (fun sec => Forall (fun r => rule_valid r = true) (rs_rules sec)) (g_rules g) ->
  exists g' st, update_pointers g = Ok (g', st, report (g_metas g) (g_rules g)).
Proof.
  intros g Hg Hv. unfold update_pointers.
  destruct (link_metas_text g Hg (g_metas g) 0%nat) as (ys & E). { auto. }
  destruct (link_metas_spec g Hg (g_metas g) 0%nat) as (ys' & ts & H1 & H2 & _). { auto. }
  rewrite H1 in E. injection E; intros E1 E2. subst ys' ts. rewrite H1. cbn [obind]. rewrite rule_issues_valid by exact Hv.
  eexists _, _. f_equal. f_equal. unfold report.
  assert (Hys : map ms_name ys = map ms_name (g_metas g)).
  { clear - H2. induction H2; simpl; auto. destruct H as (-> & _). congruence. }
  f_equal. f_equal.
  - unfold address_line. change (names_of (g_metas g) (g_rules g)) with (section_names g).
    destruct (index_find (g_index g) ADDRESS) as [i|] eqn:Ei.
    + apply index_find_In in Ei. assert (K : In ADDRESS (section_names g)). { apply pl_names_index; auto. apply in_map_iff. exists (ADDRESS, i). auto. }
      apply known_In in K. rewrite K. reflexivity.
    + apply index_find_None in Ei. rewrite pl_names_index in Ei by exact Hg. apply known_false in Ei. rewrite Ei. reflexivity.
  - unfold unused_lines, names_of. rewrite flat_map_app. f_equal.
    + rewrite <- Hys. rewrite flat_map_map, flat_map_concat_map. f_equal. apply map_ext. intros m. apply unref_text.
    + rewrite flat_map_map, flat_map_concat_map. f_equal. apply map_ext. intros m. apply unref_text.
Qed.

Lemma effective_dec : forall file, (exists src, effective file src) \/ (forall t, ~ effective file t).
Proof.
  intros file. destruct file as [|c r]. { left. exists []. constructor. intros (t & K). discriminate. }
  destruct (N.eq_dec c 0xFEFF) as [->|Hc].
  2: { left. exists (c :: r). constructor. intros (t & K). injection K; intros; congruence. }
  destruct r as [|d t].
  - right. intros t K. inversion K; subst. apply H. exists []. reflexivity.
  - destruct (N.lt_ge_cases d 128) as [H1|H1]; [destruct (N.eq_dec d 10) as [->|H2]|].
    + right. intros t' K. inversion K; subst; [|congruence]. apply H. exists (10 :: t). reflexivity.
    + left. exists t. constructor; auto.
    + right. intros t' K. inversion K; subst; [|lia]. apply H. exists (d :: t). reflexivity.
Qed.
Lemma bad_mark_ineffective : forall file m, bad_mark file m -> forall t, ~ effective file t.
Proof.
  intros file m H t K. destruct H as [t0 [->|(t' & ->)]|d t0 Hd]; inversion K; subst; try congruence; try lia;
    match goal with H : ~ has_bom _ |- _ => apply H; eexists; reflexivity end.
Qed.

Lemma load_report : forall u atof file src ms rs, uni_ok u -> effective file src -> means u atof src ms rs ->
  (exists L, load_grammar u atof file = Ok L /\ gl_issues L = report ms rs /\ closed ms rs /\ In ADDRESS (names_of ms rs)) \/
  (load_grammar u atof file = Throw (report ms rs) /\ ~ (closed ms rs /\ In ADDRESS (names_of ms rs))).
Proof.
  intros u atof file src ms rs Hu Hb M. unfold load_grammar.
  assert (S := load_sections_spec u atof file src Hu Hb).
  destruct (load_sections u atof file) as [s|m|]; cbn [obind]; [|exfalso; exact (S ms rs M)|contradiction].
  destruct S as (M' & I). destruct (means_det u atof src _ _ _ _ Hu M' M) as (-> & ->).
  assert (P := inv_prelinked u atof src s I M'). assert (M2 := M'). destruct M2 as (bs & D1 & D2 & D3).
  destruct (defines_facts _ _ _ _ _ D3) as (F1 & F2).
  destruct (update_pointers_spec (base s) P F2) as (g' & st & issues & E & R1 & R2 & R3 & R4 & R5 & R6).
  destruct (update_pointers_text (base s) P F2) as (g2 & st2 & E2). rewrite E in E2. injection E2; intros; subst g2 st2 issues.
  unfold base in E. rewrite E. cbn [obind].
  assert (Hc : st <> CHECK_FATAL <-> closed (l_metas s) (l_rsecs s) /\ In ADDRESS (names_of (l_metas s) (l_rsecs s))).
  { rewrite R4. rewrite closed_def. reflexivity. }
  destruct st.
  - right. split; [reflexivity|]. intros K. apply Hc in K. congruence.
  - left. eexists. split; [reflexivity|]. split; [reflexivity|]. apply Hc. discriminate.
  - left. eexists. split; [reflexivity|]. split; [reflexivity|]. apply Hc. discriminate.
Qed.

Theorem rejected : forall u atof file m, uni_ok u -> (load_grammar u atof file = Throw m <->
  bad_mark file m \/ exists src, effective file src /\
    (stops u atof (seen_lines src) m \/
     exists ms rs, means u atof src ms rs /\ ~ (closed ms rs /\ In ADDRESS (names_of ms rs)) /\ m = report ms rs)).
Proof.
  intros u atof file m Hu. destruct (effective_dec file) as [(src & He)|Hn].
  - assert (Hs : (exists m', load_sections u atof file = Throw m' /\ stops u atof (seen_lines src) m') \/ exists ms rs, means u atof src ms rs).
    { assert (S := load_sections_spec u atof file src Hu He). rewrite (load_sections_effective u atof file src He) in *.
      destruct (run u atof (seen_lines src) load0) as [s|m'|] eqn:E; cbn [obind] in *.
      - right. destruct S as (S & _). eauto.
      - left. exists m'. split; auto. apply run_throw; auto.
      - contradiction. }
    split.
    + intros E. right. exists src. split; auto. destruct Hs as [(m' & E1 & E2)|(ms & rs & M)].
      * left. unfold load_grammar in E. rewrite E1 in E. cbn [obind] in E. injection E as <-. exact E2.
      * right. exists ms, rs. destruct (load_report u atof file src ms rs Hu He M) as [(L & E' & _)|(E' & K)]; rewrite E in E'; [discriminate|].
        injection E' as ->. auto.
    + intros [K|(src' & He' & K)]. { exfalso. eapply bad_mark_ineffective; eauto. }
      rewrite (effective_det _ _ _ He' He) in *. destruct K as [K|(ms & rs & M & K & ->)].
      * unfold load_grammar. rewrite (load_sections_effective u atof file src He). apply run_throw in K; auto. rewrite K. reflexivity.
      * destruct (load_report u atof file src ms rs Hu He M) as [(L & E' & _ & K2)|(E' & _)]; [contradiction|exact E'].
  - split.
    + intros E. left. apply (load_sections_mark u atof file m Hn). unfold load_grammar in E.
      destruct (load_sections_ineffective u atof file Hn) as (m' & E'). rewrite E' in *. cbn [obind] in E. injection E as ->. reflexivity.
    + intros [K|(src & He & _)]; [|exfalso; exact (Hn _ He)]. apply (load_sections_mark u atof file m Hn) in K. unfold load_grammar. rewrite K. reflexivity.
Qed.

Theorem accepted : forall u atof file L, uni_ok u -> load_grammar u atof file = Ok L ->
  exists src ms rs, effective file src /\ means u atof src ms rs /\ closed ms rs /\ In ADDRESS (names_of ms rs) /\
    plain (g_metas (gl_grammar L)) = plain ms /\ g_rules (gl_grammar L) = rs /\ gl_issues L = unused_lines ms rs.
Proof.
  intros u atof file L Hu E. destruct (load_grammar_effective _ _ _ _ E) as (src & He).
  assert (S := load_grammar_spec u atof file src Hu He). rewrite E in S. cbv zeta in S.
  destruct S as (ms & rs & M & C & A & P & R & _). exists src, ms, rs. do 6 (split; [assumption|]).
  destruct (load_report u atof file src ms rs Hu He M) as [(L' & E' & K & _)|(E' & _)]; rewrite E in E'; [|discriminate].
  injection E' as <-. rewrite K. unfold report, address_line. assert (A' := proj2 (known_In _ _) A). rewrite A'.
  assert (Hm : missing_lines ms rs = []).
  { unfold missing_lines. assert (H : forall ms', incl ms' ms -> flat_map (fun m => flat_map (fun n =>
       if known n (names_of ms rs) then [] else s2t "Missing rule: " ++ n ++ s2t " : referenced at [" ++ ms_name m ++ s2t "]" ++ [10]) (ref_names m)) ms' = []).
    { induction ms' as [|m ms' IH]; intros I; cbn [flat_map]; auto. rewrite IH by (intros x Hx; apply I; right; exact Hx). rewrite app_nil_r.
      assert (H : forall ns, incl ns (ref_names m) -> flat_map (fun n =>
         if known n (names_of ms rs) then [] else s2t "Missing rule: " ++ n ++ s2t " : referenced at [" ++ ms_name m ++ s2t "]" ++ [10]) ns = []).
      { induction ns as [|n ns IHn]; intros In'; cbn [flat_map]; auto. rewrite IHn by (intros x Hx; apply In'; right; exact Hx). rewrite app_nil_r.
        assert (K2 : known n (names_of ms rs) = true); [|rewrite K2; reflexivity].
        apply known_In. apply C. assert (Hn := In' n (or_introl eq_refl)). unfold ref_names in Hn. apply in_flat_map in Hn.
        destruct Hn as (refs & H1 & H2). apply in_map_iff in H2. destruct H2 as (r & <- & H2). exists m, refs, r. repeat split; auto. apply I. left. reflexivity. }
      apply H. intros x Hx. exact Hx. }
    apply H. intros x Hx. exact Hx. }
  rewrite Hm. reflexivity.
Qed.

(** The message for invalid rules found afterwards, and the one for a section without a name, are never given. *)
Lemma begins : forall (a b : text) c d, c <> d -> ~ (exists t, c :: a = (d :: b) ++ t).
Proof. intros a b c d H (t & K). simpl in K. injection K; intros; congruence. Qed.
Lemma report_head : forall ms rs, report ms rs = [] \/ exists t, report ms rs = s2t "Missing rule: " ++ t \/ report ms rs = s2t "Rule '" ++ t.
Proof.
  intros ms rs. unfold report.
  assert (Hm : missing_lines ms rs = [] \/ exists t, missing_lines ms rs = s2t "Missing rule: " ++ t).
  { unfold missing_lines. generalize (names_of ms rs). intros names. induction ms as [|m ms' IH]; cbn [flat_map]; auto.
    assert (H : forall ns, let w := flat_map (fun n => if known n names then [] else s2t "Missing rule: " ++ n ++ s2t " : referenced at [" ++ ms_name m ++ s2t "]" ++ [10]) ns in
       w = [] \/ exists t, w = s2t "Missing rule: " ++ t).
    { induction ns as [|n ns IHn]; cbv zeta; cbn [flat_map]; auto. destruct (known n names); [exact IHn|]. right. eexists. rewrite <- app_assoc. reflexivity. }
    specialize (H (ref_names m)). cbv zeta in H. destruct H as [-> |(t & ->)]; [exact IH|]. right. eexists. rewrite <- app_assoc. reflexivity. }
  destruct Hm as [-> |(t & ->)]; [|right; eexists; left; rewrite <- app_assoc; reflexivity].
  unfold address_line. destruct (known ADDRESS (names_of ms rs)); [|right; eexists; right; reflexivity]. simpl app.
  unfold unused_lines. generalize (ADDRESS :: flat_map ref_names ms). intros used.
  induction (names_of ms rs) as [|n ns IHn]; cbn [flat_map]; auto. destruct (known n used); [exact IHn|]. right. eexists. right. rewrite <- app_assoc. reflexivity.
Qed.
Theorem never_reported : forall u atof file m, uni_ok u -> load_grammar u atof file = Throw m ->
  m <> s2t "Grammar-Empty-Section-Defined" /\ m <> s2t "Grammar-updatePointers-consistency-check-failed" /\ ~ exists t, m = s2t "Invalid rule at [" ++ t.
Proof.
  intros u atof file m Hu E. apply rejected in E; auto.
  assert (K : m = s2t "basic_string::substr" \/ m = s2t "Invalid UTF-8 sequence" \/ m = s2t "Grammar-Syntax-Error" \/ m = s2t "Grammar-Duplicate-Section_Name" \/
     m = s2t "Grammar-Mixing-Rules-and-Metas" \/ (exists t, m = s2t "Rule-Not-Valid(" ++ t) \/ m = [] \/ exists t, m = s2t "Missing rule: " ++ t \/ m = s2t "Rule '" ++ t).
  { destruct E as [E|(src & _ & [(pre & l & post & bs & _ & _ & F)|(ms & rs & _ & _ & ->)])].
    - destruct E; auto.
    - destruct F; eauto 10.
    - destruct (report_head ms rs) as [-> |(t & [-> | ->])]; eauto 12. }
  clear E. repeat destruct K as [K|K]; subst;
    try (repeat split; [discriminate|discriminate|intros (t & K'); vm_compute in K'; discriminate]).
  - destruct K as (t & ->). repeat split; try discriminate; intros (t' & K'); vm_compute in K'; discriminate.
  - destruct K as (t & [-> | ->]); (repeat split; try discriminate; intros (t' & K'); vm_compute in K'; discriminate).
Qed.

Lemma mixed_example : readable ascii_uni sample_atof [s2t "[ADDRESS]"; s2t "@a"] [(s2t "ADDRESS", [s2t "@a"])] /\
  fault ascii_uni sample_atof [(s2t "ADDRESS", [s2t "@a"])] (s2t "WORD -> STREET -> 0.5") (s2t "Grammar-Mixing-Rules-and-Metas").
Proof.
  assert (Hu := ascii_uni_ok).
  assert (D : forall l, is_comment ascii_uni l = false -> section_header ascii_uni l = None -> data_line ascii_uni l).
  { intros l A B. split; [|apply header_None; auto]. intro K. apply is_comment_spec in K; auto. congruence. }
  split.
  - split; [|split].
    + apply doc_header with (n := s2t "ADDRESS").
      * intro K. apply is_comment_spec in K; auto. discriminate.
      * apply section_header_spec; auto.
      * apply doc_data; [apply D; reflexivity|constructor].
    + repeat constructor. intros [].
    + destruct (proj1 (is_meta_spec ascii_uni (s2t "@a") Hu) eq_refl) as (ns & K).
      eexists _, _. apply df_meta; [discriminate| |apply (k_ref _ _ _ _ _ K (k_nil _))|constructor].
      constructor; [|constructor]. apply has_at_spec. reflexivity.
  - eapply ft_mixed with (bs' := []); [apply D; reflexivity|reflexivity|].
    rewrite <- !has_at_spec. split; intros K; [discriminate|exfalso; apply K; reflexivity].
Qed.
