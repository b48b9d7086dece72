(** Nodes of tries in memory. *)
From Coq Require Import String List NArith Bool Lia Arith Permutation Sorting.Sorted.
From Verif Require Import Base_model Trie_model Trie_spec Trie_proofs TrieHeap_model TrieHeap_spec.
Import ListNotations.
Local Open Scope N_scope.

Lemma nodup_l : forall {A} (l m : list A), NoDup (l ++ m) -> NoDup l.
Proof.
  intros A l m. induction l as [|a l IH]; intros H; [constructor|]. inversion H as [|? ? X Y]; subst. constructor; [|apply IH; exact Y].
  intros K. apply X. apply in_or_app. left. exact K.
Qed.
Lemma nodup_r : forall {A} (l m : list A), NoDup (l ++ m) -> NoDup m.
Proof. intros A l m. induction l as [|a l IH]; intros H; [exact H|]. inversion H; subst. apply IH. assumption. Qed.
Lemma nodup_apart : forall {A} (l m : list A) a, NoDup (l ++ m) -> In a l -> ~ In a m.
Proof.
  intros A l m a. induction l as [|b l IH]; intros H; [intros []|]. inversion H as [|? ? X Y]; subst. intros [<-|Ha]; [|apply IH; assumption].
  intros K. apply X. apply in_or_app. right. exact K.
Qed.

(** ** Memory *)
Lemma hget_del : forall a p h, hget a (hdel p h) = if a =? p then None else hget a h.
Proof.
  intros a p h. unfold hdel. induction h as [|[q x] h IH]; cbn [filter hget fst].
  - destruct (a =? p); reflexivity.
  - destruct (N.eqb_spec q p) as [->|Hq]; cbn [negb].
    + rewrite IH. destruct (N.eqb_spec a p) as [->|Ha]; [reflexivity|]. destruct (N.eqb_spec p a); [congruence|reflexivity].
    + cbn [hget]. rewrite IH. destruct (N.eqb_spec q a) as [->|Hqa]; [|reflexivity]. destruct (N.eqb_spec a p); [congruence|reflexivity].
Qed.
Lemma hget_put : forall a p x h, hget a (hput p x h) = if a =? p then Some x else hget a h.
Proof.
  intros a p x h. unfold hput. cbn [hget]. rewrite hget_del. rewrite (N.eqb_sym p a). destruct (a =? p); reflexivity.
Qed.
Lemma hget_same : forall p x h, hget p (hput p x h) = Some x.
Proof. intros. rewrite hget_put, N.eqb_refl. reflexivity. Qed.
Lemma hget_other : forall a p x h, a <> p -> hget a (hput p x h) = hget a h.
Proof. intros a p x h H. rewrite hget_put. apply N.eqb_neq in H. rewrite H. reflexivity. Qed.
Lemma hget_none : forall p h, ~ In p (map fst h) <-> hget p h = None.
Proof.
  intros p h. induction h as [|[q x] h IH]; cbn [map fst hget]; [split; [reflexivity|intros _ []]|].
  destruct (N.eqb_spec q p) as [->|Hq]; [split; [intros H; exfalso; apply H; left; reflexivity|discriminate]|].
  rewrite <- IH. split; [intros H K; apply H; right; exact K|intros H [K|K]; [congruence|apply H; exact K]].
Qed.

(** ** A trie in memory, with the addresses of its nodes *)
Inductive rep (h : heap) : N -> trie -> list N -> Prop :=
| rep_node : forall p n e cs kids fs, hget p h = Some (mkCell n e cs) -> reps h cs kids fs -> rep h p (Node n e kids) (p :: fs)
with reps (h : heap) : list (N * option N) -> list (N * trie) -> list N -> Prop :=
| reps_nil : reps h [] [] []
| reps_cons : forall c q k f cs kids fs, rep h q k f -> reps h cs kids fs -> reps h ((c, Some q) :: cs) ((c, k) :: kids) (f ++ fs).
Scheme rep_mut := Minimality for rep Sort Prop with reps_mut := Minimality for reps Sort Prop.
Combined Scheme rep_both from rep_mut, reps_mut.

Lemma frame_both : forall h h',
  (forall p t fs, rep h p t fs -> (forall a, In a fs -> hget a h' = hget a h) -> rep h' p t fs) /\
  (forall cs kids fs, reps h cs kids fs -> (forall a, In a fs -> hget a h' = hget a h) -> reps h' cs kids fs).
Proof.
  intros h h'. apply (rep_both h).
  - intros p n e cs kids fs E R IH F. apply (rep_node h' p n e cs); [rewrite F by (left; reflexivity); exact E|].
    apply IH. intros a Ha. apply F. right. exact Ha.
  - intros _. constructor.
  - intros c q k f cs kids fs R IH1 Rs IH2 F. constructor.
    + apply IH1. intros a Ha. apply F. apply in_or_app. left. exact Ha.
    + apply IH2. intros a Ha. apply F. apply in_or_app. right. exact Ha.
Qed.
Lemma rep_frame : forall h h' p t fs, rep h p t fs -> (forall a, In a fs -> hget a h' = hget a h) -> rep h' p t fs.
Proof. intros h h'. exact (proj1 (frame_both h h')). Qed.
Lemma reps_frame : forall h h' cs kids fs, reps h cs kids fs -> (forall a, In a fs -> hget a h' = hget a h) -> reps h' cs kids fs.
Proof. intros h h'. exact (proj2 (frame_both h h')). Qed.
Lemma rep_alloc_both : forall h,
  (forall p t fs, rep h p t fs -> forall a, In a fs -> hget a h <> None) /\
  (forall cs kids fs, reps h cs kids fs -> forall a, In a fs -> hget a h <> None).
Proof.
  intros h. apply (rep_both h).
  - intros p n e cs kids fs E R IH a [<-|Ha]; [rewrite E; discriminate|apply IH; exact Ha].
  - intros a [].
  - intros c q k f cs kids fs R IH1 Rs IH2 a Ha. apply in_app_or in Ha. destruct Ha as [Ha|Ha]; [apply IH1|apply IH2]; exact Ha.
Qed.
Lemma rep_in_heap : forall h p t fs a, rep h p t fs -> In a fs -> hget a h <> None.
Proof. intros h p t fs a R. exact (proj1 (rep_alloc_both h) p t fs R a). Qed.

(** ** Children *)
Lemma cset_twice : forall c v u l, cset c v (cset c u l) = cset c v l.
Proof.
  induction l as [|[d x] l IH]; cbn [cset]; [rewrite N.ltb_irrefl, N.eqb_refl; reflexivity|].
  destruct (c <? d) eqn:E1; cbn [cset]; [rewrite N.ltb_irrefl, N.eqb_refl; reflexivity|].
  destruct (N.eqb_spec c d) as [->|E2]; cbn [cset]; [rewrite N.ltb_irrefl, N.eqb_refl; reflexivity|].
  rewrite E1. apply N.eqb_neq in E2. rewrite E2, IH. reflexivity.
Qed.
Lemma reps_keys : forall h cs kids fs c, reps h cs kids fs ->
  match kid_find c kids with
  | None => cfind c cs = None
  | Some k => exists q f, cfind c cs = Some (Some q) /\ rep h q k f /\ incl f fs
  end.
Proof.
  intros h cs kids fs c R. induction R as [|d q k f cs kids fs Rk Rs IH]; cbn [kid_find cfind]; [reflexivity|].
  destruct (d =? c).
  - exists q, f. split; [reflexivity|]. split; [exact Rk|]. apply incl_appl, incl_refl.
  - destruct (kid_find c kids) as [k'|]; [|exact IH]. destruct IH as (q' & f' & E & R' & I').
    exists q', f'. split; [exact E|]. split; [exact R'|]. apply incl_appr. exact I'.
Qed.
Lemma reps_split : forall h cs kids fs c k, reps h cs kids fs -> StronglySorted (fun a b : N * trie => fst a < fst b) kids ->
  kid_find c kids = Some k ->
  exists q f fa fb, cfind c cs = Some (Some q) /\ fs = fa ++ f ++ fb /\ rep h q k f /\
  forall h' k' f', (forall a, In a (fa ++ fb) -> hget a h' = hget a h) -> rep h' q k' f' -> reps h' cs (kid_set c k' kids) (fa ++ f' ++ fb).
Proof.
  intros h cs kids fs c k R. induction R as [|d q u f cs kids fs Rk Rs IH]; intros SS F; cbn [kid_find] in F; [discriminate|].
  inversion SS as [|? ? SS' FA]; subst. cbn [cfind kid_set]. destruct (N.eqb_spec d c) as [->|Hd].
  - injection F as ->. exists q, f, [], fs. split; [reflexivity|]. split; [reflexivity|]. split; [exact Rk|].
    intros h' k' f' FR R'. rewrite N.ltb_irrefl, N.eqb_refl. cbn [app]. constructor; [exact R'|].
    eapply reps_frame; [exact Rs|]. intros a Ha. apply FR. exact Ha.
  - destruct (IH SS' F) as (q' & f' & fa & fb & E & -> & R' & K). exists q', f', (f ++ fa), fb.
    split; [exact E|]. split; [rewrite <- app_assoc; reflexivity|]. split; [exact R'|].
    intros h' k' f2 FR R2. apply kid_find_in in F. rewrite Forall_forall in FA. assert (L := FA _ F). cbn [fst] in L.
    replace (c <? d) with false by (symmetry; apply N.ltb_ge; lia). replace (c =? d) with false by (symmetry; apply N.eqb_neq; lia).
    rewrite <- app_assoc. constructor.
    + eapply rep_frame; [exact Rk|]. intros a Ha. apply FR. rewrite <- app_assoc. apply in_or_app. left. exact Ha.
    + apply K; [|exact R2]. intros a Ha. apply FR. rewrite <- app_assoc. apply in_or_app. right. exact Ha.
Qed.
Lemma reps_new : forall h cs kids fs c, reps h cs kids fs -> kid_find c kids = None ->
  forall h' q k' f', (forall a, In a fs -> hget a h' = hget a h) -> rep h' q k' f' ->
  exists fs', reps h' (cset c (Some q) cs) (kid_set c k' kids) fs' /\ Permutation fs' (f' ++ fs).
Proof.
  intros h cs kids fs c R F h' q k' f' FR R'. induction R as [|d q0 u f cs kids fs Rk Rs IH]; cbn [kid_find cset kid_set] in *.
  - exists (f' ++ []). split; [constructor; [exact R'|constructor]|apply Permutation_refl].
  - destruct (N.eqb_spec d c) as [|Hd]; [discriminate|].
    assert (FRk : rep h' q0 u f) by (eapply rep_frame; [exact Rk|intros a Ha; apply FR, in_or_app; left; exact Ha]).
    assert (FRs : reps h' cs kids fs) by (eapply reps_frame; [exact Rs|intros a Ha; apply FR, in_or_app; right; exact Ha]).
    destruct (c <? d).
    + exists (f' ++ f ++ fs). split; [constructor; [exact R'|constructor; assumption]|apply Permutation_refl].
    + replace (c =? d) with false by (symmetry; apply N.eqb_neq; congruence).
      destruct IH as (fs' & R2 & P2); [exact F|intros a Ha; apply FR, in_or_app; right; exact Ha|].
      exists (f ++ fs'). split; [constructor; assumption|].
      rewrite P2. rewrite !app_assoc. apply Permutation_app_tail. apply Permutation_app_comm.
Qed.

(** ** Adding *)
Section Alloc.
Variable alloc : list N -> N.
Hypothesis FRESH : fresh alloc.
Lemma new_fresh : forall h, hget (alloc (map fst h)) h = None.
Proof. intros h. apply hget_none. apply FRESH. Qed.

Definition grown (h : heap) (fs : list N) (h' : heap) (fs' : list N) : Prop :=
  NoDup fs' /\ incl fs fs' /\ (forall a, ~ In a fs' -> hget a h' = hget a h) /\ (forall a, In a fs' -> In a fs \/ hget a h = None).
Lemma rep_head : forall h p t fs, rep h p t fs -> exists fs0, fs = p :: fs0.
Proof. intros h p t fs R. inversion R; subst. eexists. reflexivity. Qed.
Lemma add_rep : forall w h p t fs, rep h p t fs -> NoDup fs -> wf t ->
  exists h' fs', h_add alloc w h p = MDone h' /\ rep h' p (add_word w t) fs' /\ grown h fs h' fs'.
Proof.
  induction w as [|c w IH]; intros h p t fs R ND W.
  - exists h, fs. cbn [h_add]. rewrite add_word_nil. split; [reflexivity|]. split; [exact R|].
    split; [exact ND|]. split; [apply incl_refl|]. split; [reflexivity|]. auto.
  - inversion R as [p0 n e cs kids fs0 E Rs]; subst. inversion W as [? ? ? SS WK]; subst.
    inversion ND as [|? ? NP ND0]; subst.
    cbn [h_add add_word]. unfold load at 1. rewrite E. cbn [mbind n_size n_end n_kids].
    set (h1 := hput p (mkCell (n + 1) e cs) h).
    assert (K := reps_keys h cs kids fs0 c Rs).
    destruct (kid_find c kids) as [k|] eqn:F.
    + destruct (reps_split h cs kids fs0 c k Rs SS F) as (q & f & fa & fb & CF & -> & Rq & PUT). rewrite CF.
      assert (Wk : wf k) by (apply kid_find_in in F; rewrite Forall_forall in WK; apply (WK _ F)).
      assert (NDf : NoDup f). { apply nodup_r in ND0. apply nodup_l in ND0. exact ND0. }
      destruct (rep_head _ _ _ _ Rq) as (f0 & Ef).
      assert (Hqp : q <> p). { intros ->. apply NP. apply in_or_app. right. apply in_or_app. left. rewrite Ef. left. reflexivity. }
      assert (Pf : forall a, In a f -> a <> p). { intros a Ha ->. apply NP. apply in_or_app. right. apply in_or_app. left. exact Ha. }
      assert (Rq1 : rep h1 q k f). { eapply rep_frame; [exact Rq|]. intros a Ha. unfold h1. apply hget_other. apply Pf. exact Ha. }
      assert (DIS : forall a, In a f -> ~ In a (fa ++ fb)).
      { intros a Ha. apply (nodup_apart f (fa ++ fb) a); [|exact Ha]. apply (Permutation_NoDup (Permutation_app_swap_app fa f fb)). exact ND0. }
      assert (FIN : forall h2 k2 f2, rep h2 q k2 f2 -> grown h1 f h2 f2 ->
        rep h2 p (Node (n + 1) e (kid_set c k2 kids)) (p :: fa ++ f2 ++ fb) /\ grown h (p :: fa ++ f ++ fb) h2 (p :: fa ++ f2 ++ fb)).
      { intros h2 k2 f2 R2 (G1 & G2 & G3 & G4).
        assert (OUT : forall a, In a (fa ++ fb) -> ~ In a f2).
        { intros a Ha H2. destruct (G4 a H2) as [H3|H3]; [apply (DIS a H3 Ha)|].
          assert (A := proj2 (rep_alloc_both h) _ _ _ Rs a). unfold h1 in H3.
          assert (Hap : a <> p). { intros ->. rewrite hget_same in H3. discriminate. }
          rewrite hget_other in H3 by exact Hap. apply A; [|exact H3].
          apply in_app_or in Ha. apply in_or_app. destruct Ha; [left; assumption|right; apply in_or_app; right; assumption]. }
        assert (PN : ~ In p f2). { intros H2. destruct (G4 p H2) as [H3|H3]; [apply (Pf p H3); reflexivity|]. unfold h1 in H3. rewrite hget_same in H3. discriminate. }
        assert (PO : ~ In p (fa ++ fb)).
        { intros Ha. apply NP. apply in_app_or in Ha. apply in_or_app. destruct Ha; [left; assumption|right; apply in_or_app; right; assumption]. }
        split.
        - apply (rep_node h2 p (n + 1) e cs); [rewrite G3 by exact PN; apply hget_same|].
          apply PUT; [|exact R2]. intros a Ha. rewrite G3 by (apply OUT; exact Ha). unfold h1. apply hget_other.
          intros ->. apply PO. exact Ha.
        - assert (INC : forall a, In a (fa ++ f2 ++ fb) <-> In a (fa ++ fb) \/ In a f2).
          { intros a. rewrite !in_app_iff. tauto. }
          split; [|split; [|split]].
          + constructor; [rewrite INC; tauto|].
            assert (NDo : NoDup (fa ++ fb)). { apply (Permutation_NoDup (Permutation_app_swap_app fa f fb)) in ND0. apply nodup_r in ND0. exact ND0. }
            apply (Permutation_NoDup (Permutation_app_swap_app f2 fa fb)).
            clear -G1 NDo OUT. induction f2 as [|a f2 IHf]; cbn [app]; [exact NDo|]. inversion G1; subst. constructor.
            * rewrite in_app_iff. intros [X|X]; [contradiction|]. apply (OUT a X). left. reflexivity.
            * apply IHf; [assumption|]. intros x Hx Hx2. apply (OUT x Hx). right. exact Hx2.
          + intros a [<-|Ha]; [left; reflexivity|right]. rewrite INC. rewrite !in_app_iff in Ha. rewrite in_app_iff.
            destruct Ha as [Ha|[Ha|Ha]]; [tauto| |tauto]. right. apply G2. exact Ha.
          + intros a Ha. rewrite G3.
            * unfold h1. apply hget_other. intros ->. apply Ha. left. reflexivity.
            * intros Hb. apply Ha. right. rewrite INC. right. exact Hb.
          + intros a [<-|Ha]; [left; left; reflexivity|]. rewrite INC in Ha. destruct Ha as [Ha|Ha].
            * left. right. rewrite !in_app_iff in *. tauto.
            * destruct (G4 a Ha) as [H3|H3]; [left; right; rewrite !in_app_iff; tauto|]. unfold h1 in H3. rewrite hget_put in H3.
              destruct (a =? p); [discriminate|right; exact H3]. }
      destruct w as [|c' w].
      * inversion Rq1 as [q0 m e' cs' ks fq Eq Rsq Hq0 Hk Hf]; subst. injection Hf as <-.
        unfold load. rewrite Eq. cbn [mbind n_size n_end n_kids].
        eexists. eexists. split; [reflexivity|]. apply FIN.
        -- apply (rep_node _ q m true cs'); [apply hget_same|]. eapply reps_frame; [exact Rsq|]. intros a Ha. apply hget_other.
           inversion NDf as [|? ? X _]; subst. intros ->. contradiction.
        -- split; [exact NDf|]. split; [apply incl_refl|]. split; [|auto]. intros a Ha. apply hget_other. intros ->. apply Ha. left. reflexivity.
      * destruct (IH h1 q k f Rq1 NDf Wk) as (h2 & f2 & E2 & R2 & G2). rewrite E2.
        exists h2, (p :: fa ++ f2 ++ fb). split; [reflexivity|]. destruct k as [m e' ks]. apply FIN; assumption.
    + rewrite K. set (h2 := hput p (mkCell (n + 1) e (cset c None cs)) h1).
      set (last := match w with [] => true | _ => false end). unfold h_new.
      set (q := alloc (map fst h2)). assert (Q2 : hget q h2 = None) by apply new_fresh.
      set (h3 := hput q (mkCell 0 last []) h2).
      assert (Hqp : q <> p). { intros ->. unfold h2 in Q2. rewrite hget_same in Q2. discriminate. }
      assert (Qh : hget q h = None). { unfold h2, h1 in Q2. rewrite !hget_other in Q2 by exact Hqp. exact Q2. }
      assert (R3 : rep h3 q (new_trie last) [q]). { apply (rep_node h3 q 0 last []); [apply hget_same|constructor]. }
      destruct (IH h3 q (new_trie last) [q] R3) as (h4 & f4 & E4 & R4 & G4); [repeat constructor; intros []|apply wf_new|].
      rewrite E4. cbn [mbind]. destruct G4 as (N4 & I4 & U4 & A4).
      assert (P4 : ~ In p f4). { intros H. destruct (A4 p H) as [[H1|[]]|H1]; [apply Hqp; exact H1|]. unfold h3 in H1. rewrite hget_other in H1 by congruence. unfold h2 in H1. rewrite hget_same in H1. discriminate. }
      unfold load. rewrite (U4 p P4). unfold h3 at 1. rewrite hget_other by congruence. unfold h2 at 1. rewrite hget_same. cbn [mbind n_size n_end n_kids].
      rewrite cset_twice.
      set (h5 := hput p (mkCell (n + 1) e (cset c (Some q) cs)) h4).
      assert (OUT : forall a, In a fs0 -> ~ In a f4).
      { intros a Ha H. assert (A := proj2 (rep_alloc_both h) _ _ _ Rs a Ha). destruct (A4 a H) as [[<-|[]]|H1]; [exact (A Qh)|].
        unfold h3 in H1. rewrite hget_put in H1. destruct (a =? q); [discriminate|]. unfold h2, h1 in H1. rewrite !hget_put in H1.
        destruct (a =? p); [discriminate|]. exact (A H1). }
      assert (H05 : forall a, a <> p -> ~ In a f4 -> hget a h5 = hget a h).
      { intros a Hp Hf. unfold h5. rewrite hget_other by exact Hp. rewrite (U4 a Hf). unfold h3.
        rewrite hget_other by (intros ->; apply Hf, I4; left; reflexivity). unfold h2, h1. rewrite !hget_other by exact Hp. reflexivity. }
      destruct (reps_new h cs kids fs0 c Rs F h5 q (add_word w (new_trie last)) f4) as (fs' & R5 & PM).
      { intros a Ha. apply H05; [intros ->; contradiction|apply OUT; exact Ha]. }
      { eapply rep_frame; [exact R4|]. intros a Ha. unfold h5. apply hget_other. intros ->. contradiction. }
      assert (INC : forall a, In a fs' <-> In a f4 \/ In a fs0).
      { intros a. rewrite <- in_app_iff. split; apply Permutation_in; [exact PM|apply Permutation_sym; exact PM]. }
      exists h5, (p :: fs'). split; [reflexivity|].
      split; [apply (rep_node h5 p (n + 1) e (cset c (Some q) cs)); [apply hget_same|exact R5]|].
      split; [|split; [|split]].
      * constructor; [rewrite INC; tauto|]. apply (Permutation_NoDup (Permutation_sym PM)).
        clear -N4 ND0 OUT. induction f4 as [|a f4 IHf]; cbn [app]; [exact ND0|]. inversion N4; subst. constructor.
        -- rewrite in_app_iff. intros [X|X]; [contradiction|]. apply (OUT a X). left. reflexivity.
        -- apply IHf; [assumption|]. intros x Hx Hx2. apply (OUT x Hx). right. exact Hx2.
      * intros a [<-|Ha]; [left; reflexivity|right]. rewrite INC. right. exact Ha.
      * intros a Ha. apply H05; [intros ->; apply Ha; left; reflexivity|]. intros Hb. apply Ha. right. rewrite INC. left. exact Hb.
      * intros a [<-|Ha]; [left; left; reflexivity|]. rewrite INC in Ha. destruct Ha as [Ha|Ha]; [|left; right; exact Ha].
        destruct (A4 a Ha) as [[<-|[]]|H1]; [right; exact Qh|]. unfold h3 in H1. rewrite hget_put in H1.
        destruct (a =? q); [discriminate|]. unfold h2, h1 in H1. rewrite !hget_put in H1. destruct (a =? p); [discriminate|right; exact H1].
Qed.
Lemma grown_trans : forall h1 f1 h2 f2 h3 f3, grown h1 f1 h2 f2 -> grown h2 f2 h3 f3 -> grown h1 f1 h3 f3.
Proof.
  intros h1 f1 h2 f2 h3 f3 (A1 & A2 & A3 & A4) (B1 & B2 & B3 & B4). split; [exact B1|]. split; [eapply incl_tran; eassumption|].
  split.
  - intros a Ha. rewrite B3 by exact Ha. apply A3. intros H. apply Ha, B2. exact H.
  - intros a Ha. destruct (in_dec N.eq_dec a f2) as [Hf|Hf]; [apply A4; exact Hf|].
    destruct (B4 a Ha) as [H|H]; [contradiction|]. right. rewrite <- (A3 a Hf). exact H.
Qed.
Lemma add_all_rep : forall ws h p t fs, rep h p t fs -> NoDup fs -> wf t ->
  exists h' fs', h_add_all alloc ws h p = MDone h' /\ rep h' p (fold_left (fun t w => add_word w t) ws t) fs' /\ grown h fs h' fs'.
Proof.
  induction ws as [|w ws IH]; intros h p t fs R ND W; cbn [h_add_all fold_left].
  - exists h, fs. split; [reflexivity|]. split; [exact R|]. split; [exact ND|]. split; [apply incl_refl|]. split; [reflexivity|]. auto.
  - destruct (add_rep w h p t fs R ND W) as (h1 & f1 & E1 & R1 & G1). rewrite E1. cbn [mbind].
    destruct (IH h1 p _ f1 R1 (proj1 G1) (wf_add w t W)) as (h2 & f2 & E2 & R2 & G2).
    exists h2, f2. split; [exact E2|]. split; [exact R2|]. eapply grown_trans; eassumption.
Qed.
Lemma build_rep : forall ws h, exists p h' fs, h_build alloc ws h = MDone (p, h') /\ rep h' p (trie_of ws) fs /\ NoDup fs /\
  (forall a, ~ In a fs -> hget a h' = hget a h) /\ (forall a, In a fs -> hget a h = None).
Proof.
  intros ws h. unfold h_build, h_new. set (p := alloc (map fst h)). assert (P : hget p h = None) by apply new_fresh.
  set (h1 := hput p (mkCell 0 false []) h).
  assert (R1 : rep h1 p (new_trie false) [p]) by (apply (rep_node h1 p 0 false []); [apply hget_same|constructor]).
  destruct (add_all_rep ws h1 p (new_trie false) [p] R1) as (h2 & f2 & E2 & R2 & G1 & G2 & G3 & G4); [repeat constructor; intros []|apply wf_new|].
  exists p, h2, f2. rewrite E2. split; [reflexivity|]. split; [exact R2|]. split; [exact G1|]. split.
  - intros a Ha. rewrite G3 by exact Ha. unfold h1. apply hget_other. intros ->. apply Ha, G2. left. reflexivity.
  - intros a Ha. destruct (G4 a Ha) as [[<-|[]]|H]; [exact P|]. unfold h1 in H. rewrite hget_put in H. destruct (a =? p); [discriminate|exact H].
Qed.
End Alloc.

(** ** Reading *)
Lemma find_rep : forall fin w h p t fs, rep h p t fs ->
  exists b, h_find fin w h p = MDone b /\
  ((fin = n_end) -> b = is_word w t) /\ ((fin = fun _ => true) -> b = is_prefix w t).
Proof.
  intros fin w. induction w as [|c w IH]; intros h p t fs R; inversion R as [p0 n e cs kids fs0 E Rs]; subst; cbn [h_find]; unfold load; rewrite E; cbn [mbind n_kids].
  - eexists. split; [reflexivity|]. split; intros ->; reflexivity.
  - cbn [is_word is_prefix t_kids]. assert (K := reps_keys h cs kids fs0 c Rs). destruct (kid_find c kids) as [k|].
    + destruct K as (q & f & -> & Rq & _). destruct (IH h q k f Rq) as (b & Eb & Hb). exists b. split; [exact Eb|exact Hb].
    + rewrite K. exists false. split; [reflexivity|]. split; reflexivity.
Qed.

Fixpoint depth (t : trie) : nat :=
  match t with Node _ _ kids => S ((fix go (l : list (N * trie)) : nat := match l with [] => O | (_, k) :: l' => Nat.max (depth k) (go l') end) kids) end.
Definition depths (kids : list (N * trie)) : nat := fold_right (fun ck m => Nat.max (depth (snd ck)) m) O kids.
Lemma depth_node : forall n e kids, depth (Node n e kids) = S (depths kids).
Proof.
  intros n e kids. cbn [depth]. f_equal. unfold depths. induction kids as [|[c k] kids IH]; [reflexivity|].
  cbn [fold_right snd]. f_equal. exact IH.
Qed.
Lemma depths_in : forall c k kids, In (c, k) kids -> (depth k <= depths kids)%nat.
Proof.
  intros c k kids. unfold depths. induction kids as [|[d u] kids IH]; [intros []|]. cbn [fold_right snd].
  intros [H|H]; [injection H as -> ->; lia|]. assert (K := IH H). lia.
Qed.
Lemma depths_set : forall c k kids, (depths (kid_set c k kids) <= Nat.max (depth k) (depths kids))%nat.
Proof.
  intros c k kids. induction kids as [|[d u] kids IH]; cbn [kid_set]; [unfold depths; cbn [fold_right snd]; lia|].
  destruct (c <? d); [unfold depths; cbn [fold_right snd]; lia|]. destruct (c =? d); unfold depths in *; cbn [fold_right snd] in *; lia.
Qed.
Lemma depth_add : forall w t, (depth (add_word w t) <= Nat.max (depth t) (S (List.length w)))%nat.
Proof.
  induction w as [|c w IH]; intros t; [rewrite add_word_nil; lia|]. destruct t as [n e kids]. cbn [add_word List.length].
  rewrite !depth_node.
  match goal with |- context [kid_set c ?k kids] => assert (D := depths_set c k kids); assert (depth k <= Nat.max (depths kids) (S (List.length w)))%nat; [|lia] end.
  destruct (kid_find c kids) as [[m e' ks]|] eqn:F.
  - apply kid_find_in in F. apply depths_in in F. destruct w as [|c' w].
    + rewrite depth_node in *. lia.
    + assert (J := IH (Node m e' ks)). lia.
  - match goal with |- context [add_word w ?t] => assert (J := IH t) end. unfold new_trie in J at 2. rewrite (depth_node 0) in J.
    cbn [depths fold_right] in J. lia.
Qed.
Lemma depth_trie_of : forall ws, (depth (trie_of ws) <= S (longest ws))%nat.
Proof.
  intros ws. unfold trie_of. assert (forall t, (depth (fold_left (fun t w => add_word w t) ws t) <= Nat.max (depth t) (S (longest ws)))%nat).
  { induction ws as [|w ws IH]; intros t; cbn [fold_left]; [lia|]. assert (J := IH (add_word w t)). assert (D := depth_add w t).
    unfold longest in *. cbn [map fold_right]. lia. }
  assert (J := H (new_trie false)). unfold new_trie in J at 2. rewrite depth_node in J. cbn [depths fold_right] in J. lia.
Qed.

Lemma tree_rep : forall fuel h p t fs, rep h p t fs -> (depth t <= fuel)%nat -> h_tree fuel h p = MDone t.
Proof.
  induction fuel as [|f IH]; intros h p t fs R D; inversion R as [p0 n e cs kids fs0 E Rs]; subst; rewrite depth_node in D; [lia|].
  cbn [h_tree]. unfold load. rewrite E. cbn [mbind n_size n_end n_kids].
  match goal with |- mbind (?go cs) _ = _ => assert (G : go cs = MDone kids) end.
  { clear E R. induction Rs as [|c q k f0 cs kids fs Rk Rs IHs]; [reflexivity|]. unfold depths in D. cbn [fold_right snd] in D.
    rewrite (IH h q k f0 Rk) by lia. cbn [mbind]. rewrite IHs by (unfold depths; lia). reflexivity. }
  rewrite G. reflexivity.
Qed.

(** ** Freeing *)
Definition without (h : heap) (fs : list N) (h' : heap) : Prop :=
  (forall a, In a fs -> hget a h' = None) /\ (forall a, ~ In a fs -> hget a h' = hget a h).
Lemma delete_rep : forall fuel h p t fs, rep h p t fs -> NoDup fs -> (depth t <= fuel)%nat ->
  exists h', h_delete fuel h p = MDone h' /\ without h fs h'.
Proof.
  induction fuel as [|f IH]; intros h p t fs R ND D; inversion R as [p0 n e cs kids fs0 E Rs]; subst; rewrite depth_node in D; [lia|].
  inversion ND as [|? ? NP ND0]; subst. cbn [h_delete]. unfold load at 1. rewrite E. cbn [mbind n_kids].
  match goal with |- context [mbind (?go cs h) _] => assert (G : forall h0, reps h0 cs kids fs0 -> exists h1, go cs h0 = MDone h1 /\ without h0 fs0 h1) end.
  { clear E R ND NP Rs. revert kids fs0 D ND0. induction cs as [|[c o] cs IHs]; intros kids fs0 D ND0 h0 Rs; inversion Rs as [|? q k f0 ? ks fs Rk Rs']; subst.
    - exists h0. split; [reflexivity|]. split; [intros a []|reflexivity].
    - unfold depths in D. cbn [fold_right snd] in D.
      destruct (IH h0 q k f0 Rk (nodup_l _ _ ND0)) as (h1 & E1 & O1 & K1); [lia|]. rewrite E1. cbn [mbind].
      destruct (IHs ks fs) with (h0 := h1) as (h2 & E2 & O2 & K2).
      + unfold depths. lia.
      + exact (nodup_r _ _ ND0).
      + eapply reps_frame; [exact Rs'|]. intros a Ha. apply K1. intros Hf. exact (nodup_apart _ _ a ND0 Hf Ha).
      + exists h2. split; [exact E2|]. split.
        * intros a Ha. destruct (in_dec N.eq_dec a fs) as [Hf|Hf]; [apply O2; exact Hf|]. rewrite K2 by exact Hf. apply O1.
          apply in_app_or in Ha. tauto.
        * intros a Ha. rewrite in_app_iff in Ha. rewrite K2 by tauto. apply K1. tauto. }
  destruct (G h Rs) as (h1 & E1 & O1 & K1). rewrite E1. cbn [mbind]. unfold load. rewrite (K1 p NP), E. cbn [mbind].
  eexists. split; [reflexivity|]. split.
  - intros a Ha. rewrite hget_del. destruct (N.eqb_spec a p) as [->|Hp]; [reflexivity|]. apply O1. destruct Ha; [congruence|assumption].
  - intros a Ha. rewrite hget_del. destruct (N.eqb_spec a p) as [->|Hp]; [exfalso; apply Ha; left; reflexivity|].
    apply K1. intros H. apply Ha. right. exact H.
Qed.

(** ** Which nodes there are *)
Lemma reaches_det : forall h p w a, reaches h p w a -> forall b, reaches h p w b -> a = b.
Proof.
  intros h p w a H. induction H as [p x E|p c w x q a E F H IH]; intros b Hb; inversion Hb; subst; [reflexivity|].
  apply IH. congruence.
Qed.
Lemma reaches_rep : forall w h p t fs, rep h p t fs -> ((exists a, reaches h p w a) <-> is_prefix w t = true).
Proof.
  induction w as [|c w IH]; intros h p t fs R; inversion R as [p0 n e cs kids fs0 E Rs]; subst; cbn [is_prefix t_kids].
  - split; [reflexivity|]. intros _. exists p. econstructor. exact E.
  - assert (K := reps_keys h cs kids fs0 c Rs). destruct (kid_find c kids) as [k|].
    + destruct K as (q & f & F & Rq & _). rewrite <- (IH h q k f Rq). split.
      * intros (a & H). inversion H as [|? ? ? x q' ? E' F' H']; subst. rewrite E in E'. injection E' as <-. cbn [n_kids] in F'.
        rewrite F in F'. injection F' as <-. exists a. exact H'.
      * intros (a & H). exists a. econstructor; [exact E|cbn [n_kids]; exact F|exact H].
    + split; [|discriminate]. intros (a & H). inversion H as [|? ? ? x q' ? E' F' H']; subst. rewrite E in E'. injection E' as <-.
      cbn [n_kids] in F'. congruence.
Qed.
Lemma reps_in : forall h cs kids fs a, reps h cs kids fs -> In a fs -> exists c q k f, In (c, Some q) cs /\ In (c, k) kids /\ rep h q k f /\ In a f.
Proof.
  intros h cs kids fs a R. induction R as [|c q k f cs kids fs Rk Rs IH]; intros Ha; [destruct Ha|].
  apply in_app_or in Ha. destruct Ha as [Ha|Ha].
  - exists c, q, k, f. repeat split; try (left; reflexivity); assumption.
  - destruct (IH Ha) as (c' & q' & k' & f' & H1 & H2 & H3). exists c', q', k', f'. repeat split; try (right; assumption); apply H3.
Qed.

Lemma reps_names : forall h cs kids fs, reps h cs kids fs -> map fst cs = map fst kids.
Proof. intros h cs kids fs R. induction R; [reflexivity|]. cbn [map fst]. f_equal. assumption. Qed.
Lemma cfind_in : forall c v l, cfind c l = Some v -> In (c, v) l.
Proof.
  induction l as [|[d u] l IH]; cbn [cfind]; [discriminate|]. destruct (N.eqb_spec d c) as [->|H]; intros K.
  - injection K as ->. left. reflexivity.
  - right. apply IH. exact K.
Qed.
Lemma reps_at : forall h cs kids fs c q, reps h cs kids fs -> NoDup fs -> cfind c cs = Some (Some q) ->
  exists k f, rep h q k f /\ incl f fs /\ NoDup f /\ In (c, k) kids.
Proof.
  intros h cs kids fs c q R. induction R as [|d q0 k f cs kids fs Rk Rs IH]; intros ND F; cbn [cfind] in F; [discriminate|].
  destruct (N.eqb_spec d c) as [->|Hd].
  - injection F as ->. exists k, f. split; [exact Rk|]. split; [apply incl_appl, incl_refl|]. split; [exact (nodup_l _ _ ND)|left; reflexivity].
  - destruct (IH (nodup_r _ _ ND) F) as (k' & f' & R' & I' & N' & H'). exists k', f'. split; [exact R'|].
    split; [apply incl_appr; exact I'|]. split; [exact N'|right; exact H'].
Qed.
Lemma reaches_in : forall w h p t fs a, rep h p t fs -> reaches h p w a -> In a fs.
Proof.
  induction w as [|c w IH]; intros h p t fs a R H; inversion R as [p0 n e cs kids fs0 E Rs]; subst; inversion H as [|? ? ? x q ? E' F H']; subst.
  - left. reflexivity.
  - right. rewrite E in E'. injection E' as <-. cbn [n_kids] in F. assert (K := reps_keys h cs kids fs0 c Rs).
    destruct (kid_find c kids) as [k|]; [|congruence]. destruct K as (q' & f & F' & Rq & I). rewrite F in F'. injection F' as <-.
    apply I. eapply IH; eassumption.
Qed.
Lemma reps_two : forall h cs kids fs c d q r, reps h cs kids fs -> NoDup fs -> c <> d -> cfind c cs = Some (Some q) -> cfind d cs = Some (Some r) ->
  exists k f k' f', rep h q k f /\ rep h r k' f' /\ forall a, In a f -> ~ In a f'.
Proof.
  intros h cs kids fs c d q r R. induction R as [|b q0 k f cs kids fs Rk Rs IH]; intros ND CD F G; cbn [cfind] in F, G; [discriminate|].
  destruct (N.eqb_spec b c) as [->|Hc].
  - injection F as ->. destruct (N.eqb_spec c d) as [|_]; [congruence|].
    destruct (reps_at h cs kids fs d r Rs (nodup_r _ _ ND) G) as (k' & f' & R' & I' & _). exists k, f, k', f'.
    split; [exact Rk|]. split; [exact R'|]. intros a Ha Hb. exact (nodup_apart _ _ a ND Ha (I' a Hb)).
  - destruct (N.eqb_spec b d) as [->|Hd].
    + injection G as ->. destruct (reps_at h cs kids fs c q Rs (nodup_r _ _ ND) F) as (k' & f' & R' & I' & _). exists k', f', k, f.
      split; [exact R'|]. split; [exact Rk|]. intros a Ha Hb. exact (nodup_apart _ _ a ND Hb (I' a Ha)).
    + apply IH; try assumption. exact (nodup_r _ _ ND).
Qed.
Lemma reaches_once : forall w v h p t fs a, rep h p t fs -> NoDup fs -> reaches h p w a -> reaches h p v a -> w = v.
Proof.
  induction w as [|c w IH]; intros v h p t fs a R ND H K; inversion R as [p0 n e cs kids fs0 E Rs]; subst; inversion ND as [|? ? NP ND0]; subst;
    inversion H as [|? ? ? x q ? E1 F1 H1]; subst; inversion K as [|? d v' y r ? E2 F2 K1]; subst; [reflexivity| | |].
  - exfalso. apply NP. rewrite E in E2. injection E2 as <-. destruct (reps_at h cs kids fs0 d r Rs ND0 F2) as (k & f & R' & I' & _).
    apply I'. eapply reaches_in; eassumption.
  - exfalso. apply NP. rewrite E in E1. injection E1 as <-. destruct (reps_at h cs kids fs0 c q Rs ND0 F1) as (k & f & R' & I' & _).
    apply I'. eapply reaches_in; eassumption.
  - rewrite E in E1, E2. injection E1 as <-. injection E2 as <-. cbn [n_kids] in F1, F2. destruct (N.eq_dec c d) as [<-|CD].
    + f_equal. rewrite F1 in F2. injection F2 as <-. destruct (reps_at h cs kids fs0 c q Rs ND0 F1) as (k & f & R' & _ & N' & _).
      eapply IH; eassumption.
    + exfalso. destruct (reps_two h cs kids fs0 c d q r Rs ND0 CD F1 F2) as (k & f & k' & f' & R1 & R2 & DIS).
      apply (DIS a); eapply reaches_in; eassumption.
Qed.
Lemma reaches_all_both : forall h,
  (forall p t fs, rep h p t fs -> wf t -> forall a, In a fs -> exists w, reaches h p w a) /\
  (forall cs kids fs, reps h cs kids fs -> StronglySorted (fun a b : N * trie => fst a < fst b) kids -> Forall (fun ck => wf (snd ck)) kids ->
     forall a, In a fs -> exists c q w, cfind c cs = Some (Some q) /\ reaches h q w a).
Proof.
  intros h. apply (rep_both h).
  - intros p n e cs kids fs E R IH W a [<-|Ha]; [exists []; econstructor; exact E|]. inversion W; subst.
    destruct (IH H1 H3 a Ha) as (c & q & w & F & Q). exists (c :: w). econstructor; [exact E|exact F|exact Q].
  - intros _ _ a [].
  - intros c q k f cs kids fs R IH1 Rs IH2 SS FA a Ha. inversion SS as [|? ? SS' LT]; subst. inversion FA as [|? ? Wk FA']; subst. cbn [cfind].
    apply in_app_or in Ha. destruct Ha as [Ha|Ha].
    + destruct (IH1 Wk a Ha) as (w & Q). exists c, q, w. rewrite N.eqb_refl. split; [reflexivity|exact Q].
    + destruct (IH2 SS' FA' a Ha) as (d & r & w & F & Q). exists d, r, w. split; [|exact Q].
      destruct (N.eqb_spec c d) as [<-|]; [exfalso|exact F].
      assert (I := cfind_in _ _ _ F). apply (in_map fst) in I. rewrite (reps_names h cs kids fs Rs) in I. apply in_map_iff in I.
      destruct I as ([c' k'] & Ec & I). cbn [fst] in Ec. subst c'. rewrite Forall_forall in LT. assert (L := LT _ I). cbn [fst] in L. lia.
Qed.

(** ** The theorems *)
Lemma wf_trie_of : forall ws, wf (trie_of ws).
Proof. intros ws. exact (proj1 (trie_of_gen ws (new_trie false) (wf_new false))). Qed.
Lemma kept_of : forall h h' fs, (forall a, ~ In a fs -> hget a h' = hget a h) -> (forall a, In a fs -> hget a h = None) -> kept_memory h h'.
Proof.
  intros h h' fs K F a x E. destruct (in_dec N.eq_dec a fs) as [H|H]; [rewrite (F a H) in E; discriminate|]. rewrite (K a H). exact E.
Qed.
Lemma heap_trie_words : forall alloc, fresh alloc -> forall ws h, exists p h', h_build alloc ws h = MDone (p, h') /\ kept_memory h h' /\
  (forall x, h_find n_end x h' p = MDone true <-> x <> [] /\ In x ws) /\
  (forall x, h_find n_end x h' p = MDone false <-> ~ (x <> [] /\ In x ws)) /\
  (forall x, h_find (fun _ => true) x h' p = MDone true <-> x = [] \/ exists w, In w ws /\ prefix_of x w) /\
  (forall x, h_find (fun _ => true) x h' p = MDone false <-> ~ (x = [] \/ exists w, In w ws /\ prefix_of x w)) /\
  (forall fuel, (longest ws < fuel)%nat -> h_tree fuel h' p = MDone (trie_of ws)).
Proof.
  intros alloc FR ws h. destruct (build_rep alloc FR ws h) as (p & h' & fs & E & R & ND & K & F). exists p, h'. split; [exact E|].
  split; [exact (kept_of h h' fs K F)|]. destruct (trie_words ws) as (T1 & T2 & _).
  split; [|split; [|split; [|split]]].
  - intros x. rewrite <- T1. destruct (find_rep n_end x h' p _ fs R) as (b & -> & H & _). rewrite (H eq_refl).
    split; [intros Q; injection Q; auto|intros ->; reflexivity].
  - intros x. rewrite <- T1. destruct (find_rep n_end x h' p _ fs R) as (b & -> & H & _). rewrite (H eq_refl).
    destruct (is_word x (trie_of ws)); split; [discriminate|intros Q; exfalso; apply Q; reflexivity|discriminate|reflexivity].
  - intros x. rewrite <- T2. destruct (find_rep (fun _ => true) x h' p _ fs R) as (b & -> & _ & H). rewrite (H eq_refl).
    split; [intros Q; injection Q; auto|intros ->; reflexivity].
  - intros x. rewrite <- T2. destruct (find_rep (fun _ => true) x h' p _ fs R) as (b & -> & _ & H). rewrite (H eq_refl).
    destruct (is_prefix x (trie_of ws)); split; [discriminate|intros Q; exfalso; apply Q; reflexivity|discriminate|reflexivity].
  - intros fuel L. eapply tree_rep; [exact R|]. assert (D := depth_trie_of ws). lia.
Qed.
Lemma heap_trie_nodes : forall alloc, fresh alloc -> forall ws h p h', h_build alloc ws h = MDone (p, h') ->
  (forall w, (exists a, reaches h' p w a) <-> w = [] \/ exists x, In x ws /\ prefix_of w x) /\
  (forall w a b, reaches h' p w a -> reaches h' p w b -> a = b) /\
  (forall w v a, reaches h' p w a -> reaches h' p v a -> w = v) /\
  (forall a, hget a h' <> None <-> hget a h <> None \/ exists w, reaches h' p w a).
Proof.
  intros alloc FR ws h p h' B. destruct (build_rep alloc FR ws h) as (p0 & h0 & fs & E & R & ND & K & F). rewrite E in B. injection B as -> ->.
  destruct (trie_words ws) as (_ & T2 & _). split; [|split; [|split]].
  - intros w. rewrite <- T2. eapply reaches_rep. exact R.
  - intros w a b H1 H2. eapply reaches_det; eassumption.
  - intros w v a H1 H2. eapply reaches_once; eassumption.
  - intros a. destruct (in_dec N.eq_dec a fs) as [H|H].
    + split; [intros _; right; exact (proj1 (reaches_all_both h') p _ fs R (wf_trie_of ws) a H)|]. intros _. eapply rep_in_heap; eassumption.
    + rewrite (K a H). split; [auto|]. intros [Q|(w & Q)]; [exact Q|]. exfalso. apply H. eapply reaches_in; eassumption.
Qed.
Lemma heap_trie_freed : forall alloc, fresh alloc -> forall ws h p h' fuel, h_build alloc ws h = MDone (p, h') -> (longest ws < fuel)%nat ->
  exists h2, h_delete fuel h' p = MDone h2 /\ same_memory h h2.
Proof.
  intros alloc FR ws h p h' fuel B L. destruct (build_rep alloc FR ws h) as (p0 & h0 & fs & E & R & ND & K & F). rewrite E in B. injection B as -> ->.
  destruct (delete_rep fuel h' p _ fs R ND) as (h2 & E2 & O2 & K2); [assert (D := depth_trie_of ws); lia|].
  exists h2. split; [exact E2|]. intros a. destruct (in_dec N.eq_dec a fs) as [H|H]; [rewrite (O2 a H), (F a H); reflexivity|].
  rewrite (K2 a H). apply K. exact H.
Qed.
Lemma heap_trie_copy : forall alloc, fresh alloc -> forall ws h p h' fuel, h_build alloc ws h = MDone (p, h') -> (longest ws < fuel)%nat ->
  (exists w, In w ws /\ w <> []) ->
  exists q h1 h2, h_copy alloc h' p = MDone (q, h1) /\ h_delete fuel h1 p = MDone h2 /\ h_delete fuel h2 q = MBad.
Proof.
  intros alloc FR ws h p h' fuel B L (w & Iw & Nw). destruct (build_rep alloc FR ws h) as (p0 & h0 & fs & E & R & ND & K & F). rewrite E in B. injection B as -> ->.
  destruct w as [|c w]; [congruence|]. clear Nw.
  assert (PX : is_prefix [c] (trie_of ws) = true). { apply (proj1 (proj2 (trie_words ws))). right. exists (c :: w). split; [exact Iw|]. exists w. reflexivity. }
  assert (D := depth_trie_of ws). inversion R as [p0 n e cs kids fs0 E0 Rs Hp Ht Hf]. subst p0 fs. rewrite <- Ht in *. cbn [is_prefix t_kids] in PX.
  unfold h_copy, load. rewrite E0. cbn [mbind]. set (q := alloc (map fst h')). assert (Q : hget q h' = None) by (apply hget_none, FR).
  set (h1 := hput q (mkCell n e cs) h'). exists q, h1.
  assert (NQ : forall a, In a (p :: fs0) -> a <> q). { intros a Ha ->. exact (rep_in_heap _ _ _ _ q R Ha Q). }
  assert (R1 : rep h1 p (Node n e kids) (p :: fs0)). { eapply rep_frame; [exact R|]. intros a Ha. unfold h1. apply hget_other. apply NQ. exact Ha. }
  destruct (delete_rep fuel h1 p _ (p :: fs0) R1 ND) as (h2 & E2 & O2 & K2); [lia|]. exists h2. split; [reflexivity|]. split; [exact E2|].
  assert (Q2 : hget q h2 = Some (mkCell n e cs)). { rewrite K2; [apply hget_same|]. intros H. apply (NQ q H). reflexivity. }
  rewrite depth_node in D. inversion Rs as [|d r k f cs' kids' fs' Rk Rs' He Hk Hf]; subst; [cbn in PX; discriminate|].
  destruct (rep_head _ _ _ _ Rk) as (f0 & ->). 
  assert (L2 : (1 <= longest ws)%nat). { clear -Iw. unfold longest. induction ws as [|x ws IH]; [destruct Iw|]. cbn [map fold_right]. destruct Iw as [->|H]; [cbn [List.length]; lia|]. specialize (IH H). lia. }
  destruct fuel as [|[|fuel]]; [lia|lia|]. 
  change (h_delete (S (S fuel)) h2 q) with (mbind (load h2 q) (fun x =>
      mbind ((fix go (l : list (N * option N)) (h : heap) : mres heap :=
                match l with
                | [] => MDone h
                | (_, None) :: l' => go l' h
                | (_, Some q) :: l' => mbind (h_delete (S fuel) h q) (go l')
                end) (n_kids x) h2) (fun h => mbind (load h q) (fun _ => MDone (hdel q h))))).
  unfold load at 1. rewrite Q2. cbn [mbind n_kids].
  assert (X : h_delete (S fuel) h2 r = MBad). { cbn [h_delete]. unfold load at 1. rewrite O2; [reflexivity|]. right. apply in_or_app. left. left. reflexivity. }
  rewrite X. reflexivity.
Qed.
Lemma trie_copy_refuted : exists ws,
  let '(p, h) := match h_build (fun l => fold_right N.max 0 l + 1) ws [] with MDone x => x | _ => (0, []) end in
  mbind (h_copy (fun l => fold_right N.max 0 l + 1) h p) (fun '(q, h) => mbind (h_delete 9 h p) (fun h => h_delete 9 h q)) = MBad /\
  mbind (h_delete 9 h p) (fun h => MDone h) = MDone [].
Proof. exists [[83; 84]]. vm_compute. split; reflexivity. Qed.
Lemma max_fresh : fresh (fun l => fold_right N.max 0 l + 1).
Proof.
  intros l H. assert (K : forall x, In x l -> x <= fold_right N.max 0 l); [|specialize (K _ H); lia].
  clear H. induction l as [|y l IH]; intros x; [intros []|]. cbn [fold_right]. intros [->|H]; [lia|]. specialize (IH x H). lia.
Qed.
