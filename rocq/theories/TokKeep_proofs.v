(** What is kept of an address made of letters, digits and separators. *)
From Coq Require Import String List NArith Bool Lia Arith.
From Verif Require Import Base_model Class_model Uni_model Token_model Lexicon_model Tokenizer_model Lexicon_spec Tokenizer_spec TokPieces_proofs TokSplit_proofs.
Import ListNotations.
Local Open Scope N_scope.

Section K.
Variables (u : uni) (x : lexicon).
Lemma alnum_run : forall t, exists w r, t = w ++ r /\ Forall (alnum u) w /\ match r with c :: _ => ~ alnum u c | [] => True end.
Proof.
  induction t as [|c t IH]; [exists [], []; auto|]. destruct (u_alpha u c || u_digit u c) eqn:E.
  - destruct IH as (w & r & -> & F & H). exists (c :: w), r. split; [reflexivity|]. split; [|exact H]. constructor; [|exact F]. apply orb_true_iff in E. exact E.
  - exists [], (c :: t). split; [reflexivity|]. split; [constructor|]. unfold alnum. rewrite <- orb_true_iff. congruence.
Qed.
Lemma starts_readable : forall t, clear_text u t -> starts u t -> readable u x t.
Proof.
  intros t C (b & c & r & E & B & A). destruct (alnum_run (c :: r)) as (w & q & Ew & F & H).
  assert (Nw : w <> []). { intros ->. simpl in Ew. rewrite <- Ew in H. contradiction. }
  exists b, w, q. split; [rewrite E, Ew; reflexivity|]. split; [exact B|]. split; [right; right; left; auto|]. split.
  - rewrite <- Ew. simpl. destruct (C c) as [(_ & _ & K & _)|(_ & K)]; [rewrite E; apply in_elt|exact K|contradiction].
  - destruct q as [|d q]; [exact I|]. left. destruct (C d) as [(K & _)|(K & _)]; [|contradiction|exact K]. rewrite E, Ew. rewrite !in_app_iff. simpl. tauto.
Qed.
Lemma clear_sub : forall a b, clear_text u (a ++ b) -> clear_text u b.
Proof. intros a b H c Hc. apply H, in_app_iff. auto. Qed.
Lemma all_read : forall ps left t, t = concat (map taken ps) ++ left -> well_read u x ps left -> left = [] \/ ~ readable u x left -> clear_text u t ->
  t = [] \/ starts u t -> left = [] /\ Forall (fun p => pc_skip p = []) ps.
Proof.
  induction ps as [|p ps IH]; intros left t E W L C S.
  - simpl in E. subst left. split; [|constructor]. destruct S as [S|S]; [exact S|]. destruct L as [L|L]; [exact L|]. exfalso. apply L, starts_readable; assumption.
  - cbn [well_read] in W. destruct W as (Sk & (b & Eo & _) & _ & Sp & W). rewrite <- E in Sk. cbn [map concat] in E. rewrite <- app_assoc in E.
    assert (Sk0 : pc_skip p = []).
    { destruct Sk as [K|(_ & K)]; [exact K|]. destruct S as [S|S]; [|exfalso; apply K, starts_readable; assumption].
      rewrite S in E. symmetry in E. apply app_eq_nil in E. destruct E as (E & _). unfold taken in E. apply app_eq_nil in E. apply E. }
    remember (concat (map taken ps) ++ left) as rest eqn:Erest. assert (Cr : clear_text u rest) by (rewrite E in C; apply clear_sub in C; exact C).
    destruct (IH left rest Erest W L Cr) as (H1 & H2); [|split; [exact H1|constructor; assumption]].
    destruct Sp as [(_ & K)|[(_ & _ & K)|(c & Ec & D & NS)]]; [left; exact K| |].
    + destruct rest as [|d rest]; [left; reflexivity|right]. exists [], d, rest. split; [reflexivity|]. split; [constructor|].
      destruct (Cr d) as [(Q & _)|(Q & _)]; [left; reflexivity|exact Q|contradiction].
    + exfalso. destruct (C c) as [(_ & _ & Q & _)|(Q & _)]; [|contradiction|contradiction].
      rewrite E. apply in_app_iff. left. unfold taken. rewrite Eo, Ec, !in_app_iff. simpl. tauto.
Qed.
Lemma carries_in : forall w t c, carries u x w t -> In c w -> c <> 44 -> In c t.
Proof.
  intros w t c [(_ & ->)|(_ & a & b & -> & _ & ->)] H N; [exact H|]. rewrite in_app_iff in *. destruct H as [H|[H|H]]; [auto|congruence|right; right; exact H].
Qed.
Lemma made_in : forall ws ks c, Forall2 (made_from u x I_WORD) ws ks -> (exists v, In v ws /\ In c v) -> c <> 44 -> exists k, In k ks /\ In c (t_text k).
Proof.
  intros ws ks c F (v & Hv & Hc) N. induction F as [|w k ws ks (H & _) F IH]; [destruct Hv|]. destruct Hv as [->|Hv].
  - exists k. split; [left; reflexivity|]. apply (carries_in v); assumption.
  - destruct (IH Hv) as (k' & H1 & H2). exists k'. split; [right; exact H1|exact H2].
Qed.
Lemma seps_in : forall ps left p c, well_read u x ps left -> In p ps -> In c (pc_sep p) -> sep_char u c \/ dash u c.
Proof.
  induction ps as [|q ps IH]; intros left p c W Hp Hc; [destruct Hp|]. cbn [well_read] in W. destruct W as (_ & _ & _ & Sp & W).
  destruct Hp as [->|Hp]; [|eapply IH; eassumption]. destruct Sp as [(K & _)|[(_ & F & _)|(d & K & D & _)]].
  - rewrite K in Hc. destruct Hc.
  - left. rewrite Forall_forall in F. apply F. exact Hc.
  - rewrite K in Hc. destruct Hc as [<-|[]]. right. exact D.
Qed.
End K.
Lemma group_in : forall u x ps groups p, Forall2 (tokens_of u x) ps groups -> In p ps -> exists g, In g groups /\ tokens_of u x p g.
Proof.
  intros u x ps groups p F H. induction F as [|q g ps groups T F IH]; [destruct H|]. destruct H as [->|H].
  - exists g. split; [left; reflexivity|exact T].
  - destruct (IH H) as (g' & H1 & H2). exists g'. split; [right; exact H1|exact H2].
Qed.
Lemma letters_kept : forall e x str ks, built x -> simple_words x -> plain_blank (e_uni e) -> ~ In TAB (search_text e x str) ->
  blank_lines (e_uni e) (search_text e x str) -> clear_text (e_uni e) (search_text e x str) -> starts (e_uni e) (search_text e x str) ->
  all_tokens e x str = Ok ks -> forall c, In c (search_text e x str) -> alnum (e_uni e) c -> exists k, In k ks /\ In c (t_text k).
Proof.
  intros e x str ks B SW PB T BL C S H c Hc Ha. set (u := e_uni e) in *. set (t := search_text e x str) in *.
  destruct (tokens_made e x str B PB T BL) as [K|(ps & groups & Ep & Ek & F)]; [congruence|]. rewrite H in Ek. injection Ek as ->.
  destruct (pieces_read e x str ps B SW BL Ep) as (left & El & W & L). fold t u in El, W, L.
  destruct (all_read u x ps left t El W L C (or_intror S)) as (-> & Fs). rewrite app_nil_r in El.
  assert (Hc' := Hc). rewrite El in Hc'. apply in_concat in Hc'. destruct Hc' as (w & Hw & Hcw). apply in_map_iff in Hw. destruct Hw as (p & <- & Hp).
  rewrite Forall_forall in Fs. unfold taken in Hcw. rewrite (Fs p Hp) in Hcw. simpl in Hcw.
  assert (Cc : ~ sep_char u c /\ ~ dash u c /\ c <> 44). { destruct (C c Hc) as [(_ & K)|(_ & K)]; [exact K|contradiction]. }
  destruct Cc as (N1 & N2 & N3).
  assert (Ord : in_order u p). { destruct (pieces_order e x str ps B Ep) as (l' & _ & Fo). rewrite Forall_forall in Fo. apply (Fo p Hp). }
  destruct Ord as (b & Eb & Bb). rewrite Eb, !in_app_iff in Hcw. destruct Hcw as [K|[K|K]].
  - exfalso. apply N1. unfold blanks in Bb. rewrite Forall_forall in Bb. right. right. right. left. apply Bb. exact K.
  - destruct (group_in u x ps groups p F Hp) as (g & Hg & k1 & k2 & -> & [(Q & _)|[(k & _ & -> & Mk & _)|(w' & ws & _ & Cw & Pw & Fw)]] & _); [rewrite Q in K; destruct K| |].
    { exists k. split; [|exact (carries_in u x _ _ c Mk K N3)]. apply in_concat. exists ([k] ++ k2). split; [exact Hg|left; reflexivity]. }
    assert (K' := carries_in u x _ _ c Cw K N3). destruct (made_in u x ws k1 c Fw (parts_in _ _ _ Pw K') N3) as (k & Hk & Hck).
    exists k. split; [|exact Hck]. apply in_concat. exists (k1 ++ k2). split; [exact Hg|]. apply in_app_iff. left. exact Hk.
  - exfalso. destruct (seps_in u x ps [] p c W Hp K); contradiction.
Qed.
