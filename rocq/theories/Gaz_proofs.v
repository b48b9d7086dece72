(** The converted words of PAGC (C121). *)
From Coq Require Import String List NArith ZArith Bool Lia Sorted.
From Verif Require Import Base_model Class_model Class_spec Class_proofs Uni_model Token_model Lexicon_model Lexicon_spec LexText_spec LexLoad_proofs LexFile_spec LexFile_proofs
  Search_proofs TextOrder_spec TextOrder_proofs Pattern_proofs Tools_model Tools_proofs Pagc_model Pagc_spec Pagc_proofs Gaz_model Gaz_spec.
Import ListNotations.
Local Open Scope N_scope.

(** ** Lines *)
Lemma drop_repeat : forall n l, (l = [] \/ hd [] l <> []) -> drop_empty (repeat [] n ++ l) = l.
Proof. intros n l H. induction n as [|n IH]; [|exact IH]. cbn [repeat app]. destruct l as [|[|c t] l]; [reflexivity| |reflexivity]. destruct H as [H|H]; [discriminate H|]. cbn in H. congruence. Qed.
Lemma rev_repeat : forall (n : nat), rev (repeat (@nil N) n) = repeat [] n.
Proof. induction n as [|n IH]; [reflexivity|]. cbn [repeat rev]. rewrite IH. clear IH. induction n as [|n IH]; [reflexivity|]. cbn [repeat app]. rewrite IH. reflexivity. Qed.
Lemma last_rev : forall (l : list text) d, hd d (rev l) = last l d.
Proof. intros l d. induction l as [|x l _] using rev_ind; [reflexivity|]. rewrite rev_app_distr, last_last. reflexivity. Qed.
Lemma used_fields : forall l cs, used l cs -> tab_fields l = cs.
Proof.
  intros l cs (n & C & L). unfold tab_fields. change TAB with 9. rewrite (columns_fun _ _ _ _ (fields_columns 9 l) C), rev_app_distr, rev_repeat, drop_repeat; [apply rev_involutive|].
  destruct L as [->|L]; [left; reflexivity|right; rewrite last_rev; exact L].
Qed.
Definition cname (r : row) : text := perl_at gaz_names (Z.of_N (w_code r)).
Definition rkey (r : row) : text := gaz_key (w_word r) (w_std r).
Definition put_row (re : text -> text -> bool) (h : option (list (text * gaz_entry))) (r : row) : option (list (text * gaz_entry)) :=
  match h with Some m => gaz_put re (rkey r) (w_word r) (w_std r) (cname r) m | None => None end.
Lemma line_put : forall re h r l, row_line r l -> gaz_line re h l = put_row re h r.
Proof. intros re h r l (a & c & U & M). unfold gaz_line. rewrite (used_fields _ _ U), (numeral_int _ _ M). destruct h; reflexivity. Qed.
Lemma line_skip : forall re h l, not_four l -> gaz_line re h l = h.
Proof. intros re h l (cs & U & L). unfold gaz_line. rewrite (used_fields _ _ U). destruct h; [|reflexivity]. destruct cs as [|a [|b [|c [|d [|x cs]]]]]; try reflexivity. cbn in L. congruence. Qed.
Lemma lines_put : forall re rs ls, row_lines rs ls -> forall h, fold_left (gaz_line re) ls h = fold_left (put_row re) rs h.
Proof.
  intros re rs ls H. induction H as [|l rs ls K H IH|r l rs ls K H IH]; intros h; [reflexivity| |]; cbn [fold_left].
  - rewrite (line_skip re h l K). apply IH.
  - rewrite (line_put re h r l K). apply IH.
Qed.
Lemma last_put : forall re ls h, fold_left (gaz_line re) (match rev ls with [] :: r => rev r | _ => ls end) h = fold_left (gaz_line re) ls h.
Proof.
  intros re ls h. destruct (rev ls) as [|[|c l] r] eqn:E; [reflexivity| |reflexivity]. assert (L : ls = rev r ++ [[]]) by (rewrite <- (rev_involutive ls), E; reflexivity).
  rewrite L, fold_left_app. cbn [fold_left]. unfold gaz_line at 2. cbn. destruct (fold_left (gaz_line re) (rev r) h); reflexivity.
Qed.
Lemma files_put : forall re rss ts, Forall2 row_file rss ts -> forall h, fold_left (gaz_line re) (flat_map file_lines ts) h = fold_left (put_row re) (concat rss) h.
Proof.
  intros re rss ts H. induction H as [|rs t rss ts (ls & C & L) H IH]; intros h; [reflexivity|]. cbn [flat_map concat]. rewrite !fold_left_app, IH. f_equal.
  unfold file_lines. rewrite last_put. change LF with 10. rewrite (columns_fun _ _ _ _ (fields_columns 10 t) C). apply lines_put. exact L.
Qed.
Lemma columns_none : forall d t cs, columns d t cs -> Forall (fun c => ~ In d c) cs.
Proof. intros d t cs H. induction H; constructor; auto. Qed.
Lemma columns_sub : forall d x t cs c, columns d t cs -> In c cs -> In x c -> In x t.
Proof.
  intros d x t cs c H. induction H as [t H|a t cs H C IH]; intros K X; [destruct K as [<-|[]]; exact X|]. apply in_app_iff. destruct K as [<-|K]; [left; exact X|right; right; exact (IH K X)].
Qed.
Definition clean (t : text) : Prop := ~ In 9 t /\ ~ In 10 t.
Lemma row_clean : forall r l, row_line r l -> ~ In 10 l -> clean (w_word r) /\ clean (w_std r).
Proof.
  intros r l (a & c & (n & C & _) & _) L. pose proof (columns_none _ _ _ C) as F. rewrite Forall_forall in F.
  assert (K : forall w, In w [a; w_word r; c; w_std r] -> clean w).
  { intros w K. assert (K' : In w ([a; w_word r; c; w_std r] ++ repeat [] n)) by (apply in_app_iff; left; exact K). split; [exact (F w K')|].
    intros X. apply L. exact (columns_sub _ _ _ _ _ C K' X). }
  split; apply K; cbn; auto.
Qed.
Lemma file_clean : forall rs t, row_file rs t -> Forall (fun r => clean (w_word r) /\ clean (w_std r)) rs.
Proof.
  intros rs t (ls & C & L). pose proof (columns_none _ _ _ C) as F. clear C. induction L as [|l rs ls K L IH|r l rs ls K L IH]; [constructor| |]; inversion F as [|? ? F1 F2]; subst.
  - exact (IH F2).
  - constructor; [exact (row_clean r l K F1)|exact (IH F2)].
Qed.
(** ** The hash *)
Definition key_lt (a b : text * gaz_entry) : Prop := text_lt (fst a) (fst b).
Lemma lt_trans : forall a b, text_lt a b -> forall c, text_lt b c -> text_lt a c.
Proof.
  intros a b H. induction H as [c t|c d a b H|c a b H IH]; intros x K.
  - inversion K; subst; constructor.
  - inversion K; subst; constructor; lia.
  - inversion K as [|? ? ? ? Q|? ? ? Q]; subst; [constructor; exact Q|apply tl_next; exact (IH _ Q)].
Qed.
Definition put_to (k w s c : text) (l : list (text * gaz_entry)) (k' : text) (v' : gaz_entry) : Prop :=
  (k' <> k /\ In (k', v') l) \/
  (k' = k /\ ((exists v, In (k, v) l /\ v' = mkGaz (gz_word v) (gz_std v) (gz_classes v ++ [c])) \/ ((forall v, ~ In (k, v) l) /\ v' = mkGaz w s [c]))).
Lemma put_ok : forall re k w s c l, StronglySorted key_lt l -> (forall v, In (k, v) l -> re s (gz_std v) = true) ->
  exists l', gaz_put re k w s c l = Some l' /\ StronglySorted key_lt l' /\ forall k' v', In (k', v') l' <-> put_to k w s c l k' v'.
Proof.
  intros re k w s c l H. induction H as [|(k0, v0) l H IH F]; intros R.
  - exists [(k, mkGaz w s [c])]. split; [reflexivity|]. split; [repeat constructor|]. intros k' v'. unfold put_to. cbn [In]. split.
    + intros [E|[]]. injection E as <- <-. right. split; [reflexivity|]. right. split; [intros v []|reflexivity].
    + intros [(_ & [])|(-> & [(v & [] & _)|(_ & ->)])]. left. reflexivity.
  - cbn [gaz_put]. rewrite Forall_forall in F. assert (NK : forall k1 v1, In (k1, v1) l -> text_lt k0 k1) by (intros k1 v1 K; exact (F _ K)).
    destruct (teqb k k0) eqn:E.
    + apply teqb_eq in E. subst k0. rewrite (R v0 (or_introl eq_refl)). eexists. split; [reflexivity|].
      assert (NI : forall v, ~ In (k, v) l) by (intros v K; exact (lt_irrefl _ (NK k v K))). split.
      * constructor; [exact H|]. apply Forall_forall. intros x K. exact (F x K).
      * intros k' v'. unfold put_to. cbn [In]. split.
        -- intros [Q|Q]; [injection Q as <- <-; right; split; [reflexivity|]; left; exists v0; split; [left; reflexivity|reflexivity]|].
           left. split; [|right; exact Q]. intros ->. exact (NI v' Q).
        -- intros [(N1 & [Q|Q])|(-> & [(v & [Q|Q] & ->)|(Q & ->)])].
           ++ injection Q as <- <-. congruence.
           ++ right. exact Q.
           ++ injection Q as <-. left. reflexivity.
           ++ destruct (NI v Q).
           ++ destruct (Q v0). left. reflexivity.
    + assert (E' : k <> k0) by (intros ->; rewrite (proj2 (teqb_eq k0 k0) eq_refl) in E; discriminate E). destruct (tltb k k0) eqn:L.
      * apply tltb_lt in L. eexists. split; [reflexivity|].
        assert (NI : forall v, ~ In (k, v) ((k0, v0) :: l)).
        { intros v [K|K]; [injection K as K _; congruence|]. apply (lt_asym k k0 L). exact (NK k v K). } split.
        -- constructor; [constructor; [exact H|apply Forall_forall; exact F]|]. constructor; [exact L|]. apply Forall_forall. intros x K. exact (lt_trans _ _ L _ (F x K)).
        -- intros k' v'. unfold put_to. split.
           ++ intros [Q|Q]; [injection Q as <- <-; right; split; [reflexivity|]; right; split; [exact NI|reflexivity]|]. left. split; [|exact Q]. intros ->. exact (NI v' Q).
           ++ intros [(_ & Q)|(-> & [(v & Q & _)|(_ & ->)])]; [right; exact Q|destruct (NI v Q)|left; reflexivity].
      * assert (G : text_lt k0 k). { destruct (lt_total k k0) as [Q|[Q|Q]]; [|congruence|exact Q]. apply tltb_lt in Q. congruence. }
        destruct (IH (fun v K => R v (or_intror K))) as (l2 & P & S2 & I2). rewrite P. eexists. split; [reflexivity|]. split.
        -- constructor; [exact S2|]. apply Forall_forall. intros (k1, v1) K. apply I2 in K. destruct K as [(_ & K)|(-> & _)]; [exact (F _ K)|exact G].
        -- intros k' v'. cbn [In]. rewrite I2. unfold put_to. cbn [In]. split.
           ++ intros [Q|[(N1 & Q)|(-> & [(v & Q & ->)|(Q & ->)])]].
              ** injection Q as <- <-. left. split; [congruence|left; reflexivity].
              ** left. split; [exact N1|right; exact Q].
              ** right. split; [reflexivity|]. left. exists v. split; [right; exact Q|reflexivity].
              ** right. split; [reflexivity|]. right. split; [|reflexivity]. intros v [K|K]; [injection K as K _; congruence|exact (Q v K)].
           ++ intros [(N1 & [Q|Q])|(-> & [(v & [Q|Q] & ->)|(Q & ->)])].
              ** left. exact Q.
              ** right. left. split; [exact N1|exact Q].
              ** injection Q as Q _. congruence.
              ** right. right. split; [reflexivity|]. left. exists v. split; [exact Q|reflexivity].
              ** right. right. split; [reflexivity|]. right. split; [|reflexivity]. intros v K. apply (Q v). right. exact K.
Qed.
Lemma key_inj : forall w s w' s', ~ In 9 w -> ~ In 9 w' -> gaz_key w s = gaz_key w' s' -> w = w' /\ s = s'.
Proof.
  unfold gaz_key. change TAB with 9. intros w. induction w as [|c w IH]; intros s w' s' H H' E; destruct w' as [|d w']; cbn [app] in E.
  - injection E as E2. split; [reflexivity|exact E2].
  - injection E as E1 E2. subst. destruct H'. left. reflexivity.
  - injection E as E1 E2. subst. destruct H. left. reflexivity.
  - injection E as E1 E2. subst d. destruct (IH s w' s') as (-> & ->); [intros K; apply H; right; exact K|intros K; apply H'; right; exact K|exact E2|]. split; reflexivity.
Qed.
Definition alike (w s : text) (r : row) : Prop := w_word r = w /\ w_std r = s.
(** What the hash holds after some rows. *)
Definition holds (rs : list row) (l : list (text * gaz_entry)) : Prop :=
  StronglySorted key_lt l /\
  (forall k v, In (k, v) l -> k = gaz_key (gz_word v) (gz_std v) /\ clean (gz_word v) /\ clean (gz_std v) /\ gz_classes v <> [] /\ (exists r, In r rs /\ alike (gz_word v) (gz_std v) r) /\
     forall n, In n (gz_classes v) <-> exists r, In r rs /\ alike (gz_word v) (gz_std v) r /\ n = cname r) /\
  (forall r, In r rs -> exists v, In (rkey r, v) l).
Lemma rows_hold : forall re rs, Forall (fun r => clean (w_word r) /\ clean (w_std r)) rs -> Forall (fun r => re (w_std r) (w_std r) = true) rs ->
  exists l, fold_left (put_row re) rs (Some []) = Some l /\ holds rs l.
Proof.
  intros re rs. induction rs as [|r rs IH] using rev_ind; intros C R.
  - exists []. split; [reflexivity|]. split; [constructor|]. split; [intros k v []|intros r []].
  - apply Forall_app in C. destruct C as (C & Cr). apply Forall_app in R. destruct R as (R & Rr). apply Forall_inv in Cr, Rr. destruct Cr as (Cw & Cs).
    destruct (IH C R) as (l & E & S1 & H & A). rewrite fold_left_app, E. cbn [fold_left put_row].
    assert (V : forall v, In (rkey r, v) l -> gz_word v = w_word r /\ gz_std v = w_std r).
    { intros v K. destruct (H _ _ K) as (Q & (K1 & _) & _). destruct (key_inj (w_word r) (w_std r) (gz_word v) (gz_std v)) as (-> & ->); [apply Cw|exact K1|exact Q|]. split; reflexivity. }
    destruct (put_ok re (rkey r) (w_word r) (w_std r) (cname r) l S1) as (l' & P & S2 & I2); [intros v K; destruct (V v K) as (_ & ->); exact Rr|].
    exists l'. split; [exact P|]. split; [exact S2|]. split.
    + intros k v K. apply I2 in K. destruct K as [(N1 & K)|(-> & [(v1 & K & ->)|(Q & ->)])].
      * destruct (H _ _ K) as (H1 & H2 & H3 & H4 & (r1 & H5 & H6) & H7). split; [exact H1|]. split; [exact H2|]. split; [exact H3|]. split; [exact H4|].
        split; [exists r1; split; [apply in_app_iff; left; exact H5|exact H6]|]. intros n. rewrite H7. split.
        -- intros (x & X1 & X2). exists x. split; [apply in_app_iff; left; exact X1|exact X2].
        -- intros (x & X1 & X2). exists x. split; [|exact X2]. apply in_app_iff in X1. destruct X1 as [X1|[<-|[]]]; [exact X1|]. exfalso. apply N1. rewrite H1.
           destruct X2 as ((X2 & X3) & _). unfold rkey. congruence.
      * destruct (H _ _ K) as (H1 & H2 & H3 & H4 & (r1 & H5 & H6) & H7). cbn [gz_word gz_std gz_classes]. split; [exact H1|]. split; [exact H2|]. split; [exact H3|]. split; [destruct (gz_classes v1); discriminate|].
        split; [exists r1; split; [apply in_app_iff; left; exact H5|exact H6]|]. intros n. rewrite in_app_iff, H7. cbn [In]. destruct (V v1 K) as (V1 & V2). split.
        -- intros [(x & X1 & X2)|[<-|[]]]; [exists x; split; [apply in_app_iff; left; exact X1|exact X2]|]. exists r. split; [apply in_app_iff; right; left; reflexivity|]. split; [split; congruence|reflexivity].
        -- intros (x & X1 & X2 & ->). apply in_app_iff in X1. destruct X1 as [X1|[<-|[]]]; [left; exists x; auto|right; left; reflexivity].
      * cbn [gz_word gz_std gz_classes]. split; [reflexivity|]. split; [exact Cw|]. split; [exact Cs|]. split; [discriminate|].
        split; [exists r; split; [apply in_app_iff; right; left; reflexivity|split; reflexivity]|]. intros n. cbn [In]. split.
        -- intros [<-|[]]. exists r. split; [apply in_app_iff; right; left; reflexivity|]. split; [split; reflexivity|reflexivity].
        -- intros (x & X1 & (X2 & X3) & ->). apply in_app_iff in X1. destruct X1 as [X1|[<-|[]]]; [|left; reflexivity]. exfalso. destruct (A x X1) as (v & K). apply (Q v). unfold rkey in *. rewrite <- X2, <- X3. exact K.
    + intros x X. apply in_app_iff in X. destruct (list_eq_dec N.eq_dec (rkey x) (rkey r)) as [Q|Q].
      * rewrite Q. destruct (find (fun kv => teqb (rkey r) (fst kv)) l) as [(k, v)|] eqn:Fd.
        -- apply find_some in Fd. destruct Fd as (K & T). cbn [fst] in T. apply teqb_eq in T. subst k. eexists. apply I2. right. split; [reflexivity|]. left. exists v. split; [exact K|reflexivity].
        -- eexists. apply I2. right. split; [reflexivity|]. right. split; [|reflexivity]. intros v K. pose proof (find_none _ _ Fd _ K) as T. cbn [fst] in T. rewrite (proj2 (teqb_eq _ _) eq_refl) in T. discriminate T.
      * destruct X as [X|[<-|[]]]; [|congruence]. destruct (A x X) as (v & K). exists v. apply I2. left. split; [exact Q|exact K].
Qed.
(** ** Lines of the lexicon *)
Lemma cname_ok : forall r c, numbered (w_code r) c -> cname r = in_str c /\ c <> I_BADTOKEN.
Proof.
  intros r c (L & E). unfold cname. rewrite <- E. assert (K : (in_code c <= 33)%Z) by lia. assert (K0 : (0 <= in_code c)%Z) by lia.
  destruct c; cbn in K, K0; try lia; split; first [vm_compute; reflexivity|discriminate].
Qed.
Lemma numbered_inj : forall n c c', numbered n c -> numbered n c' -> c = c'.
Proof. intros n c c' (_ & A) (_ & B). rewrite <- B in A. destruct c, c'; try reflexivity; discriminate A. Qed.
Lemma in_no_comma : forall c, ~ In 44 (in_str c).
Proof. intros c K. assert (E : existsb (N.eqb 44) (in_str c) = true) by (apply existsb_exists; exists 44; split; [exact K|reflexivity]). destruct c; vm_compute in E; discriminate E. Qed.
Lemma in_no_tab : forall c, ~ In 9 (in_str c).
Proof. intros c K. assert (E : existsb (N.eqb 9) (in_str c) = true) by (apply existsb_exists; exists 9; split; [exact K|reflexivity]). destruct c; vm_compute in E; discriminate E. Qed.
Lemma padded_self : forall n, padded n n.
Proof. intros n. exists [], []. cbn [app]. rewrite app_nil_r. repeat split; constructor. Qed.
Lemma named_join : forall cs c, cs <> [] -> (named (join [44] (map in_str cs)) c <-> In c cs).
Proof.
  intros cs c N0. assert (C : columns 44 (join [44] (map in_str cs)) (map in_str cs)).
  { apply join_columns; [destruct cs; [congruence|discriminate]|]. apply Forall_forall. intros t K. apply in_map_iff in K. destruct K as (x & <- & _). apply in_no_comma. }
  split.
  - intros (ps & p & Cp & K & D). rewrite (columns_fun _ _ _ _ Cp C) in K. apply in_map_iff in K. destruct K as (c' & <- & K).
    destruct D as [D|(_ & _ & D)]; [|destruct (D c'); apply padded_self]. pose proof (solid_trim _ _ (in_solid c) D) as T. rewrite (solid_trim _ _ (in_solid c') (padded_self _)) in T.
    apply in_str_inj in T. subst c'. exact K.
  - intros K. exists (map in_str cs), (in_str c). split; [exact C|]. split; [apply in_map; exact K|]. left. apply padded_self.
Qed.
Definition EN : text := s2t "en_US".
Lemma no_att : forall a, ~ att_named [] a.
Proof.
  intros a (cs & p & C & K & P). assert (cs = [[]]) as -> by (eapply columns_fun; [exact C|apply col_last; intros []]). destruct K as [<-|[]].
  destruct P as (x & y & E & _). pose proof (att_solid a) as S1. symmetry in E. apply app_eq_nil in E. destruct E as (_ & E). apply app_eq_nil in E. destruct E as (E & _).
  destruct a; discriminate E.
Qed.
Definition written_line (w s : text) (cs : list intype) : text := s2t "LEXENTRY:" ++ 9 :: w ++ 9 :: s ++ 9 :: join [44] (map in_str cs) ++ [9].
Lemma line_columns : forall w s cs, ~ In 9 w -> ~ In 9 s -> columns 9 (written_line w s cs) [s2t "LEXENTRY:"; w; s; join [44] (map in_str cs); []].
Proof.
  intros w s cs H1 H2. unfold written_line. apply col_more; [cbn; intuition discriminate|]. apply col_more; [exact H1|]. apply col_more; [exact H2|].
  apply (col_more 9 (join [44] (map in_str cs)) []); [|apply col_last; intros []]. apply (join_no 9); [discriminate|]. apply Forall_forall. intros t K. apply in_map_iff in K. destruct K as (c & <- & _). apply in_no_tab.
Qed.
Lemma line_body : forall e w s cs le, clean w -> clean s -> single_blanks w -> single_blanks s -> settled e EN (written_line w s cs) -> cs <> [] -> ~ In I_BADTOKEN cs ->
  (body_line e EN (written_line w s cs) le <-> le_word le = w /\ le_std le = s /\ le_att le = [] /\ is_inset (le_type le) /\ forall c, In c (le_type le) <-> In c cs).
Proof.
  intros e w s cs le (W1 & W2) (S1 & S2) B1 B2 (T1 & T2) N0 NB. pose proof (line_columns w s cs W1 S1) as C.
  assert (SB : single_blanks (written_line w s cs)).
  { unfold written_line. apply single_app; [apply no_blank_single; cbn; intuition discriminate| |discriminate]. apply single_app; [exact B1| |discriminate]. apply single_app; [exact B2| |discriminate].
    apply single_app; [|intros a b E; destruct a; discriminate E|discriminate]. apply no_blank_single. apply (join_no 32); [discriminate|]. apply Forall_forall. intros t K. apply in_map_iff in K. destruct K as (c & <- & _). apply in_str_none. auto. }
  assert (M : norm e EN (written_line w s cs) = written_line w s cs) by (unfold norm, EN in *; cbn [s2t]; rewrite T1; apply T2; discriminate).
  assert (EO : forall x, entry_of (written_line w s cs) x <-> le_word x = w /\ le_std x = s /\ le_att x = [] /\ is_inset (le_type x) /\ forall c, In c (le_type x) <-> In c cs).
  { intros x. split.
    - intros (ds & ds' & D & K & X1 & X2 & X3 & X4 & X5 & X6). rewrite (columns_fun _ _ _ _ D C) in K. assert (ds' = [w; s; join [44] (map in_str cs); []]) as ->.
      { destruct K as [(K & _)|(_ & K)]; [injection K as <-; reflexivity|]. specialize (K eq_refl). discriminate K. }
      cbn [nth] in *. split; [exact X1|]. split; [exact X2|]. split; [|split; [exact X4|intros c; rewrite X3; apply named_join; exact N0]].
      destruct (le_att x) as [|a l]; [reflexivity|]. exfalso. apply (no_att a). apply X5. left. reflexivity.
    - intros (X1 & X2 & X3 & X4 & X5). exists [s2t "LEXENTRY:"; w; s; join [44] (map in_str cs); []], [w; s; join [44] (map in_str cs); []].
      split; [exact C|]. split; [left; split; [reflexivity|discriminate]|]. cbn [nth]. split; [exact X1|]. split; [exact X2|]. split; [intros c; rewrite X5; symmetry; apply named_join; exact N0|].
      split; [exact X4|]. rewrite X3. split; [|constructor]. intros a. split; [intros []|intros K; destruct (no_att a K)]. }
  split.
  - intros (t & O & _ & E & _). assert (t = written_line w s cs) as ->.
    { eapply one_fun; [exact O|]. rewrite <- (squeeze_id _ SB) at 2. apply squeeze_one. }
    rewrite M in E. apply EO. exact E.
  - intros X. exists (written_line w s cs). split; [rewrite <- (squeeze_id _ SB) at 2; apply squeeze_one|]. split; [left; eexists; reflexivity|]. rewrite M. split; [apply EO; exact X|].
    destruct X as (_ & _ & _ & _ & X). rewrite X. exact NB.
Qed.
(** ** The lexicon *)
Definition class_list (v : gaz_entry) (cs : list intype) : Prop := gz_classes v = map in_str cs /\ cs <> [] /\ ~ In I_BADTOKEN cs.
Lemma classes_of : forall rs l k v, Forall sound rs -> holds rs l -> In (k, v) l -> exists cs, class_list v cs.
Proof.
  intros rs l k v S1 (_ & H & _) K. destruct (H k v K) as (_ & _ & _ & N0 & _ & H7). rewrite Forall_forall in S1.
  assert (F : Forall (fun n => exists c, n = in_str c /\ c <> I_BADTOKEN) (gz_classes v)).
  { apply Forall_forall. intros n Kn. apply H7 in Kn. destruct Kn as (r & R1 & _ & ->). destruct (S1 r R1) as (c & Hc). exists c. apply cname_ok. exact Hc. }
  assert (G : forall ns, Forall (fun n => exists c, n = in_str c /\ c <> I_BADTOKEN) ns -> exists cs, ns = map in_str cs /\ ~ In I_BADTOKEN cs).
  { intros ns Fn. induction Fn as [|n ns (c & -> & Nc) Fn (cs & -> & Ncs)]; [exists []; split; [reflexivity|intros []]|]. exists (c :: cs). split; [reflexivity|]. intros [Q|Q]; [exact (Nc Q)|exact (Ncs Q)]. }
  destruct (G _ F) as (cs & E & Ncs). exists cs. split; [exact E|]. split; [|exact Ncs]. intros ->. rewrite E in N0. apply N0. reflexivity.
Qed.
Lemma text_line : forall v cs, class_list v cs -> gaz_text v = written_line (gz_word v) (gz_std v) cs.
Proof. intros v cs (E & _). unfold gaz_text, written_line. rewrite E. reflexivity. Qed.
Lemma header_is : header_of gaz_header (as_lang (s2t "USA")) EN.
Proof.
  exists (map s2t ["LEXICON:"; "pagc-converted"; "USA"; "en_US"; ""]%string). split; [|split; [reflexivity|split; reflexivity]].
  change gaz_header with (join [9] (map s2t ["LEXICON:"; "pagc-converted"; "USA"; "en_US"; ""]%string)). apply join_columns; [discriminate|].
  repeat (apply Forall_cons; [cbn; intuition discriminate|]). apply Forall_nil.
Qed.
Lemma sorted_same_key : forall l k v v', StronglySorted key_lt l -> In (k, v) l -> In (k, v') l -> v = v'.
Proof.
  intros l k v v' H. induction H as [|x l H IH F]; intros A B; [destruct A|]. rewrite Forall_forall in F.
  destruct A as [->|A], B as [B|B].
  - injection B as ->. reflexivity.
  - destruct (lt_irrefl k). exact (F _ B).
  - subst x. destruct (lt_irrefl k). exact (F _ A).
  - exact (IH A B).
Qed.
Lemma words_load : forall e re name rss ts, Forall2 row_file rss ts -> Forall sound (concat rss) -> Forall (kept_words e) (concat rss) ->
  Forall (fun r => re (w_std r) (w_std r) = true) (concat rss) ->
  exists t y, convert_gaz re ts = Some t /\ load_lexicon e name t = Ok y /\ x_name y = name /\ header_of gaz_header (x_lang y) (x_locale y) /\ x_locale y = s2t "en_US" /\
    (forall w le, In le (lex_find y w) <-> le_word le = w /\ entry_from (concat rss) le) /\ (forall w, NoDup (lex_find y w)) /\
    forall w a b, before (lex_find y w) a b -> text_lt (le_std a) (le_std b).
Proof.
  intros e re name rss ts F S1 KW RE. assert (CL : Forall (fun r => clean (w_word r) /\ clean (w_std r)) (concat rss)).
  { clear - F. induction F as [|rs t rss ts H F IH]; [constructor|]. cbn [concat]. apply Forall_app. split; [exact (file_clean rs t H)|exact IH]. }
  unfold convert_gaz. rewrite (files_put re rss ts F). destruct (rows_hold re (concat rss) CL RE) as (l & E & HH). rewrite E. clear E F.
  clear RE. revert CL S1 KW HH. generalize (concat rss). intros rs CL S1 KW HH. pose proof HH as (SS & H & A).
  set (es := map (fun kv => gaz_text (snd kv)) l).
  assert (FT : gaz_header ++ LF :: flat_map (fun kv => gaz_text (snd kv) ++ [LF]) l = file ([] ++ gaz_header :: es) []).
  { cbn [app]. rewrite file_cons. change LF with 10. do 2 f_equal. unfold es, file. rewrite app_nil_r. clear. induction l as [|kv l IH]; [reflexivity|]. cbn [flat_map map concat]. rewrite IH. reflexivity. }
  rewrite FT.
  assert (LB : forall k v, In (k, v) l -> exists cs, class_list v cs /\ gaz_text v = written_line (gz_word v) (gz_std v) cs /\ ~ In 10 (gaz_text v) /\
     forall le, body_line e EN (gaz_text v) le <-> le_word le = gz_word v /\ le_std le = gz_std v /\ le_att le = [] /\ is_inset (le_type le) /\ forall c, In c (le_type le) <-> In c cs).
  { intros k v K. destruct (classes_of rs l k v S1 HH K) as (cs & Hc). exists cs. split; [exact Hc|]. pose proof (text_line v cs Hc) as T. split; [exact T|]. rewrite T.
    destruct (H k v K) as (_ & C1 & C2 & _ & (r & R1 & R2 & R3) & _). rewrite Forall_forall in KW. destruct (KW r R1) as (B1 & B2 & B3). rewrite R2 in B1, B3. rewrite R3 in B2, B3. split.
    - unfold written_line. destruct C1 as (_ & C1), C2 as (_ & C2). apply not_in_app; [cbn; intuition discriminate|discriminate|]. apply not_in_app; [exact C1|discriminate|].
      apply not_in_app; [exact C2|discriminate|]. apply not_in_app; [|discriminate|intros []]. apply (join_no 10); [discriminate|]. apply Forall_forall. intros t Kt. apply in_map_iff in Kt. destruct Kt as (c & <- & _). apply in_str_none. auto.
    - intros le. apply line_body; auto; [exact (B3 cs)|apply Hc|apply Hc]. }
  assert (OL : Forall one_line ([] ++ gaz_header :: es)).
  { cbn [app]. constructor; [intros K; assert (Q : existsb (N.eqb 10) gaz_header = true) by (apply existsb_exists; exists 10; split; [exact K|reflexivity]); vm_compute in Q; discriminate Q|].
    apply Forall_forall. intros t K. apply in_map_iff in K. destruct K as ((k, v) & <- & K). destruct (LB k v K) as (_ & _ & _ & Q & _). exact Q. }
  assert (HP : Forall (fun l => ~ is_header l) []) by constructor.
  assert (IH : is_header gaz_header) by (eexists; reflexivity).
  assert (NB : forall l0 p, @nil text = l0 :: p -> forall t, l0 <> 0xFEFF :: t) by (intros l0 p E0; discriminate E0).
  assert (CE : forall k v cs c, In (k, v) l -> class_list v cs -> (In c cs <-> exists r, In r rs /\ alike (gz_word v) (gz_std v) r /\ numbered (w_code r) c)).
  { intros k v cs c K Hc. destruct (H k v K) as (_ & _ & _ & _ & _ & H7). destruct Hc as (Hc & _). rewrite Forall_forall in S1. split.
    - intros Q. apply (in_map in_str) in Q. rewrite <- Hc in Q. apply H7 in Q. destruct Q as (r & R1 & R2 & R3). exists r. split; [exact R1|]. split; [exact R2|].
      destruct (S1 r R1) as (c' & Hc'). destruct (cname_ok r c' Hc') as (Q & _). rewrite <- R3 in Q. apply in_str_inj in Q. subst c'. exact Hc'.
    - intros (r & R1 & R2 & R3). destruct (cname_ok r c R3) as (Q & _). assert (Q2 : In (in_str c) (gz_classes v)) by (apply H7; exists r; auto).
      rewrite Hc in Q2. apply in_map_iff in Q2. destruct Q2 as (c' & Q2 & Q3). apply in_str_inj in Q2. subst c'. exact Q3. }
  destruct (proj2 (load_iff e name [] gaz_header es OL HP IH NB)) as (y & Y).
  { split; [constructor|]. exists (as_lang (s2t "USA")), EN. split; [exact header_is|]. apply Forall_forall. intros t K. right. apply in_map_iff in K. destruct K as ((k, v) & <- & K).
    destruct (LB k v K) as (cs & Hc & _ & _ & Q). exists (mkLE (gz_word v) (gz_std v) (as_type (join [44] (map in_str cs))) []). apply Q. cbn [le_word le_std le_att le_type].
    split; [reflexivity|]. split; [reflexivity|]. split; [reflexivity|]. split; [apply as_type_set|]. intros c. rewrite type_named. apply named_join. apply Hc. }
  destruct (load_entries e name [] gaz_header es y OL HP IH NB Y) as (Y1 & Y2 & _ & Y3 & Y4 & Y5).
  assert (Y6 : x_locale y = EN).
  { destruct Y2 as (cs & C & _ & L & _). destruct header_is as (cs' & C' & _ & L' & _). rewrite (columns_fun _ _ _ _ C C') in L. congruence. }
  rewrite Y6 in Y3, Y5. eexists. exists y. split; [reflexivity|]. split; [exact Y|]. split; [exact Y1|]. split; [exact Y2|]. split; [exact Y6|]. split; [|split; [exact Y4|]].
  - intros w le. rewrite Y3. split.
    + intros (W & t & Kt & B). split; [exact W|]. apply in_map_iff in Kt. destruct Kt as ((k, v) & <- & K). cbn [snd] in B. destruct (LB k v K) as (cs & Hc & _ & _ & Q). apply Q in B.
      destruct B as (B1 & B2 & B3 & B4 & B5). destruct (H k v K) as (_ & _ & _ & _ & (r & R1 & R2) & _). unfold entry_from. rewrite B1, B2.
      split; [exists r; split; [exact R1|exact R2]|]. split; [exact B3|]. split; [exact B4|]. intros c. rewrite B5, (CE k v cs c K Hc). unfold alike. split; intros (x & X); exists x; tauto.
    + intros (W & (r & R1 & R2 & R3) & B3 & B4 & B5). split; [exact W|]. destruct (A r R1) as (v & K). exists (gaz_text v). split; [apply in_map_iff; exists (rkey r, v); split; [reflexivity|exact K]|].
      destruct (LB _ v K) as (cs & Hc & _ & _ & Q). apply Q. destruct (H _ v K) as (H1 & (C1 & _) & _). rewrite Forall_forall in CL.
      assert (V : w_word r = gz_word v /\ w_std r = gz_std v).
      { apply key_inj; [apply (CL r R1)|exact C1|exact H1]. }
      destruct V as (V1 & V2). split; [congruence|]. split; [congruence|]. split; [exact B3|]. split; [exact B4|]. intros c. rewrite B5, (CE _ v cs c K Hc). unfold alike. rewrite <- V1, <- V2, R2, R3.
      split; intros (x & X); exists x; tauto.
  - intros w a b B. destruct (Y5 w a b B) as (l1 & t & l2 & E1 & B1 & B2).
    assert (Wa : le_word a = w) by (destruct B as (p & q & r & B); apply (Y3 w a); rewrite B; apply in_app_iff; right; left; reflexivity).
    assert (Wb : In b (lex_find y w)) by (destruct B as (p & q & r & B); rewrite B; apply in_app_iff; right; right; apply in_app_iff; right; left; reflexivity).
    apply Y3 in Wb. destruct Wb as (Wb & tb & Kb & Bb).
    assert (Kb2 : In tb l2). { rewrite E1 in Kb. apply in_app_iff in Kb. destruct Kb as [Kb|[<-|Kb]]; [destruct (B2 tb); [apply in_app_iff; left; exact Kb|exact Bb]|destruct (B2 t); [apply in_app_iff; right; left; reflexivity|exact Bb]|exact Kb]. }
    unfold es in E1. apply map_eq_app in E1. destruct E1 as (m1 & m2 & El & <- & E2). destruct m2 as [|(k, v) m2]; [discriminate E2|]. injection E2 as Et El2.
    rewrite <- El2 in Kb2. apply in_map_iff in Kb2. destruct Kb2 as ((k', v') & Ev & Kv'). cbn [snd] in Et, Ev. subst t tb.
    assert (I1 : In (k, v) l) by (rewrite El; apply in_app_iff; right; left; reflexivity). assert (I2 : In (k', v') l) by (rewrite El; apply in_app_iff; right; right; exact Kv').
    assert (LT : text_lt k k').
    { rewrite El in SS. clear - SS Kv'. induction m1 as [|x m1 IHm]; cbn [app] in SS; inversion SS as [|? ? SS' FF]; subst; [|exact (IHm SS')]. rewrite Forall_forall in FF. exact (FF _ Kv'). }
    destruct (LB k v I1) as (cs1 & _ & _ & _ & Q1). destruct (LB k' v' I2) as (cs2 & _ & _ & _ & Q2). apply Q1 in B1. apply Q2 in Bb. destruct B1 as (B1a & B1b & _), Bb as (Bba & Bbb & _).
    destruct (H k v I1) as (Ek & _). destruct (H k' v' I2) as (Ek' & _). rewrite B1b, Bbb. rewrite Ek, Ek' in LT. unfold gaz_key in LT. rewrite <- B1a, Wa, <- Bba, Wb in LT. apply lt_common in LT. inversion LT; subst; [lia|assumption].
Qed.

(** ** Examples *)
Lemma up_fixed : forall t, forallb (fun c => negb (a_lower c)) t = true -> map a_up t = t.
Proof.
  intros t H. rewrite forallb_forall in H. rewrite <- (map_id t) at 2. apply map_ext_in. intros c K. specialize (H c K). apply negb_true_iff in H. unfold a_up. rewrite H. reflexivity.
Qed.
Lemma join_upper : forall cs, forallb (fun c => negb (a_lower c)) (join [44] (map in_str cs)) = true.
Proof.
  assert (I0 : forall c, forallb (fun c => negb (a_lower c)) (in_str c) = true) by (intros c; destruct c; vm_compute; reflexivity).
  intros cs. induction cs as [|c cs IH]; [reflexivity|]. destruct cs as [|d cs]; [apply I0|]. change (join [44] (map in_str (c :: d :: cs))) with (in_str c ++ [44] ++ join [44] (map in_str (d :: cs))).
  rewrite !forallb_app, IH, I0. reflexivity.
Qed.
Lemma kept_upper : forall w s n, forallb (fun c => negb (a_lower c)) w = true -> forallb (fun c => negb (a_lower c)) s = true -> single_blanks w -> single_blanks s ->
  kept_words ascii_env (mkRow w n s).
Proof.
  intros w s n W S1 B1 B2. split; [exact B1|]. split; [exact B2|]. intros cs. split; [reflexivity|]. intros _. apply up_fixed. cbn [w_word w_std].
  rewrite !forallb_app. cbn [forallb]. rewrite !forallb_app. cbn [forallb]. rewrite !forallb_app. cbn [forallb]. rewrite forallb_app, W, S1, join_upper. reflexivity.
Qed.
Definition gz_rows : list row :=
  [mkRow (s2t "ST") 2 (s2t "STREET"); mkRow (s2t "ST") 7 (s2t "SAINT"); mkRow (s2t "PO BOX") 14 (s2t "PO BOX"); mkRow (s2t "ST") 1 (s2t "SAINT"); mkRow (s2t "ST") 7 (s2t "SAINT")].
Definition gz_text : text := Eval vm_compute in join [10] (map (fun l => join [9] (map s2t l))
  [["1"; "ST"; "2"; "STREET"]; ["2"; "ST"; "07"; "SAINT"]; ["CREATE TABLE lex"]; ["3"; "PO BOX"; "14"; "PO BOX"; ""; ""]; ["4"; "ST"; "2"; ""]; ["5"; "ST"; "1"; "SAINT"; "x"]; ["6"; "ST"; "1"; "SAINT"];
   ["7"; "ST"; "7"; "SAINT"]; [""]]%string).
Definition any_re (p t : text) : bool := true.
Lemma used_by : forall l cs n, fields 9 l = cs ++ repeat [] n -> (cs = [] \/ last cs [] <> []) -> used l cs.
Proof. intros l cs n E L. exists n. split; [|exact L]. pose proof (fields_columns 9 l) as C. unfold text in *. rewrite E in C. exact C. Qed.
Lemma num_by : forall n c, c <> [] -> forallb perl_digit c = true -> n = worth c -> numeral n c.
Proof.
  intros n c N0 D W. split; [exact N0|]. split; [|exact W]. apply Forall_forall. rewrite forallb_forall in D. intros x X. specialize (D x X). unfold perl_digit in D.
  apply andb_true_iff in D. destruct D as (D1 & D2). apply N.leb_le in D1, D2. split; assumption.
Qed.
Lemma gz_file : row_file gz_rows gz_text.
Proof.
  exists (fields 10 gz_text). split; [apply fields_columns|].
  assert (E : fields 10 gz_text = map (fun l => join [9] (map s2t l)) [["1"; "ST"; "2"; "STREET"]; ["2"; "ST"; "07"; "SAINT"]; ["CREATE TABLE lex"]; ["3"; "PO BOX"; "14"; "PO BOX"; ""; ""];
    ["4"; "ST"; "2"; ""]; ["5"; "ST"; "1"; "SAINT"; "x"]; ["6"; "ST"; "1"; "SAINT"]; ["7"; "ST"; "7"; "SAINT"]; [""]]%string) by (vm_compute; reflexivity). rewrite E. cbn [map].
  assert (R : forall a w c s n k l, fields 9 l = map s2t [a; w; c; s] ++ repeat [] k -> s2t s <> [] -> numeral n (s2t c) -> row_line (mkRow (s2t w) n (s2t s)) l).
  { intros a w c s n k l F N0 M. exists (s2t a), (s2t c). split; [|exact M]. apply (used_by _ _ k); [exact F|right; exact N0]. }
  assert (K : forall cs k l, fields 9 l = cs ++ repeat [] k -> (cs = [] \/ last cs [] <> []) -> List.length cs <> 4%nat -> not_four l).
  { intros cs k l F L N4. exists cs. split; [exact (used_by _ _ k F L)|exact N4]. }
  unfold gz_rows. apply wl_row; [apply (R "1" "ST" "2" "STREET" 2 0%nat)%string; [reflexivity|discriminate|apply num_by; [discriminate|reflexivity|reflexivity]]|].
  apply wl_row; [apply (R "2" "ST" "07" "SAINT" 7 0%nat)%string; [reflexivity|discriminate|apply num_by; [discriminate|reflexivity|reflexivity]]|].
  apply wl_skip; [apply (K [s2t "CREATE TABLE lex"] 0%nat); [reflexivity|right; discriminate|discriminate]|].
  apply wl_row; [apply (R "3" "PO BOX" "14" "PO BOX" 14 2%nat)%string; [reflexivity|discriminate|apply num_by; [discriminate|reflexivity|reflexivity]]|].
  apply wl_skip; [apply (K (map s2t ["4"; "ST"; "2"]%string) 1%nat); [reflexivity|right; discriminate|discriminate]|].
  apply wl_skip; [apply (K (map s2t ["5"; "ST"; "1"; "SAINT"; "x"]%string) 0%nat); [reflexivity|right; discriminate|discriminate]|].
  apply wl_row; [apply (R "6" "ST" "1" "SAINT" 1 0%nat)%string; [reflexivity|discriminate|apply num_by; [discriminate|reflexivity|reflexivity]]|].
  apply wl_row; [apply (R "7" "ST" "7" "SAINT" 7 0%nat)%string; [reflexivity|discriminate|apply num_by; [discriminate|reflexivity|reflexivity]]|].
  apply wl_skip; [apply (K [] 1%nat); [reflexivity|left; reflexivity|discriminate]|]. constructor.
Qed.
Lemma gz_ex : Forall2 row_file [gz_rows] [gz_text] /\ Forall sound (concat [gz_rows]) /\ Forall (kept_words ascii_env) (concat [gz_rows]) /\
  Forall (fun r => any_re (w_std r) (w_std r) = true) (concat [gz_rows]) /\
  exists t y, convert_gaz any_re [gz_text] = Some t /\ load_lexicon ascii_env [] t = Ok y /\
    lex_find y (s2t "ST") = [mkLE (s2t "ST") (s2t "SAINT") [I_WORD; I_STOPWORD] []; mkLE (s2t "ST") (s2t "STREET") [I_TYPE] []].
Proof.
  split; [constructor; [exact gz_file|constructor]|]. split; [|split; [|split]].
  - unfold gz_rows. cbn [concat app]. apply Forall_cons; [exists I_TYPE; split; [discriminate|reflexivity]|]. apply Forall_cons; [exists I_STOPWORD; split; [discriminate|reflexivity]|].
    apply Forall_cons; [exists I_BOXH; split; [discriminate|reflexivity]|]. apply Forall_cons; [exists I_WORD; split; [discriminate|reflexivity]|]. apply Forall_cons; [exists I_STOPWORD; split; [discriminate|reflexivity]|]. constructor.
  - unfold gz_rows. cbn [concat app]. repeat (apply Forall_cons; [apply kept_upper; [reflexivity|reflexivity|apply no2; reflexivity|apply no2; reflexivity]|]). constructor.
  - repeat constructor.
  - eexists. eexists. split; [vm_compute; reflexivity|]. split; [vm_compute; reflexivity|]. vm_compute. reflexivity.
Qed.
(** Codes 4 and 5 make a lexicon that is rejected. *)
Definition bad_text : text := Eval vm_compute in join [9] (map s2t ["1"; "ST"; "5"; "STREET"]%string).
Lemma code_five : exists rs t out m, row_file rs t /\ Forall (kept_words ascii_env) rs /\ map w_code rs = [5] /\ convert_gaz any_re [t] = Some out /\ load_lexicon ascii_env [] out = Throw m.
Proof.
  exists [mkRow (s2t "ST") 5 (s2t "STREET")], bad_text. eexists. eexists. split; [|split; [|split; [reflexivity|split; [vm_compute; reflexivity|vm_compute; reflexivity]]]].
  - exists (fields 10 bad_text). split; [apply fields_columns|]. change (fields 10 bad_text) with [bad_text]. apply wl_row; [|constructor].
    exists (s2t "1"), (s2t "5"). split; [apply (used_by _ _ 0%nat); [reflexivity|right; discriminate]|]. apply num_by; [discriminate|reflexivity|reflexivity].
  - apply Forall_cons; [apply kept_upper; [reflexivity|reflexivity|apply no2; reflexivity|apply no2; reflexivity]|]. constructor.
Qed.
(** A standard form that is no pattern of itself, and stands twice, stops the script. *)
Definition plus_re (p t : text) : bool := negb (existsb (N.eqb 43) p).
Definition plus_text : text := Eval vm_compute in join [10] (map (fun l => join [9] (map s2t l)) [["1"; "ST"; "2"; "ST+"]; ["2"; "ST"; "1"; "ST+"]]%string).
Lemma plus_stops : exists rs t, row_file rs t /\ Forall sound rs /\ Forall (kept_words ascii_env) rs /\ convert_gaz plus_re [t] = None.
Proof.
  exists [mkRow (s2t "ST") 2 (s2t "ST+"); mkRow (s2t "ST") 1 (s2t "ST+")], plus_text. split; [|split; [|split; [|vm_compute; reflexivity]]].
  - exists (fields 10 plus_text). split; [apply fields_columns|].
    change (fields 10 plus_text) with (map (fun l => join [9] (map s2t l)) [["1"; "ST"; "2"; "ST+"]; ["2"; "ST"; "1"; "ST+"]]%string). cbn [map]. apply wl_row; [|apply wl_row; [|constructor]].
    + exists (s2t "1"), (s2t "2"). split; [apply (used_by _ _ 0%nat); [reflexivity|right; discriminate]|]. apply num_by; [discriminate|reflexivity|reflexivity].
    + exists (s2t "2"), (s2t "1"). split; [apply (used_by _ _ 0%nat); [reflexivity|right; discriminate]|]. apply num_by; [discriminate|reflexivity|reflexivity].
  - apply Forall_cons; [exists I_TYPE; split; [discriminate|reflexivity]|]. apply Forall_cons; [exists I_WORD; split; [discriminate|reflexivity]|]. constructor.
  - repeat (apply Forall_cons; [apply kept_upper; [reflexivity|reflexivity|apply no2; reflexivity|apply no2; reflexivity]|]). constructor.
Qed.
