(** Separators with tabs. *)
From Coq Require Import String List NArith Bool Lia Sorting.Sorted.
From Verif Require Import Base_model Class_model Class_spec Uni_model Token_model Lexicon_model Tokenizer_model Lexicon_spec Tokenizer_spec Split_spec
  Search_proofs Class_proofs Pattern_proofs Classify_proofs TokSplit_proofs.
Import ListNotations.
Local Open Scope N_scope.

(** ** Cells *)
Fixpoint tab_cells (t : text) : list text :=
  match t with
  | [] => [[]]
  | c :: t' => if c =? 9 then [] :: tab_cells t' else match tab_cells t' with f :: fs => (c :: f) :: fs | [] => [[c]] end
  end.
Lemma tab_cells_ok : forall t, cells t (tab_cells t).
Proof.
  induction t as [|c t (N & F & J)]; [split; [discriminate|]; split; [repeat constructor; intros []|reflexivity]|]. cbn [tab_cells]. destruct (N.eqb_spec c 9) as [->|Q].
  - split; [discriminate|]. split; [constructor; [intros []|exact F]|]. destruct (tab_cells t) as [|f fs]; [congruence|]. rewrite join_cons2. cbn [app]. congruence.
  - destruct (tab_cells t) as [|f fs]; [congruence|]. inversion F as [|? ? F1 F2]; subst. split; [discriminate|]. split.
    + constructor; [|exact F2]. intros [K|K]; [congruence|exact (F1 K)].
    + destruct fs as [|g fs]; [cbn [join] in *; reflexivity|]. rewrite join_cons2 in *. reflexivity.
Qed.
Lemma cells_one : forall t fs fs', cells t fs -> cells t fs' -> fs = fs'.
Proof. intros t fs fs' (N & F & J) (N' & F' & J'). apply (join_inj 9); try assumption. congruence. Qed.
Lemma cells_plain : forall t, no_tab t -> cells t [t].
Proof. intros t H. split; [discriminate|]. split; [constructor; [exact H|constructor]|reflexivity]. Qed.
Lemma join_in : forall fs f c, In f fs -> In c f -> In c (join [9] fs).
Proof.
  induction fs as [|g fs IH]; intros f c I K; [destruct I|]. destruct fs as [|h fs]; [destruct I as [->|[]]; exact K|]. rewrite join_cons2. rewrite !in_app_iff.
  destruct I as [->|I]; [left; exact K|]. right. right. exact (IH f c I K).
Qed.
Lemma cell_in : forall t fs i c, cells t fs -> In c (cell fs i) -> In c t.
Proof.
  intros t fs i c (_ & _ & ->) H. unfold cell in H. destruct (nth_in_or_default i fs []) as [I|E]; [exact (join_in _ _ _ I H)|rewrite E in H; destruct H].
Qed.
Lemma cell_no_tab : forall t fs i, cells t fs -> no_tab (cell fs i).
Proof.
  intros t fs i (_ & F & _). unfold cell. destruct (nth_in_or_default i fs []) as [I|E]; [rewrite Forall_forall in F; apply F; exact I|rewrite E; intros []].
Qed.

(** ** Reading the cells *)
Definition holds (s : stream) (fs : list text) : Prop := (fs = [] /\ s_eof s = true) \/ (fs <> [] /\ s = open_stream (join [9] fs)).
Lemma holds_next : forall s fs, holds s fs -> Forall no_tab fs -> exists s', getline TAB s [] = (s', nth 0 fs []) /\ holds s' (tl fs).
Proof.
  intros s fs [(-> & E)|(N & ->)] F.
  - unfold getline. rewrite E. cbn [orb nth tl]. eexists. split; [reflexivity|left; split; [reflexivity|reflexivity]].
  - destruct fs as [|f fs]; [congruence|]. inversion F as [|? ? F1 F2]; subst. cbn [nth tl]. destruct fs as [|g fs].
    + cbn [join]. destruct (getline_last TAB f [] F1) as (s' & E & E2). exists s'. split; [exact E|left; auto].
    + rewrite join_cons2. change (f ++ [9] ++ join [9] (g :: fs)) with (f ++ TAB :: join [9] (g :: fs)). rewrite getline_field by exact F1. eexists. split; [reflexivity|].
      right. split; [discriminate|reflexivity].
Qed.
Lemma token_cells : forall w fs, cells w fs -> cell fs 0 <> s2t "TOKEN:" ->
  token_of_text w = mkToken (cell fs 0) (cell fs 1) (as_type (cell fs 2)) (out_as_type (cell fs 3)) (as_attach (cell fs 4)) false.
Proof.
  intros w fs (N & F & ->) NT. assert (H0 : holds (open_stream (join [9] fs)) fs) by (right; auto).
  assert (FT : forall gs, Forall no_tab gs -> Forall no_tab (tl gs)). { intros [|g gs] H; [exact H|inversion H; assumption]. }
  assert (NX : forall gs i, nth i (tl gs) ([] : text) = nth (S i) gs []). { intros [|g gs] i; [destruct i; reflexivity|reflexivity]. }
  unfold token_of_text.
  destruct (holds_next _ _ H0 F) as (s1 & -> & H1). destruct (teqb (nth 0 fs []) (s2t "TOKEN:")) eqn:T; [apply teqb_eq in T; contradiction|].
  destruct (holds_next _ _ H1 (FT _ F)) as (s2 & -> & H2). destruct (holds_next _ _ H2 (FT _ (FT _ F))) as (s3 & -> & H3).
  destruct (holds_next _ _ H3 (FT _ (FT _ (FT _ F)))) as (s4 & -> & H4). destruct (holds_next _ _ H4 (FT _ (FT _ (FT _ (FT _ F))))) as (s5 & -> & _).
  rewrite !NX. reflexivity.
Qed.

(** ** Names are made of capital letters *)
Definition capital (c : N) : Prop := 65 <= c <= 90.
Definition lower_text (t : text) : Prop := forall c, In c t -> ~ capital c.
Lemma has_capital : forall t, existsb (fun c => (65 <=? c) && (c <=? 90)) t = true -> ~ lower_text t.
Proof.
  intros t H L. apply existsb_exists in H. destruct H as (c & I & H). apply andb_true_iff in H. rewrite !N.leb_le in H. exact (L c I H).
Qed.
Lemma in_capital : forall c, ~ lower_text (in_str c).
Proof. intros c. apply has_capital. destruct c; vm_compute; reflexivity. Qed.
Lemma out_capital : forall c, ~ lower_text (out_str c).
Proof. intros c. apply has_capital. destruct c; vm_compute; reflexivity. Qed.
Lemma att_capital : forall c, ~ lower_text (att_str c).
Proof. intros c. apply has_capital. destruct c; vm_compute; reflexivity. Qed.
Lemma drop_sp_in : forall t c, In c (drop_sp t) -> In c t.
Proof. induction t as [|d t IH]; intros c H; [exact H|]. cbn [drop_sp] in H. destruct (d =? SP); [right; apply IH; exact H|exact H]. Qed.
Lemma trimboth_in : forall t c, In c (trimboth t) -> In c t.
Proof.
  intros t c H. unfold trimboth in H. destruct (drop_sp t) as [|d v] eqn:E; [exact H|]. apply in_rev in H. apply drop_sp_in in H. apply in_rev in H. apply drop_sp_in. rewrite E. exact H.
Qed.
Lemma pieces_in : forall t p c, In p (comma_pieces t) -> In c p -> In c t.
Proof.
  induction t as [|d t IH]; intros p c I K; [destruct I as [<-|[]]; destruct K|]. cbn [comma_pieces] in I. destruct (d =? COMMA_CH); [destruct I as [<-|I]; [destruct K|right; exact (IH _ _ I K)]|].
  destruct (comma_pieces t) as [|q qs] eqn:E; [destruct I as [<-|[]]; destruct K as [->|[]]; left; reflexivity|].
  destruct I as [<-|I]; [destruct K as [->|K]; [left; reflexivity|right; exact (IH q c (or_introl eq_refl) K)]|right; exact (IH p c (or_intror I) K)].
Qed.
Lemma pieces_of : forall t c, In c t -> c <> 44 -> exists p, In p (comma_pieces t) /\ In c p.
Proof.
  induction t as [|d t IH]; intros c I K; [destruct I|]. cbn [comma_pieces]. destruct (N.eqb_spec d COMMA_CH) as [->|Q].
  - destruct I as [<-|I]; [contradiction|]. destruct (IH c I K) as (p & Ip & J). exists p. split; [right; exact Ip|exact J].
  - destruct (comma_pieces t) as [|q qs] eqn:E.
    + destruct I as [->|I]; [exists [c]; split; [left; reflexivity|left; reflexivity]|]. destruct (IH c I K) as (p & [] & _).
    + destruct I as [->|I]; [exists (c :: q); split; [left; reflexivity|left; reflexivity]|]. destruct (IH c I K) as (p & [->|Ip] & J).
      * exists (d :: p). split; [left; reflexivity|right; exact J].
      * exists p. split; [right; exact Ip|exact J].
Qed.
Lemma trimboth_some : forall t, t <> [] -> trimboth t <> [].
Proof.
  intros t N. unfold trimboth. assert (D : forall v, (exists d, In d v /\ d <> SP) -> drop_sp v <> []).
  { induction v as [|e v IH]; intros (d & I & K); [destruct I|]. cbn [drop_sp]. destruct (N.eqb_spec e SP) as [->|Q]; [|discriminate].
    destruct I as [<-|I]; [contradiction|]. apply IH. exists d. auto. }
  assert (H : forall v, match drop_sp v with d :: _ => d <> SP | [] => True end).
  { induction v as [|e v IH]; [exact I|]. cbn [drop_sp]. destruct (N.eqb_spec e SP); [exact IH|assumption]. }
  specialize (H t). destruct (drop_sp t) as [|d v]; [exact N|]. assert (Q : drop_sp (rev (d :: v)) <> []).
  { apply D. exists d. split; [apply -> in_rev; left; reflexivity|exact H]. }
  intros K. apply Q. apply (f_equal (@rev _)) in K. rewrite rev_involutive in K. exact K.
Qed.
Lemma types_lower : forall f c, lower_text f -> (In c (as_type f) <-> c = I_BADTOKEN /\ ~ Forall (eq 44) f).
Proof.
  intros f c L. rewrite as_type_in. split.
  - intros (p & I & N & <-). split.
    + apply in_other. intros d E. apply (in_capital d). rewrite <- E. intros e K. apply L. exact (pieces_in _ _ _ I (trimboth_in _ _ K)).
    + intros F. destruct p as [|d p]; [apply N; reflexivity|]. rewrite Forall_forall in F. assert (K : 44 = d) by (apply F; apply (pieces_in f (d :: p) d I); left; reflexivity).
      assert (J : Forall (eq 44) f -> Forall no_comma (comma_pieces f)).
      { intros _. clear. induction f as [|d f IH]; [repeat constructor; intros []|]. cbn [comma_pieces]. destruct (N.eqb_spec d COMMA_CH) as [->|Q]; [constructor; [intros []|exact IH]|].
        destruct (comma_pieces f) as [|q qs]; [repeat constructor; intros [K|[]]; apply Q; exact K|]. inversion IH as [|? ? A B]; subst. constructor; [intros [K|K]; [apply Q; exact K|exact (A K)]|exact B]. }
      assert (G : Forall no_comma (comma_pieces f)) by (apply J; apply Forall_forall; exact F). rewrite Forall_forall in G. apply (G _ I). left. symmetry. exact K.
  - intros (-> & F). assert (E : exists d, In d f /\ d <> 44).
    { clear L. induction f as [|d f IH]; [exfalso; apply F; constructor|]. destruct (N.eq_dec 44 d) as [<-|Q]; [|exists d; split; [left; reflexivity|congruence]].
      destruct IH as (e & I & K); [intros G; apply F; constructor; [reflexivity|exact G]|]. exists e. split; [right; exact I|exact K]. }
    destruct E as (d & I & K). destruct (pieces_of f d I K) as (p & Ip & J). exists p. split; [exact Ip|]. split; [apply trimboth_some; intros ->; destruct J|].
    apply in_other. intros b E. apply (in_capital b). rewrite <- E. intros e Q. apply L. exact (pieces_in _ _ _ Ip (trimboth_in _ _ Q)).
Qed.
Lemma out_lower : forall f, lower_text f -> out_as_type f = O_BADTOKEN.
Proof. intros f L. apply out_other. intros c ->. exact (out_capital c L). Qed.
Lemma att_lower : forall f, lower_text f -> as_attach f = [].
Proof.
  intros f L. unfold as_attach. assert (H : Forall (fun p => lower_text p) (comma_pieces f)). { apply Forall_forall. intros p I c K. apply L. exact (pieces_in _ _ _ I K). }
  generalize H. clear. intros H. induction H as [|p ps H _ IH]; [reflexivity|]. cbn [fold_left]. assert (E : add_att_word [] p = []); [|rewrite E; exact IH].
  unfold add_att_word. destruct (trimboth p) as [|c w] eqn:T; [reflexivity|]. assert (Q : table_find att_table None (c :: w) = None); [|rewrite Q; reflexivity].
  apply table_find_other. intros n v I E. rewrite <- T in E. simpl in I. assert (K : exists a, trimboth p = att_str a).
  { destruct I as [I|[I|[I|[I|[]]]]]; injection I as <- <-; rewrite E; [exists DET_PRE|exists DET_SUF|exists ATT_PRE|exists ATT_SUF]; reflexivity. }
  destruct K as (a & K). apply (att_capital a). rewrite <- K. intros d J. apply H. exact (trimboth_in _ _ J).
Qed.

(** ** The token of a separator *)
Lemma classify_std : forall u x k d s, classify u x (set_std k s) d = set_std (classify u x k d) s.
Proof.
  intros u x k d s. unfold classify, set_std, set_in, set_inlex, set_text. cbn [t_text t_in t_std t_out t_att t_inlex].
  destruct (fold_left _ _ _); [|reflexivity]. destruct (rmatch _ _ _ _); reflexivity.
Qed.
Lemma classify_bad : forall u x m s d l, (forall c, In c l <-> c = I_BADTOKEN) -> bad_token x m s (classify u x (mkToken m s l O_BADTOKEN [] false) d).
Proof.
  intros u x m s d l L. set (k := mkToken m s l O_BADTOKEN [] false). destruct (classify_listed u x k d I_BADTOKEN) as (A & B & C); [left; apply L; reflexivity|].
  cbn [k t_text t_in] in B, C.
  assert (R : t_std (classify u x k d) = s /\ t_out (classify u x k d) = O_BADTOKEN /\ t_att (classify u x k d) = []).
  { clear. unfold classify. cbv zeta. cbn [set_in t_in]. destruct (fold_left _ _ _); [|repeat split]. destruct (rmatch _ _ _ _); repeat split. }
  destruct R as (R1 & R2 & R3). split; [exact B|]. split; [exact R1|]. split; [exact A|]. split; [exact R2|]. split; [exact R3|]. intros c. rewrite C, L. reflexivity.
Qed.
Lemma sep_cut : forall u x w, lower_text w -> sep_exact u x w (sep_tokens u x w).
Proof.
  intros u x w L. destruct w as [|c0 w0]; [left; auto|right]. unfold sep_tokens. remember (c0 :: w0) as w eqn:Ew.
  assert (N : w <> []) by (rewrite Ew; discriminate). clear Ew c0 w0. pose proof (tab_cells_ok w) as C. set (fs := tab_cells w) in *.
  assert (Lf : forall i, lower_text (cell fs i)). { intros i c I. apply L. exact (cell_in _ _ _ _ C I). }
  assert (NT : cell fs 0 <> s2t "TOKEN:"). { intros K. apply (has_capital (s2t "TOKEN:")); [reflexivity|]. rewrite <- K. apply Lf. }
  rewrite (token_cells w fs C NT). rewrite (out_lower _ (Lf 3%nat)), (att_lower _ (Lf 4%nat)).
  set (f0 := cell fs 0). set (s := cell fs 1). set (l := as_type (cell fs 2)).
  set (m := t_text (trim_token (plain_token f0))).
  assert (Em : sep_text f0 m). { unfold m. destruct f0 as [|c f]; [left; auto|]. right. split; [discriminate|]. apply trim_spec. discriminate. }
  assert (Et : trim_token (mkToken f0 s l O_BADTOKEN [] false) = mkToken m s l O_BADTOKEN [] false).
  { unfold m, trim_token. cbn [t_text plain_token]. destruct f0 as [|c f]; [reflexivity|]. destruct (rev (drop_ws (rev (drop_ws (c :: f))))); reflexivity. }
  exists fs, m. eexists. split; [exact N|]. split; [exact C|]. split; [exact Em|]. split; [reflexivity|]. fold s. rewrite Et.
  assert (T := types_lower (cell fs 2)). assert (D : {Forall (eq 44) (cell fs 2)} + {~ Forall (eq 44) (cell fs 2)}) by (apply Forall_dec; intros c; apply N.eq_dec).
  destruct D as [F|F]; [left|right]; (split; [exact F|]).
  - assert (El : l = []). { destruct l as [|c l'] eqn:E; [reflexivity|]. exfalso. destruct (proj1 (T c (Lf 2%nat))) as (_ & K); [fold l; rewrite E; left; reflexivity|contradiction]. }
    rewrite El. change (mkToken m s [] O_BADTOKEN [] false) with (set_std (plain_token m) s). rewrite classify_std. eexists. split; [apply classify_made|reflexivity].
  - apply classify_bad. intros c. unfold l. rewrite (T c (Lf 2%nat)). tauto.
Qed.
(** Without tabs nothing is cut. *)
Lemma sep_plain : forall u x w ks, no_tab w -> (sep_exact u x w ks <-> sep_part u x w ks).
Proof.
  intros u x w ks NT. split.
  - intros [H|(fs & m & k & N & C & T & -> & H)]; [left; exact H|right]. rewrite (cells_one _ _ _ C (cells_plain w NT)) in *. cbn [cell nth] in *.
    destruct T as [(K & _)|(_ & T)]; [contradiction|]. destruct H as [(_ & k0 & M & ->)|(K & _)]; [|exfalso; apply K; constructor].
    exists m, k0. split; [exact N|]. split; [exact T|]. split; [|exact M]. destruct M as (_ & _ & _ & S & _). destruct k0 as [a1 a2 a3 a4 a5 a6]. cbn [set_std t_text t_in t_out t_att t_inlex t_std] in *. rewrite S. reflexivity.
  - intros [H|(m & k & N & T & -> & M)]; [left; exact H|right]. exists [w], m, k. split; [exact N|]. split; [apply cells_plain; exact NT|]. cbn [cell nth].
    split; [right; auto|]. split; [reflexivity|]. left. split; [constructor|]. exists k. split; [exact M|]. destruct M as (_ & _ & _ & S & _). destruct k as [a1 a2 a3 a4 a5 a6]. cbn [set_std t_text t_in t_out t_att t_inlex t_std] in *. rewrite S. reflexivity.
Qed.
Lemma sep_lower : forall u w rest, tab_tables u -> separator u w rest -> In 9 w -> lower_text w.
Proof.
  intros u w rest (_ & TL & TC) [(-> & _)|[(_ & F & _)|(c & -> & D & _)]] I.
  - destruct I.
  - intros c K Q. apply (TC c Q). rewrite Forall_forall in F. apply F. exact K.
  - destruct I as [->|[]]. unfold dash in D. apply TL in D. discriminate.
Qed.
Lemma sep_any : forall u x w rest, tab_tables u -> separator u w rest -> sep_exact u x w (sep_tokens u x w).
Proof.
  intros u x w rest TT S. destruct (in_dec N.eq_dec 9 w) as [I|I]; [apply sep_cut; exact (sep_lower _ _ _ TT S I)|]. apply sep_plain; [exact I|]. apply sep_ok_tokens. exact I.
Qed.
(** Texts of tokens are free of tabs. *)
Lemma token_no_tab : forall u x w, tab_tables u -> tab_free x -> token_text u x w -> no_tab w.
Proof.
  intros u x w (TA & TL & _) TF [(v & L & _ & F)|[(a & s & b & -> & Da & Db & S)|[(_ & F)|(-> & _)]]] I.
  - assert (K : exists c, In c v /\ like u c 9). { clear - F I. induction F as [|c d v w H F IH]; [destruct I|]. destruct I as [->|I]; [exists c; split; [left; reflexivity|exact H]|].
      destruct (IH I) as (e & J & K). exists e. split; [right; exact J|exact K]. }
    destruct K as (c & J & K). apply TL in K. subst c. exact (TF _ L J).
  - assert (G : forall l, digits u l -> ~ In 9 l).
    { intros l D K. apply TA. right. destruct D as (_ & D). rewrite Forall_forall in D. apply D. exact K. }
    apply in_app_iff in I. destruct I as [I|[I|I]]; [exact (G _ Da I)| |exact (G _ Db I)]. subst s. destruct S as [S|[S|S]]; apply TL in S; discriminate.
  - rewrite Forall_forall in F. apply TA. apply F. exact I.
  - destruct I.
Qed.
