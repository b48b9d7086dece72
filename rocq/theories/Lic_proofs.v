(** The license header (C122). *)
From Coq Require Import String List NArith Bool PeanoNat Lia.
From Verif Require Import Base_model Search_proofs Tools_model Tools_proofs Lic_model Lic_spec.
Import ListNotations.
Local Open Scope N_scope.

(** ** Lines *)
Lemma raw_line : forall s t, ~ In 10 s -> raw_lines (s ++ 10 :: t) = (s ++ [10]) :: raw_lines t.
Proof.
  induction s as [|c s IH]; intros t H; [reflexivity|]. cbn [app raw_lines]. destruct (c =? LF) eqn:E; [apply N.eqb_eq in E; destruct H; left; exact E|].
  rewrite IH by (intro K; apply H; right; exact K). reflexivity.
Qed.
Lemma raw_last : forall s, s <> [] -> ~ In 10 s -> raw_lines s = [s].
Proof.
  induction s as [|c s IH]; intros N0 H; [destruct N0; reflexivity|]. cbn [raw_lines]. destruct (c =? LF) eqn:E; [apply N.eqb_eq in E; destruct H; left; exact E|].
  destruct s as [|d s]; [reflexivity|]. rewrite IH; [reflexivity|discriminate|intro K; apply H; right; exact K].
Qed.
Lemma lines_raw : forall t ls, lines_of t ls -> raw_lines t = ls.
Proof. intros t ls H. induction H as [|s N0 H|s t ls H L IH]; [reflexivity|apply raw_last; assumption|]. rewrite raw_line by exact H. rewrite IH. reflexivity. Qed.
Lemma raw_is : forall t, lines_of t (raw_lines t).
Proof.
  assert (G : forall n t, (List.length t <= n)%nat -> exists ls, lines_of t ls).
  { induction n as [|n IH]; intros t L; [destruct t; [|cbn in L; lia]; exists []; constructor|].
    destruct (in_dec N.eq_dec 10 t) as [I1|I1].
    - assert (X : exists a b, t = a ++ 10 :: b /\ ~ In 10 a).
      { clear - I1. induction t as [|c t IH]; [destruct I1|]. destruct (N.eq_dec c 10) as [->|D]; [exists [], t; split; [reflexivity|intros []]|].
        destruct I1 as [K|K]; [congruence|]. destruct (IH K) as (a & b & -> & NI). exists (c :: a), b. split; [reflexivity|]. intros [J|J]; [congruence|contradiction]. }
      destruct X as (a & b & -> & NI). destruct (IH b) as (ls & Hl); [rewrite app_length in L; cbn in L; lia|]. eexists. apply lo_line; eassumption.
    - destruct t as [|c t]; [exists []; constructor|]. exists [c :: t]. constructor; [discriminate|exact I1]. }
  intros t. destruct (G _ t (le_n _)) as (ls & H). rewrite (lines_raw _ _ H). exact H.
Qed.
Lemma lines_concat : forall t ls, lines_of t ls -> concat ls = t.
Proof. intros t ls H. induction H as [|s N0 H|s t ls H L IH]; [reflexivity|cbn; apply app_nil_r|]. cbn [concat]. rewrite IH, <- app_assoc. reflexivity. Qed.
Lemma raw_concat : forall t, concat (raw_lines t) = t.
Proof. intros t. apply lines_concat, raw_is. Qed.
Lemma raw_app : forall s t, raw_lines ((s ++ [10]) ++ t) = raw_lines (s ++ [10]) ++ raw_lines t.
Proof.
  induction s as [|c s IH]; intros t; [reflexivity|]. cbn [app raw_lines]. destruct (c =? LF); [rewrite IH; reflexivity|]. rewrite IH.
  destruct (raw_lines (s ++ [10])) eqn:E; [|reflexivity]. apply (f_equal (@concat N)) in E. rewrite raw_concat in E. destruct s; discriminate E.
Qed.
Lemma header_iff : forall hd ls, header_ok hd ls = true <-> exists r, ls = hd ++ r.
Proof.
  induction hd as [|h hd IH]; intros ls; cbn [header_ok]; [split; [intros _; exists ls; reflexivity|reflexivity]|]. destruct ls as [|l ls]; [split; [discriminate|intros (r & E); discriminate E]|].
  rewrite andb_true_iff, teqb_eq, IH. split; [intros (-> & r & ->); exists r; reflexivity|]. intros (r & E). injection E as -> ->. split; [reflexivity|exists r; reflexivity].
Qed.

(** ** The marks *)
Lemma open_iff : forall l, contains open_mark l = true <-> opens l.
Proof. intros l. apply contains_iff. Qed.
Lemma close_iff : forall l, contains close_mark l = true <-> closes l.
Proof. intros l. apply contains_iff. Qed.
Lemma open_no : forall l, ~ opens l -> contains open_mark l = false.
Proof. intros l H. destruct (contains open_mark l) eqn:E; [apply open_iff in E; contradiction|reflexivity]. Qed.
Lemma close_no : forall l, ~ closes l -> contains close_mark l = false.
Proof. intros l H. destruct (contains close_mark l) eqn:E; [apply close_iff in E; contradiction|reflexivity]. Qed.
Lemma scan_plain : forall a i f l ls, Forall plain_line a -> true_index f && true_index l = false -> scan i f l (a ++ ls) = scan (i + List.length a) f l ls.
Proof.
  induction a as [|x a IH]; intros i f l ls P T; [rewrite Nat.add_0_r; reflexivity|]. inversion P as [|? ? (O1 & C1) P']; subst. cbn [app scan]. rewrite (open_no _ O1), (close_no _ C1), T, IH by assumption.
  cbn [List.length]. rewrite <- Nat.add_succ_comm. reflexivity.
Qed.
Lemma scan_opens : forall ls i f, ~ Exists closes ls -> scan i f None ls = (match scan i f None ls with (a, _) => a end, None) /\ (f <> None \/ Exists opens ls -> fst (scan i f None ls) <> None).
Proof.
  induction ls as [|x ls IH]; intros i f H; [split; [reflexivity|intros [K|K]; [exact K|inversion K]]|].
  assert (C1 : ~ closes x) by (intro K; apply H; left; exact K). assert (C2 : ~ Exists closes ls) by (intro K; apply H; right; exact K).
  cbn [scan]. rewrite (close_no _ C1). cbn [true_index]. rewrite andb_false_r. destruct (IH (S i) (if contains open_mark x then Some i else f) C2) as (A & B). split; [exact A|].
  intros K. apply B. destruct (contains open_mark x) eqn:E; [left; discriminate|]. destruct K as [K|K]; [left; exact K|]. inversion K as [? ? K1|? ? K1]; subst; [|right; exact K1]. apply open_iff in K1. congruence.
Qed.
Lemma scan_closes : forall ls i l, ~ Exists opens ls -> scan i None l ls = (None, match scan i None l ls with (_, b) => b end) /\ (l <> None \/ Exists closes ls -> snd (scan i None l ls) <> None).
Proof.
  induction ls as [|x ls IH]; intros i l H; [split; [reflexivity|intros [K|K]; [exact K|inversion K]]|].
  assert (C1 : ~ opens x) by (intro K; apply H; left; exact K). assert (C2 : ~ Exists opens ls) by (intro K; apply H; right; exact K).
  cbn [scan]. rewrite (open_no _ C1). cbn [true_index andb]. destruct (IH (S i) (if contains close_mark x then Some i else l) C2) as (A & B). split; [exact A|].
  intros K. apply B. destruct (contains close_mark x) eqn:E; [left; discriminate|]. destruct K as [K|K]; [left; exact K|]. inversion K as [? ? K1|? ? K1]; subst; [|right; exact K1]. apply close_iff in K1. congruence.
Qed.
Lemma scan_block : forall a o mid c r, Forall plain_line a -> opens o -> ~ closes o -> closes c -> ~ opens c -> Forall plain_line mid -> (a <> [] \/ Forall plain_line r) ->
  scan 0 None None (a ++ (o :: mid ++ [c]) ++ r) = (Some (List.length a), Some (List.length a + S (List.length mid))%nat).
Proof.
  intros a o mid c r Pa Oo Co Cc Oc Pm H. rewrite scan_plain by (assumption || reflexivity). cbn [plus app]. cbn [scan]. apply open_iff in Oo. rewrite Oo, (close_no _ Co). cbn [true_index]. rewrite andb_false_r.
  rewrite <- app_assoc. rewrite scan_plain by (assumption || (cbn [true_index]; apply andb_false_r)). cbn [app scan]. rewrite (open_no _ Oc). apply close_iff in Cc. rewrite Cc.
  replace (S (List.length a) + List.length mid)%nat with (List.length a + S (List.length mid))%nat by lia. destruct a as [|x a].
  - destruct H as [H|H]; [destruct H; reflexivity|]. cbn [List.length plus true_index andb]. rewrite <- (app_nil_r r). rewrite scan_plain by (exact H || reflexivity). reflexivity.
  - reflexivity.
Qed.
Lemma scan_found : forall ls pre f l f' l', (forall k, f = Some k -> exists x, nth_error pre k = Some x /\ opens x) -> (forall k, l = Some k -> exists x, nth_error pre k = Some x /\ closes x) ->
  scan (List.length pre) f l ls = (f', l') ->
  (forall k, f' = Some k -> exists x, nth_error (pre ++ ls) k = Some x /\ opens x) /\ (forall k, l' = Some k -> exists x, nth_error (pre ++ ls) k = Some x /\ closes x).
Proof.
  induction ls as [|x ls IH]; intros pre f l f' l' F L E.
  - cbn in E. injection E as <- <-. rewrite app_nil_r. split; assumption.
  - assert (LB : forall y k (P : text -> Prop) tl, (exists x0, nth_error pre k = Some x0 /\ P x0) -> exists x0, nth_error (pre ++ y :: tl) k = Some x0 /\ P x0).
    { intros y k P tl (z & Z1 & Z2). exists z. split; [|exact Z2]. rewrite nth_error_app1; [exact Z1|]. apply nth_error_Some. congruence. }
    assert (AT : forall tl, nth_error (pre ++ x :: tl) (List.length pre) = Some x) by (intros tl; rewrite nth_error_app2 by lia; rewrite Nat.sub_diag; reflexivity).
    cbn [scan] in E. set (f1 := if contains open_mark x then Some (List.length pre) else f) in *. set (l1 := if contains close_mark x then Some (List.length pre) else l) in *.
    assert (F1 : forall tl k, f1 = Some k -> exists x0, nth_error (pre ++ x :: tl) k = Some x0 /\ opens x0).
    { intros tl k K. unfold f1 in K. destruct (contains open_mark x) eqn:O1; [|apply LB, F; exact K]. injection K as <-. exists x. split; [apply AT|apply open_iff; exact O1]. }
    assert (L1 : forall tl k, l1 = Some k -> exists x0, nth_error (pre ++ x :: tl) k = Some x0 /\ closes x0).
    { intros tl k K. unfold l1 in K. destruct (contains close_mark x) eqn:O1; [|apply LB, L; exact K]. injection K as <-. exists x. split; [apply AT|apply close_iff; exact O1]. }
    destruct (true_index f1 && true_index l1); [injection E as <- <-; split; [apply F1|apply L1]|].
    replace (S (List.length pre)) with (List.length (pre ++ [x])) in E by (rewrite app_length; cbn; lia). apply IH in E; [|apply F1|apply L1]. rewrite <- app_assoc in E. exact E.
Qed.

(** ** Paths *)
Lemma slash_in : forall p, existsb (N.eqb 47) p = true <-> In 47 p.
Proof. intros p. rewrite existsb_exists. split; [intros (x & I1 & E); apply N.eqb_eq in E; subst; exact I1|]. intros H. exists 47. split; [exact H|reflexivity]. Qed.
Lemma slash_no : forall p, existsb (N.eqb 47) p = false <-> ~ In 47 p.
Proof. intros p. rewrite <- slash_in. destruct (existsb (N.eqb 47) p); split; intro H; congruence || reflexivity || (destruct H; reflexivity). Qed.
Lemma base_name_of : forall p, base_of p (base_name p).
Proof.
  induction p as [|c p IH]; [split; [intros []|left; reflexivity]|]. cbn [base_name]. destruct (existsb (N.eqb 47) p) eqn:E.
  - destruct IH as (NI & [H|(d & H)]); [apply slash_in in E; rewrite H in E; contradiction|]. split; [exact NI|]. right. exists (c :: d). cbn [app]. f_equal. exact H.
  - apply slash_no in E. destruct (c =? 47) eqn:C; [apply N.eqb_eq in C; subst c; split; [exact E|right; exists []; reflexivity]|]. split; [intros [K|K]; [apply N.eqb_neq in C; congruence|contradiction]|left; reflexivity].
Qed.
Lemma base_name_sep : forall d b, ~ In 47 b -> base_name (d ++ 47 :: b) = b.
Proof.
  induction d as [|c d IH]; intros b NI; cbn [app base_name].
  - apply slash_no in NI. rewrite NI. reflexivity.
  - rewrite IH by exact NI. assert (E : existsb (N.eqb 47) (d ++ 47 :: b) = true) by (apply slash_in, in_app_iff; right; left; reflexivity). rewrite E. reflexivity.
Qed.
Lemma base_fun : forall p b, base_of p b -> base_name p = b.
Proof.
  intros p b (NI & [->|(d & ->)]); [|apply base_name_sep; exact NI]. destruct b as [|c b]; [reflexivity|]. cbn [base_name].
  assert (E : existsb (N.eqb 47) b = false) by (apply slash_no; intro K; apply NI; right; exact K). rewrite E. destruct (c =? 47) eqn:C; [apply N.eqb_eq in C; destruct NI; left; exact C|reflexivity].
Qed.
Lemma ends_iff : forall s t, ends s t = true <-> exists a, t = a ++ s.
Proof.
  intros s t. unfold ends. rewrite begins_iff. split; intros (r & E); exists (rev r).
  - rewrite <- (rev_involutive t), E, rev_app_distr, rev_involutive. reflexivity.
  - rewrite E, rev_app_distr. reflexivity.
Qed.
Lemma word_iff : forall c, perl_word c = true <-> word_char c.
Proof. intros c. unfold perl_word, word_char. rewrite !orb_true_iff, !andb_true_iff, !N.leb_le, N.eqb_eq. tauto. Qed.
Lemma archive_iff : forall p prev, in_archive prev p = true <->
  exists a b, p = a ++ s2t "archive/" ++ b /\ (a = [] /\ prev = false \/ exists a' c, a = a' ++ [c] /\ ~ word_char c).
Proof.
  induction p as [|c p IH]; intros prev; cbn [in_archive]; rewrite orb_true_iff, andb_true_iff, negb_true_iff, begins_iff.
  - split; [intros [(_ & r & E)|E]; discriminate E|]. intros (a & b & E & _). destruct a; discriminate E.
  - rewrite IH. split.
    + intros [(P & r & E)|(a & b & -> & H)]; [exists [], r; split; [exact E|left; split; [reflexivity|exact P]]|]. exists (c :: a), b. split; [reflexivity|]. right.
      destruct H as [(-> & W)|(a' & d & -> & W)]; [exists [], c; split; [reflexivity|]; rewrite <- word_iff, W; discriminate|]. exists (c :: a'), d. split; [reflexivity|exact W].
    + intros (a & b & E & H). destruct H as [(-> & P)|(a' & d & -> & W)]; [left; split; [exact P|exists b; exact E]|]. right. destruct a' as [|x a'].
      * cbn [app] in E. injection E as -> ->. exists [], b. split; [reflexivity|]. left. split; [reflexivity|]. destruct (perl_word d) eqn:K; [apply word_iff in K; contradiction|reflexivity].
      * cbn [app] in E. injection E as -> ->. exists (a' ++ [d]), b. split; [reflexivity|]. right. exists a', d. split; [reflexivity|exact W].
Qed.
Definition taken (excl : list text) (p : text) : bool := is_source p && negb (in_archive false p) && negb (existsb (teqb (base_name p)) excl).
Lemma taken_iff : forall excl p, taken excl p = true <-> chosen excl p.
Proof.
  intros excl p. unfold taken, chosen. rewrite !andb_true_iff, !negb_true_iff. unfold is_source. rewrite existsb_exists.
  assert (A : in_archive false p = false <-> ~ archived p).
  { assert (I1 : in_archive false p = true <-> archived p).
    { rewrite archive_iff. unfold archived. split; intros (a & b & E & H); exists a, b; (split; [exact E|]); [destruct H as [(-> & _)|H]; [left; reflexivity|right; exact H]|destruct H as [->|H]; [left; split; reflexivity|right; exact H]]. }
    rewrite <- I1. destruct (in_archive false p); split; intro H; congruence || reflexivity || (destruct H; reflexivity). }
  assert (X : existsb (teqb (base_name p)) excl = false <-> ~ In (base_name p) excl).
  { assert (I1 : existsb (teqb (base_name p)) excl = true <-> In (base_name p) excl).
    { rewrite existsb_exists. split; [intros (x & H & E); apply teqb_eq in E; subst; exact H|]. intros H. exists (base_name p). split; [exact H|apply teqb_refl]. }
    rewrite <- I1. destruct (existsb (teqb (base_name p)) excl); split; intro H; congruence || reflexivity || (destruct H; reflexivity). }
  rewrite A, X. split.
  - intros (((s & I1 & E) & H1) & H2). split; [|exact H1]. apply ends_iff in E. destruct E as (a & E). exists (base_name p), a, (s2t s). split; [apply base_name_of|]. split; [exact E|]. split; [apply in_map; exact I1|exact H2].
  - intros ((b & a & s & B & E & I1 & NI) & H1). apply base_fun in B. apply in_map_iff in I1. destruct I1 as (s0 & <- & I1). split; [split; [|exact H1]|].
    + exists s0. split; [exact I1|]. apply ends_iff. exists a. rewrite B. exact E.
    + rewrite B. exact NI.
Qed.

(** ** Files *)
Lemma with_same : forall hd t H ls, lines_of hd H -> lines_of t ls -> (exists r, ls = H ++ r) -> with_header hd t = t.
Proof. intros hd t H ls L1 L2 E. unfold with_header. rewrite (lines_raw _ _ L1), (lines_raw _ _ L2). apply header_iff in E. rewrite E. reflexivity. Qed.
Lemma with_update : forall hd t H ls, lines_of hd H -> lines_of t ls -> ~ (exists r, ls = H ++ r) ->
  with_header hd t = match update_header H ls with Some ls' => concat ls' | None => t end.
Proof.
  intros hd t H ls L1 L2 E. unfold with_header. rewrite (lines_raw _ _ L1), (lines_raw _ _ L2). destruct (header_ok H ls) eqn:K; [apply header_iff in K; contradiction|reflexivity].
Qed.
Lemma add_is : forall hd excl fs, Forall2 (fun f f' => fst f' = fst f /\ (~ chosen excl (fst f) -> snd f' = snd f) /\
  (chosen excl (fst f) -> forall H ls, lines_of hd H -> lines_of (snd f) ls ->
    ((exists r, ls = H ++ r) -> snd f' = snd f) /\
    (~ (exists r, ls = H ++ r) ->
      (Forall plain_line ls -> snd f' = hd ++ snd f) /\
      (forall a b c, ls = a ++ b ++ c -> Forall plain_line a -> header_block b -> a <> [] \/ Forall plain_line c -> snd f' = hd ++ concat (a ++ c)) /\
      (Exists opens ls /\ ~ Exists closes ls \/ Exists closes ls /\ ~ Exists opens ls -> snd f' = snd f)))) fs (add_lic hd excl fs).
Proof.
  intros hd excl fs. unfold add_lic. induction fs as [|f fs IH]; [constructor|]. cbn [map]. constructor; [|exact IH]. clear IH. fold (taken excl (fst f)).
  destruct (taken excl (fst f)) eqn:T.
  2: { split; [reflexivity|]. split; [reflexivity|]. intros C. apply taken_iff in C. congruence. }
  cbn [fst snd]. split; [reflexivity|]. split; [intro C; destruct C; apply taken_iff; exact T|]. intros _ H ls L1 L2. split; [intro E; apply (with_same _ _ _ _ L1 L2 E)|]. intros E.
  rewrite (with_update _ _ _ _ L1 L2 E). unfold update_header. split; [|split].
  - intros P. assert (S0 : scan 0 None None ls = (None, None)) by (rewrite <- (app_nil_r ls), scan_plain by (exact P || reflexivity); reflexivity). rewrite S0, concat_app.
    rewrite (lines_concat _ _ L1), (lines_concat _ _ L2). reflexivity.
  - intros a b c -> Pa (o & mid & d & -> & Oo & Co & Cd & Od & Pm & Lm) R. rewrite scan_block by assumption.
    assert (E1 : (List.length a <? List.length a + S (List.length mid))%nat = true) by (apply Nat.ltb_lt; lia). assert (E2 : (List.length a + S (List.length mid) - List.length a <? 20)%nat = true) by (apply Nat.ltb_lt; lia).
    rewrite E1, E2. cbn [andb]. rewrite concat_app, (lines_concat _ _ L1). f_equal. f_equal. f_equal; [rewrite firstn_app, Nat.sub_diag, firstn_all, app_nil_r; reflexivity|].
    replace (a ++ (o :: mid ++ [d]) ++ c) with ((a ++ o :: mid ++ [d]) ++ c) by (rewrite <- app_assoc; reflexivity).
    replace (List.length a + S (List.length mid) + 1)%nat with (List.length (a ++ o :: mid ++ [d])) by (rewrite app_length; cbn [List.length]; rewrite app_length; cbn [List.length]; lia).
    rewrite skipn_app, Nat.sub_diag, skipn_all. reflexivity.
  - intros [(A & B)|(A & B)].
    + destruct (scan_opens ls 0 None B) as (S1 & S2). specialize (S2 (or_intror A)). destruct (scan 0 None None ls) as (u & v). injection S1 as ->. destruct u; [reflexivity|destruct S2; reflexivity].
    + destruct (scan_closes ls 0 None B) as (S1 & S2). specialize (S2 (or_intror A)). destruct (scan 0 None None ls) as (u & v). injection S1 as ->. destruct v; [reflexivity|destruct S2; reflexivity].
Qed.
Lemma add_safe : forall (hd : text) excl (fs : list (text * text)), Forall2 (fun f f' => snd f' = snd f \/ snd f' = hd ++ snd f \/
  exists a b c, lines_of (snd f) (a ++ b ++ c) /\ loose_block b /\ snd f' = hd ++ concat (a ++ c)) fs (add_lic hd excl fs).
Proof.
  intros hd excl fs. unfold add_lic. induction fs as [|f fs IH]; [constructor|]. cbn [map]. constructor; [|exact IH]. clear IH. fold (taken excl (fst f)).
  destruct (taken excl (fst f)); [|left; reflexivity]. cbn [snd]. unfold with_header. set (t := snd f). destruct (header_ok (raw_lines hd) (raw_lines t)); [left; reflexivity|].
  unfold update_header. destruct (scan 0 None None (raw_lines t)) as (u & v) eqn:S0. destruct u as [k|], v as [l|]; [|left; reflexivity|left; reflexivity|right; left; rewrite concat_app, !raw_concat; reflexivity].
  right. destruct ((k <? l)%nat && (l - k <? 20)%nat) eqn:T; [|left; rewrite concat_app, !raw_concat; reflexivity]. right. apply andb_true_iff in T. destruct T as (T1 & T2). apply Nat.ltb_lt in T1, T2.
  change 0%nat with (List.length (@nil text)) in S0. apply scan_found in S0; [|discriminate|discriminate]. cbn [app] in S0. destruct S0 as (F & L). destruct (F k eq_refl) as (o & N1 & O1). destruct (L l eq_refl) as (c & N2 & C1).
  apply nth_error_split in N1. destruct N1 as (a & r & E1 & La). rewrite E1 in N2. rewrite nth_error_app2 in N2 by lia. replace (l - List.length a)%nat with (S (l - k - 1)) in N2 by lia. cbn [nth_error] in N2.
  apply nth_error_split in N2. destruct N2 as (mid & r' & E2 & Lm). subst r. exists a, (o :: mid ++ [c]), r'. assert (E3 : raw_lines t = a ++ (o :: mid ++ [c]) ++ r') by (rewrite E1; cbn [app]; rewrite <- app_assoc; reflexivity).
  split; [rewrite <- E3; apply raw_is|]. split; [exists o, mid, c; split; [reflexivity|]; split; [exact O1|]; split; [exact C1|lia]|].
  rewrite concat_app, raw_concat, E3. f_equal. f_equal. f_equal; [rewrite <- La, firstn_app, Nat.sub_diag, firstn_all, app_nil_r; reflexivity|].
  rewrite app_assoc. replace (l + 1)%nat with (List.length (a ++ o :: mid ++ [c])) by (rewrite app_length; cbn [List.length]; rewrite app_length; cbn [List.length]; lia).
  rewrite skipn_app, Nat.sub_diag, skipn_all. reflexivity.
Qed.
Lemma with_again : forall s t, with_header (s ++ [10]) (with_header (s ++ [10]) t) = with_header (s ++ [10]) t.
Proof.
  intros s t. unfold with_header at 2 3. destruct (header_ok (raw_lines (s ++ [10])) (raw_lines t)) eqn:E; [unfold with_header; rewrite E; reflexivity|].
  destruct (update_header (raw_lines (s ++ [10])) (raw_lines t)) as [ls|] eqn:U; [|unfold with_header; rewrite E, U; reflexivity].
  assert (X : exists y, ls = raw_lines (s ++ [10]) ++ y).
  { unfold update_header in U. destruct (scan 0 None None (raw_lines t)) as ([k|] & [l|]); try discriminate U; injection U as <-; eexists; reflexivity. }
  destruct X as (y & ->). rewrite concat_app, raw_concat. unfold with_header. rewrite raw_app.
  assert (K : header_ok (raw_lines (s ++ [10])) (raw_lines (s ++ [10]) ++ raw_lines (concat y)) = true) by (apply header_iff; eexists; reflexivity). rewrite K. reflexivity.
Qed.
Lemma add_again : forall s excl fs, add_lic (s ++ [10]) excl (add_lic (s ++ [10]) excl fs) = add_lic (s ++ [10]) excl fs.
Proof.
  intros s excl fs. unfold add_lic. rewrite map_map. apply map_ext. intros f. fold (taken excl (fst f)). destruct (taken excl (fst f)) eqn:E; [|fold (taken excl (fst f)); rewrite E; reflexivity].
  cbn [fst snd]. fold (taken excl (fst f)). rewrite E, with_again. reflexivity.
Qed.

(** ** Examples *)
Lemma plain_by : forall l, contains open_mark l = false -> contains close_mark l = false -> plain_line l.
Proof. intros l A B. split; intro K; [apply open_iff in K|apply close_iff in K]; congruence. Qed.
Lemma block_by : forall o mid c, contains open_mark o = true -> contains close_mark o = false -> contains close_mark c = true -> contains open_mark c = false ->
  forallb (fun l => negb (contains open_mark l) && negb (contains close_mark l)) mid = true -> (List.length mid <= 18)%nat -> header_block (o :: mid ++ [c]).
Proof.
  intros o mid c A B C D M L. exists o, mid, c. split; [reflexivity|]. split; [apply open_iff; exact A|]. split; [intro K; apply close_iff in K; congruence|]. split; [apply close_iff; exact C|].
  split; [intro K; apply open_iff in K; congruence|]. split; [|exact L]. apply Forall_forall. rewrite forallb_forall in M. intros x X. specialize (M x X). apply andb_true_iff in M. destruct M as (M1 & M2).
  apply negb_true_iff in M1, M2. apply plain_by; assumption.
Qed.
Definition ln (s : string) : text := s2t s ++ [10].
Definition old_o : text := Eval vm_compute in ln "/**ADDRESS_STANDARDIZER*****".
Definition old_c : text := Eval vm_compute in ln " *****ADDRESS_STANDARDIZER**/".
Definition old_m : list text := Eval vm_compute in map ln [" * Copyright 2015"; " *"]%string.
Definition code : list text := Eval vm_compute in map ln ["#include <string>"; "int x;"]%string.
Definition lic_files : list (text * text) := Eval vm_compute in
  [(s2t "src/a.cpp", concat ((old_o :: old_m ++ [old_c]) ++ code)); (s2t "src/b.h", concat code); (s2t "src/archive/c.c", concat code); (s2t "src/trie.h", concat code); (s2t "README.md", concat code);
   (s2t "src/myarchive/d.c", shipped_header ++ concat code); (s2t "src/e.c", concat (old_o :: code))].
Lemma lic_ex : chosen [s2t "trie.h"] (s2t "src/a.cpp") /\ chosen [s2t "trie.h"] (s2t "src/b.h") /\ ~ chosen [s2t "trie.h"] (s2t "src/archive/c.c") /\ ~ chosen [s2t "trie.h"] (s2t "src/trie.h") /\
  ~ chosen [s2t "trie.h"] (s2t "README.md") /\ chosen [s2t "trie.h"] (s2t "src/myarchive/d.c") /\
  lines_of (concat ((old_o :: old_m ++ [old_c]) ++ code)) ([] ++ (old_o :: old_m ++ [old_c]) ++ code) /\ header_block (old_o :: old_m ++ [old_c]) /\ Forall plain_line code /\
  add_lic shipped_header [s2t "trie.h"] lic_files =
    [(s2t "src/a.cpp", shipped_header ++ concat code); (s2t "src/b.h", shipped_header ++ concat code); (s2t "src/archive/c.c", concat code); (s2t "src/trie.h", concat code); (s2t "README.md", concat code);
     (s2t "src/myarchive/d.c", shipped_header ++ concat code); (s2t "src/e.c", concat (old_o :: code))].
Proof.
  assert (NO : forall ex p, taken ex p = false -> ~ chosen ex p) by (intros ex p E C; apply taken_iff in C; congruence).
  split; [apply taken_iff; vm_compute; reflexivity|]. split; [apply taken_iff; vm_compute; reflexivity|]. split; [apply NO; vm_compute; reflexivity|]. split; [apply NO; vm_compute; reflexivity|].
  split; [apply NO; vm_compute; reflexivity|]. split; [apply taken_iff; vm_compute; reflexivity|]. split; [|split; [|split; [|vm_compute; reflexivity]]].
  - set (t := concat _). assert (E : raw_lines t = [] ++ (old_o :: old_m ++ [old_c]) ++ code) by (vm_compute; reflexivity). rewrite <- E. apply raw_is.
  - apply block_by; try (vm_compute; reflexivity). cbn. lia.
  - repeat (apply Forall_cons; [apply plain_by; vm_compute; reflexivity|]). constructor.
Qed.
(** An old header of more than 20 lines stays. *)
Lemma long_stays : exists p o mid c r, chosen [] p /\ opens o /\ closes c /\ Forall plain_line mid /\ List.length mid = 19%nat /\ Forall plain_line r /\ lines_of (concat ((o :: mid ++ [c]) ++ r)) ((o :: mid ++ [c]) ++ r) /\
  add_lic shipped_header [] [(p, concat ((o :: mid ++ [c]) ++ r))] = [(p, shipped_header ++ concat ((o :: mid ++ [c]) ++ r))].
Proof.
  exists (s2t "a.c"), old_o, (repeat (ln " *") 19), old_c, code. split; [apply taken_iff; vm_compute; reflexivity|]. split; [apply open_iff; vm_compute; reflexivity|]. split; [apply close_iff; vm_compute; reflexivity|].
  split; [apply Forall_forall; intros x X; apply repeat_spec in X; subst x; apply plain_by; vm_compute; reflexivity|]. split; [reflexivity|]. split; [repeat (apply Forall_cons; [apply plain_by; vm_compute; reflexivity|]); constructor|].
  split; [|vm_compute; reflexivity]. set (t := concat _). assert (E : raw_lines t = (old_o :: repeat (ln " *") 19 ++ [old_c]) ++ code) by (vm_compute; reflexivity). rewrite <- E. apply raw_is.
Qed.
(** With a second block further down, the header at the top stays: line 0 counts as not found, and the second opening line is taken for the first. *)
Lemma later_stays : exists p b x d y, chosen [] p /\ header_block b /\ header_block d /\ Forall plain_line x /\ Forall plain_line y /\ lines_of (concat (b ++ x ++ d ++ y)) (b ++ x ++ d ++ y) /\
  add_lic shipped_header [] [(p, concat (b ++ x ++ d ++ y))] = [(p, shipped_header ++ concat (b ++ x ++ d ++ y))].
Proof.
  exists (s2t "a.c"), (old_o :: old_m ++ [old_c]), code, (old_o :: [ln "text"] ++ [old_c]), [ln "end"]. split; [apply taken_iff; vm_compute; reflexivity|].
  split; [apply block_by; try (vm_compute; reflexivity); cbn; lia|]. split; [apply block_by; try (vm_compute; reflexivity); cbn; lia|].
  split; [repeat (apply Forall_cons; [apply plain_by; vm_compute; reflexivity|]); constructor|]. split; [repeat (apply Forall_cons; [apply plain_by; vm_compute; reflexivity|]); constructor|].
  split; [|vm_compute; reflexivity]. set (t := concat _). match goal with |- lines_of t ?l => assert (E : raw_lines t = l) by (vm_compute; reflexivity); rewrite <- E end. apply raw_is.
Qed.
(** A header file whose last line is not ended is put before the files at each run. *)
Lemma no_end_twice : exists hd fs, (forall s, hd <> s ++ [10]) /\ add_lic hd [] (add_lic hd [] fs) <> add_lic hd [] fs.
Proof.
  exists (s2t "/* X */"), [(s2t "a.c", concat code)]. split; [intros s E; apply (f_equal (fun l => last l 0)) in E; rewrite last_last in E; vm_compute in E; discriminate E|]. vm_compute. discriminate.
Qed.
(** With a second closing line further down, the lines up to it are lost, code and all. *)
Lemma code_lost : exists p b x c y, chosen [] p /\ header_block b /\ Forall plain_line x /\ x <> [] /\ closes c /\ ~ opens c /\ Forall plain_line y /\ lines_of (concat (b ++ x ++ c :: y)) (b ++ x ++ c :: y) /\
  add_lic shipped_header [] [(p, concat (b ++ x ++ c :: y))] = [(p, shipped_header ++ concat y)].
Proof.
  exists (s2t "a.c"), (old_o :: old_m ++ [old_c]), code, (ln "// *ADDRESS_STANDARDIZER**/ ends a header"), [ln "end"]. split; [apply taken_iff; vm_compute; reflexivity|].
  split; [apply block_by; try (vm_compute; reflexivity); cbn; lia|]. split; [repeat (apply Forall_cons; [apply plain_by; vm_compute; reflexivity|]); constructor|]. split; [discriminate|].
  split; [apply close_iff; vm_compute; reflexivity|]. split; [intro K; apply open_iff in K; vm_compute in K; discriminate K|]. split; [repeat (apply Forall_cons; [apply plain_by; vm_compute; reflexivity|]); constructor|].
  split; [|vm_compute; reflexivity]. set (t := concat _). match goal with |- lines_of t ?l => assert (E : raw_lines t = l) by (vm_compute; reflexivity); rewrite <- E end. apply raw_is.
Qed.
