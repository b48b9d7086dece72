(** The matches listed by the search, in order and with their number. *)
From Coq Require Import List NArith ZArith Bool Lia Arith Sorting.Sorted Sorting.Permutation.
From Verif Require Import Base_model Class_model Token_model Rule_model Search_model Search_spec Order_spec Search_proofs.
Import ListNotations.

(** ** Lists *)
Lemma echoes_seen : forall A (s s' ds l : list A), (forall x, In x s -> In x s') -> echoes s ds l -> echoes s' ds l.
Proof.
  intros A s s' ds l H E. revert s' H. induction E as [s|x s ds l E IH|x s ds l I E IH]; intros s' H; [constructor|constructor|].
  - apply IH. intros y [->|K]; [left; reflexivity|right; auto].
  - apply echo_old; auto.
Qed.
Lemma echoes_in : forall A (s ds l : list A), echoes s ds l -> forall x, In x l -> In x s \/ In x ds.
Proof.
  intros A s ds l E. induction E as [s|x s ds l E IH|x s ds l I E IH]; intros y K; [destruct K| |].
  - destruct K as [->|K]; [right; left; reflexivity|]. destruct (IH y K) as [[->|Q]|Q]; [right; left; reflexivity|left; exact Q|right; right; exact Q].
  - destruct K as [->|K]; [left; exact I|auto].
Qed.
Lemma echoes_app : forall A (s d1 l1 d2 l2 : list A), echoes s d1 l1 -> echoes (d1 ++ s) d2 l2 -> echoes s (d1 ++ d2) (l1 ++ l2).
Proof.
  intros A s d1 l1 d2 l2 E. revert d2 l2. induction E as [s|x s ds l E IH|x s ds l I E IH]; intros d2 l2 F; [exact F| |]; cbn [app].
  - apply echo_new. apply IH. eapply echoes_seen; [|exact F]. intros y K. cbn [app] in K. destruct K as [->|K]; [apply in_app_iff; right; left; reflexivity|].
    apply in_app_iff in K. apply in_app_iff. destruct K as [K|K]; [left; exact K|right; right; exact K].
  - apply echo_old; [exact I|apply IH; exact F].
Qed.
Lemma echoes_again : forall A (s l : list A), (forall x, In x l -> In x s) -> echoes s [] l.
Proof. intros A s l. induction l as [|x l IH]; intros H; [constructor|]. apply echo_old; [apply H; left; reflexivity|apply IH; intros y K; apply H; right; exact K]. Qed.
Lemma echoes_map : forall A B (f : A -> B) (s ds l : list A), echoes s ds l -> echoes (map f s) (map f ds) (map f l).
Proof. intros A B f s ds l E. induction E; cbn [map]; constructor; try assumption. apply in_map. assumption. Qed.
Lemma echoes_filter : forall A (f : A -> bool) (s ds l : list A), echoes s ds l -> echoes (filter f s) (filter f ds) (filter f l).
Proof.
  intros A f s ds l E. induction E as [s|x s ds l E IH|x s ds l I E IH]; cbn [filter]; [constructor| |].
  - cbn [filter] in IH. destruct (f x); [constructor; exact IH|exact IH].
  - destruct (f x) eqn:F; [apply echo_old; [apply filter_In; auto|exact IH]|exact IH].
Qed.
Lemma sorted_app : forall A (R : A -> A -> Prop) a b, StronglySorted R a -> StronglySorted R b -> (forall x y, In x a -> In y b -> R x y) -> StronglySorted R (a ++ b).
Proof.
  intros A R a b Sa Sb H. induction Sa as [|x a Sa IH F]; [exact Sb|]. cbn [app]. constructor; [apply IH; intros y z K; apply H; right; exact K|].
  apply Forall_app. split; [exact F|]. apply Forall_forall. intros y K. apply H; [left; reflexivity|exact K].
Qed.
Lemma sorted_map : forall A B (R : A -> A -> Prop) (Q : B -> B -> Prop) (f : A -> B) l, (forall x y, R x y -> Q (f x) (f y)) -> StronglySorted R l -> StronglySorted Q (map f l).
Proof.
  intros A B R Q f l H Sl. induction Sl as [|x l Sl IH F]; [constructor|]. cbn [map]. constructor; [exact IH|]. apply Forall_map. eapply Forall_impl; [|exact F]. intros y. apply H.
Qed.
Lemma sorted_filter : forall A (R : A -> A -> Prop) (f : A -> bool) l, StronglySorted R l -> StronglySorted R (filter f l).
Proof.
  intros A R f l Sl. induction Sl as [|x l Sl IH F]; [constructor|]. cbn [filter]. destruct (f x); [|exact IH]. constructor; [exact IH|].
  apply Forall_forall. intros y K. apply filter_In in K. rewrite Forall_forall in F. apply F, K.
Qed.

(** ** Hits: results of the inner search *)
Record hit := mkHit { h_cs : list nat; h_rs : list rule; h_n : nat; h_rem : list intype }.
Definition hit_lt (a b : hit) : Prop := choice_lt (h_cs a) (h_cs b).
Definition copies (ds : list hit) : list hit := flat_map (fun h => repeat h (h_n h)) ds.
Definition lists (P : hit -> Prop) (l : list hit) : Prop :=
  exists ds, StronglySorted hit_lt ds /\ (forall h, In h ds <-> P h) /\ echoes [] ds l /\ Permutation l (copies ds).
Lemma lists_ext : forall (P Q : hit -> Prop) l, (forall h, P h <-> Q h) -> lists P l -> lists Q l.
Proof. intros P Q l E (ds & S1 & I & R). exists ds. split; [exact S1|]. split; [|exact R]. intros h. rewrite I. apply E. Qed.
Lemma lists_none : forall (P : hit -> Prop), (forall h, ~ P h) -> lists P [].
Proof. intros P H. exists []. split; [constructor|]. split; [intros h; split; [intros []|intros K; destruct (H h K)]|]. split; constructor. Qed.
Lemma copies_app : forall a b, copies (a ++ b) = copies a ++ copies b.
Proof. intros a b. unfold copies. apply flat_map_app. Qed.
Lemma lists_map : forall (P : hit -> Prop) (f : hit -> hit) l, (forall h, h_cs (f h) = h_cs h) -> (forall h, h_n (f h) = h_n h) -> lists P l ->
  lists (fun h => exists h', P h' /\ h = f h') (map f l).
Proof.
  intros P f l Hc Hn (ds & S1 & I & E & Q). exists (map f ds). split; [apply (sorted_map _ _ hit_lt); [|exact S1]; intros x y; unfold hit_lt; rewrite !Hc; auto|].
  split; [intros h; rewrite in_map_iff; split; [intros (h' & <- & K); exists h'; rewrite <- I; auto|intros (h' & K & ->); exists h'; rewrite I; auto]|].
  split; [exact (echoes_map _ _ f _ _ _ E)|]. apply (Permutation_map f) in Q. eapply Permutation_trans; [exact Q|]. clear - Hn.
  unfold copies. induction ds as [|h ds IH]; [constructor|]. cbn [flat_map map]. rewrite map_app, Hn. apply Permutation_app; [|exact IH]. clear.
  induction (h_n h) as [|n IH]; [constructor|]. cbn [repeat map]. constructor. exact IH.
Qed.
(** Alternatives, numbered from [a]. *)
Definition push (i : nat) (h : hit) : hit := mkHit (i :: h_cs h) (h_rs h) (h_n h) (h_rem h).
Fixpoint pushes (a : nat) (ls : list (list hit)) : list hit := match ls with [] => [] | l :: ls' => map (push a) l ++ pushes (S a) ls' end.
Lemma lists_push : forall Ps ls a, Forall2 lists Ps ls -> lists (fun h => exists i P h', nth_error Ps i = Some P /\ P h' /\ h = push (a + i) h') (pushes a ls).
Proof.
  intros Ps ls a F. revert a. induction F as [|P l Ps ls (ds & S1 & I & E & Q) F IH]; intros a.
  - apply lists_none. intros h (i & P & h' & K & _). destruct i; discriminate.
  - destruct (IH (S a)) as (dt & S2 & I2 & E2 & Q2). cbn [pushes]. exists (map (push a) ds ++ dt).
    assert (H2 : forall y, In y dt -> exists i c, h_cs y = i :: c /\ a < i).
    { intros y K. apply I2 in K. destruct K as (i & P0 & h' & _ & _ & ->). exists (S a + i), (h_cs h'). split; [reflexivity|lia]. }
    split; [|split; [|split]].
    + apply sorted_app; [apply (sorted_map _ _ hit_lt); [|exact S1]; intros x y K; apply choice_tail; exact K|exact S2|].
      intros x y Kx Ky. apply in_map_iff in Kx. destruct Kx as (x' & <- & _). destruct (H2 y Ky) as (i & c & Ec & L). unfold hit_lt. rewrite Ec. apply choice_head. exact L.
    + intros h. rewrite in_app_iff, in_map_iff. split.
      * intros [(h' & <- & K)|K].
        -- exists 0, P, h'. split; [reflexivity|]. split; [apply I; exact K|]. rewrite Nat.add_0_r. reflexivity.
        -- apply I2 in K. destruct K as (i & P0 & h' & N1 & N2 & ->). exists (S i), P0, h'. split; [exact N1|]. split; [exact N2|]. f_equal. lia.
      * intros (i & P0 & h' & N1 & N2 & ->). destruct i as [|i].
        -- injection N1 as <-. left. exists h'. rewrite Nat.add_0_r. split; [reflexivity|apply I; exact N2].
        -- right. apply I2. exists i, P0, h'. split; [exact N1|]. split; [exact N2|]. f_equal. lia.
    + apply echoes_app; [exact (echoes_map _ _ (push a) _ _ _ E)|]. eapply echoes_seen; [|exact E2]. intros x [].
    + rewrite copies_app. apply Permutation_app; [|exact Q2]. apply (Permutation_map (push a)) in Q. eapply Permutation_trans; [exact Q|]. clear.
      unfold copies. induction ds as [|h ds IH]; [constructor|]. cbn [flat_map map]. rewrite map_app. apply Permutation_app; [|exact IH]. cbn [push h_n]. clear.
      induction (h_n h) as [|n IH]; [constructor|]. cbn [repeat map]. constructor. exact IH.
Qed.
(** The whole list several times. *)
Definition scale (n : nat) (h : hit) : hit := mkHit (h_cs h) (h_rs h) (n * h_n h) (h_rem h).
Lemma repeat_app : forall A (x : A) a b, repeat x (a + b) = repeat x a ++ repeat x b.
Proof. intros A x a b. induction a as [|a IH]; [reflexivity|]. cbn [Nat.add repeat app]. rewrite IH. reflexivity. Qed.
Lemma concat_twice : forall A (a b : list A) n, Permutation (concat (repeat (a ++ b) n)) (concat (repeat a n) ++ concat (repeat b n)).
Proof.
  intros A a b n. induction n as [|n IH]; [constructor|]. cbn [repeat concat]. rewrite <- !app_assoc. apply Permutation_app_head.
  eapply Permutation_trans; [apply Permutation_app_head; exact IH|]. rewrite !app_assoc. apply Permutation_app_tail. apply Permutation_app_comm.
Qed.
Lemma concat_repeat : forall A (x : A) k n, concat (repeat (repeat x k) n) = repeat x (n * k).
Proof. intros A x k n. induction n as [|n IH]; [reflexivity|]. cbn [repeat concat Nat.mul]. rewrite IH, <- repeat_app. reflexivity. Qed.
Lemma map_repeat : forall A B (f : A -> B) x n, map f (repeat x n) = repeat (f x) n.
Proof. intros A B f x n. induction n as [|n IH]; [reflexivity|]. cbn [repeat map]. rewrite IH. reflexivity. Qed.
Lemma concat_nils : forall A n, concat (repeat (@nil A) n) = [].
Proof. intros A n. induction n as [|n IH]; [reflexivity|exact IH]. Qed.
Lemma copies_scale : forall n ds, Permutation (concat (repeat (map (scale n) (copies ds)) n)) (copies (map (scale n) ds)).
Proof.
  intros n ds. unfold copies. induction ds as [|h ds IH]; cbn [flat_map map].
  - rewrite concat_nils. constructor.
  - rewrite map_app. eapply Permutation_trans; [apply concat_twice|]. apply Permutation_app; [|exact IH]. rewrite map_repeat, concat_repeat. apply Permutation_refl.
Qed.
Lemma perm_repeat : forall A (a b : list A) n, Permutation a b -> Permutation (concat (repeat a n)) (concat (repeat b n)).
Proof. intros A a b n H. induction n as [|n IH]; [constructor|]. cbn [repeat concat]. apply Permutation_app; assumption. Qed.
Lemma lists_scale : forall P n l, 0 < n -> lists P l -> lists (fun h => exists h', P h' /\ h = scale n h') (concat (repeat (map (scale n) l) n)).
Proof.
  intros P n l Hn (ds & S1 & I & E & Q). exists (map (scale n) ds).
  split; [apply (sorted_map _ _ hit_lt); [|exact S1]; intros x y K; exact K|].
  split; [intros h; rewrite in_map_iff; split; [intros (h' & <- & K); exists h'; rewrite <- I; auto|intros (h' & K & ->); exists h'; rewrite I; auto]|].
  split.
  - destruct n as [|n]; [lia|]. cbn [repeat concat]. rewrite <- (app_nil_r (map (scale (S n)) ds)). apply echoes_app; [exact (echoes_map _ _ (scale (S n)) _ _ _ E)|].
    apply echoes_again. intros x K. apply in_concat in K. destruct K as (l' & K1 & K2). apply repeat_spec in K1. subst l'. rewrite app_nil_r. apply in_map_iff in K2. destruct K2 as (y & <- & K2).
    apply in_map. destruct (echoes_in _ _ _ _ E y K2) as [[]|K]. exact K.
  - eapply Permutation_trans; [apply perm_repeat, Permutation_map; exact Q|]. apply copies_scale.
Qed.

(** ** The inner search *)
Lemma sconcat_all : forall A B (f : A -> sres (list B)) l r, sconcat f l = Done r -> exists rs, Forall2 (fun x a => f x = Done a) l rs /\ r = concat rs.
Proof.
  intros A B f. induction l as [|x l IH]; intros r H; cbn [sconcat] in H; [injection H as <-; exists []; split; [constructor|reflexivity]|].
  destruct (f x) as [a| |] eqn:E; try discriminate. cbn [sbind] in H. destruct (sconcat f l) as [b| |]; try discriminate. cbn [sbind] in H. injection H as <-.
  destruct (IH b eq_refl) as (rs & F & ->). exists (a :: rs). split; [constructor; assumption|reflexivity].
Qed.
Definition hit_path (pre : list rule) (h : hit) : spath := mkPath (pre ++ h_rs h) [] (h_rem h).
Definition reached (g : grammar) (lim level : nat) (names : list text) (pat : list intype) (h : hit) : Prop :=
  exists k, level + k <= lim /\ traced g names pat k (h_cs h) (h_rs h) (h_n h) (h_rem h).
Lemma nodup_parts : forall A (a b : list A), NoDup (a ++ b) -> NoDup a /\ NoDup b.
Proof.
  intros A a b. induction a as [|x a IH]; cbn [app]; intros H; [split; [constructor|exact H]|]. inversion H as [|? ? N1 N2]; subst. destruct (IH N2) as (A1 & A2).
  split; [constructor; [intros K; apply N1, in_app_iff; left; exact K|exact A1]|exact A2].
Qed.
Lemma meta_same : forall g ms ms', linked g -> In ms (g_metas g) -> In ms' (g_metas g) -> ms_name ms' = ms_name ms -> ms' = ms.
Proof.
  intros g ms ms' L I I' E. assert (N := lk_unique _ L). unfold section_names in N. apply nodup_parts in N. destruct N as (N & _). clear L.
  induction (g_metas g) as [|m l IH]; [destruct I|]. cbn [map] in N. inversion N as [|? ? N1 N2]; subst. destruct I as [->|I], I' as [->|I']; [reflexivity| | |auto].
  - exfalso. apply N1. rewrite <- E. apply in_map. exact I'.
  - exfalso. apply N1. rewrite E. apply in_map. exact I.
Qed.
Lemma rule_same : forall g ms ms', linked g -> In ms (g_rules g) -> In ms' (g_rules g) -> rs_name ms' = rs_name ms -> ms' = ms.
Proof.
  intros g ms ms' L I I' E. assert (N := lk_unique _ L). unfold section_names in N. apply nodup_parts in N. destruct N as (_ & N). clear L.
  induction (g_rules g) as [|m l IH]; [destruct I|]. cbn [map] in N. inversion N as [|? ? N1 N2]; subst. destruct I as [->|I], I' as [->|I']; [reflexivity| | |auto].
  - exfalso. apply N1. rewrite <- E. apply in_map. exact I'.
  - exfalso. apply N1. rewrite E. apply in_map. exact I.
Qed.
Lemma meta_rule_apart : forall g ms sec, linked g -> In ms (g_metas g) -> In sec (g_rules g) -> ms_name ms <> rs_name sec.
Proof.
  intros g ms sec L I J E. assert (N := lk_unique _ L). unfold section_names in N. revert N. induction (g_metas g) as [|m l IH]; [destruct I|]. cbn [map app]. intros N. inversion N as [|? ? N1 N2]; subst.
  destruct I as [->|I]; [|exact (IH I N2)]. apply N1. apply in_app_iff. right. rewrite E. apply in_map. exact J.
Qed.
Lemma traced_meta : forall g ms rest pat k cs rs n rem, linked g -> In ms (g_metas g) ->
  (traced g (ms_name ms :: rest) pat k cs rs n rem <->
   exists i refs k' cs', nth_error (ms_rules ms) i = Some refs /\ k = S k' /\ cs = i :: cs' /\ traced g (map f_name refs ++ rest) pat k' cs' rs n rem).
Proof.
  intros g ms rest pat k cs rs n rem L I. split.
  - intros H. inversion H as [|ms' i refs ? ? k' cs' ? ? ? I' N T|sec i r ? ? ? ? ? ? ? I' N T]; subst.
    + match goal with E : ms_name _ = ms_name _ |- _ => rewrite (meta_same g ms ms' L I I' E) in * end. exists i, refs, k', cs'. auto.
    + exfalso. apply (meta_rule_apart g ms sec L I I'). symmetry. assumption.
  - intros (i & refs & k' & cs' & N & -> & -> & T). exact (tr_meta g ms i refs rest pat k' cs' rs n rem I N T).
Qed.
Lemma traced_rule : forall g sec rest pat k cs rs n rem, linked g -> In sec (g_rules g) ->
  (traced g (rs_name sec :: rest) pat k cs rs n rem <->
   exists i r pat' cs' rs' n', nth_error (rs_rules sec) i = Some r /\ pat = r_in r ++ pat' /\ cs = i :: cs' /\ rs = r :: rs' /\ traced g rest pat' k cs' rs' n' rem /\
     n = match rest with [] => n' | _ => fitting (rs_rules sec) pat * n' end).
Proof.
  intros g sec rest pat k cs rs n rem L I. split.
  - intros H. inversion H as [|ms' i refs ? ? k' cs' ? ? ? I' N T|sec' i r ? pat' ? cs' rs' n' ? I' N T]; subst.
    + exfalso. apply (meta_rule_apart g ms' sec L I' I). assumption.
    + match goal with E : rs_name _ = rs_name _ |- _ => rewrite (rule_same g sec sec' L I I' E) in * end. exists i, r, pat', cs', rs', n'. auto 10.
  - intros (i & r & pat' & cs' & rs' & n' & N & -> & -> & -> & T & ->). exact (tr_rule g sec i r rest pat' k cs' rs' n' rem I N T).
Qed.
Lemma match_rule_cases : forall r p, match_rule r p = match strip_prefix (r_in r) (p_rem p) with Some rest => Some (mkPath (p_rules p ++ [r]) (p_next p) rest) | None => None end.
Proof.
  intros r p. unfold match_rule. destruct (Nat.ltb_spec (List.length (p_rem p)) (List.length (r_in r))) as [H|H]; [|reflexivity].
  destruct (strip_prefix (r_in r) (p_rem p)) as [rest|] eqn:E; [|reflexivity]. apply strip_prefix_app in E. rewrite E, app_length in H. lia.
Qed.
Lemma fitting_count : forall rs p, List.length (match_rules rs p) = fitting rs (p_rem p).
Proof.
  intros rs p. unfold fitting. induction rs as [|r rs IH]; [reflexivity|]. cbn [match_rules filter]. rewrite match_rule_cases.
  destruct (list_eq_dec class_dec (firstn (List.length (r_in r)) (p_rem p)) (r_in r)) as [E|E].
  - assert (K : strip_prefix (r_in r) (p_rem p) = Some (skipn (List.length (r_in r)) (p_rem p))).
    { apply strip_prefix_app. rewrite <- E at 1. symmetry. apply firstn_skipn. }
    rewrite K. cbn [List.length]. congruence.
  - destruct (strip_prefix (r_in r) (p_rem p)) as [rest|] eqn:K; [|exact IH]. exfalso. apply E. apply strip_prefix_app in K. rewrite K. rewrite firstn_app, Nat.sub_diag, firstn_all. apply app_nil_r.
Qed.
(** Loops over the rules that fit, as loops over all rules. *)
Lemma loop_rules : forall (G : spath -> sres (list spath)) rs p b, sconcat G (match_rules rs p) = Done b ->
  exists bs, Forall2 (fun r a => match match_rule r p with Some q => G q = Done a | None => a = [] end) rs bs /\ b = concat bs.
Proof.
  intros G rs p. induction rs as [|r rs IH]; intros b H; cbn [match_rules] in H.
  - injection H as <-. exists []. split; [constructor|reflexivity].
  - destruct (match_rule r p) as [q|] eqn:E.
    + cbn [sconcat] in H. destruct (G q) as [a| |] eqn:Eq; try discriminate. cbn [sbind] in H. destruct (sconcat G (match_rules rs p)) as [c| |] eqn:Ec; try discriminate. cbn [sbind] in H.
      injection H as <-. destruct (IH c eq_refl) as (bs & F & ->). exists (a :: bs). split; [constructor; [rewrite E; exact Eq|exact F]|reflexivity].
    + destruct (IH b H) as (bs & F & ->). exists ([] :: bs). split; [constructor; [rewrite E; reflexivity|exact F]|reflexivity].
Qed.
Lemma same_body : forall A B (G : A -> sres (list B)) b l r, l <> [] -> (forall x, In x l -> G x = b) -> sconcat G l = Done r ->
  exists c, b = Done c /\ r = concat (repeat c (List.length l)).
Proof.
  intros A B G b l r N H. revert r N. induction l as [|x l IH]; intros r N K; [congruence|]. cbn [sconcat] in K. rewrite (H x (or_introl eq_refl)) in K.
  destruct b as [c| |]; try discriminate. cbn [sbind] in K. exists c. split; [reflexivity|]. destruct l as [|y l].
  - cbn [sconcat sbind] in K. injection K as <-. reflexivity.
  - destruct (sconcat G (y :: l)) as [d| |] eqn:E; try discriminate. cbn [sbind] in K. injection K as <-.
    destruct (IH (fun z Hz => H z (or_intror Hz)) d ltac:(discriminate) eq_refl) as (c' & Ec & ->). injection Ec as <-. reflexivity.
Qed.
Definition next_lists (f : nat) : Prop := forall g lim p level l, linked g -> Forall (ref_ok g) (p_next p) -> p_next p <> [] ->
  match_next f g lim p level = Done l -> exists hs, l = map (hit_path (p_rules p)) hs /\ lists (reached g lim (S level) (map f_name (p_next p)) (p_rem p)) hs.
Definition meta_lists (f : nat) : Prop := forall g lim sp p level l, linked g -> ref_ok g sp -> Forall (ref_ok g) (p_next p) -> f_meta sp <> None ->
  do_match f g lim sp p level = Done l -> exists hs, l = map (hit_path (p_rules p)) hs /\ lists (reached g lim level (f_name sp :: map f_name (p_next p)) (p_rem p)) hs.
Lemma paths_push : forall pre ls a, map (hit_path pre) (pushes a ls) = concat (map (map (hit_path pre)) ls).
Proof.
  intros pre ls. induction ls as [|l ls IH]; intros a; [reflexivity|]. cbn [pushes map concat]. rewrite map_app, IH, map_map. reflexivity.
Qed.
Lemma forall2_split : forall A B C (R : A -> B -> Prop) (Q : A -> C -> Prop) (f : C -> B) la lb, (forall a b, In a la -> R a b -> exists c, b = f c /\ Q a c) -> Forall2 R la lb ->
  exists lc, lb = map f lc /\ Forall2 Q la lc.
Proof.
  intros A B C R Q f la lb H F. induction F as [|a b la lb Hab F IH]; [exists []; split; [reflexivity|constructor]|].
  destruct (H a b (or_introl eq_refl) Hab) as (c & -> & Hc). destruct IH as (lc & -> & Hl); [intros a' b' I; apply H; right; exact I|]. exists (c :: lc). split; [reflexivity|constructor; assumption].
Qed.
Lemma forall2_map_l : forall A B C (R : B -> C -> Prop) (f : A -> B) la lc, Forall2 (fun a c => R (f a) c) la lc -> Forall2 R (map f la) lc.
Proof. intros A B C R f la lc F. induction F; cbn [map]; constructor; assumption. Qed.
Lemma lists_one : forall h, h_n h = 1 -> lists (eq h) [h].
Proof.
  intros h E. exists [h]. split; [constructor; constructor|]. split; [intros h'; split; [intros [K|[]]; exact K|intros K; left; exact K]|].
  split; [constructor; constructor|]. unfold copies. cbn [flat_map]. rewrite E. apply Permutation_refl.
Qed.
Lemma match_rules_next : forall rs p q, In q (match_rules rs p) -> p_next q = p_next p.
Proof. intros rs p q H. apply match_rules_In in H. destruct H as (r & _ & _ & _ & E). exact E. Qed.
Lemma nth_map_inv : forall A B (f : A -> B) l j b, nth_error (map f l) j = Some b -> exists a, nth_error l j = Some a /\ f a = b.
Proof. intros A B f. induction l as [|a l IH]; intros [|j] b H; try discriminate; [injection H as <-; exists a; auto|exact (IH j b H)]. Qed.
Lemma nth_map_to : forall A B (f : A -> B) l j a, nth_error l j = Some a -> nth_error (map f l) j = Some (f a).
Proof. intros A B f. induction l as [|b l IH]; intros [|j] a H; try discriminate; [injection H as <-; reflexivity|exact (IH j a H)]. Qed.
Lemma meta_step : forall f, next_lists f -> meta_lists (S f).
Proof.
  intros f IH g lim sp p level l L Rs Rn Nm H. cbn [do_match] in H. destruct (Nat.ltb_spec lim level) as [Q|Q].
  { injection H as <-. exists []. split; [reflexivity|]. apply lists_none. intros h (k & K & _). lia. }
  destruct Rs as [(i & ms & Em & Ni & En)|(Em & _)]; [|congruence]. rewrite Em, Ni in H. apply sconcat_all in H. destruct H as (rs & F & ->). assert (Im := nth_error_In _ _ Ni).
  apply (forall2_split _ _ _ _ (fun refs hs => lists (reached g lim (S level) (map f_name refs ++ map f_name (p_next p)) (p_rem p)) hs) (map (hit_path (p_rules p)))) in F.
  - destruct F as (hss & -> & G). exists (pushes 0 hss). split; [rewrite paths_push; reflexivity|].
    apply (forall2_map_l _ _ _ lists (fun refs => reached g lim (S level) (map f_name refs ++ map f_name (p_next p)) (p_rem p))) in G. apply (lists_push _ _ 0) in G.
    eapply lists_ext; [|exact G]. intros h. rewrite <- En. unfold reached. split.
    + intros (j & P & h' & Nj & K & ->). apply nth_map_inv in Nj. destruct Nj as (refs & Ej & <-). destruct K as (k & K1 & K2).
      exists (S k). split; [lia|]. apply traced_meta; [exact L|exact Im|]. exists j, refs, k, (h_cs h'). cbn [push h_cs h_rs h_n h_rem Nat.add]. auto.
    + intros (k & K1 & K2). apply traced_meta in K2; [|exact L|exact Im]. destruct K2 as (j & refs & k' & cs' & Nj & -> & Ec & T).
      exists j, (reached g lim (S level) (map f_name refs ++ map f_name (p_next p)) (p_rem p)), (mkHit cs' (h_rs h) (h_n h) (h_rem h)). split; [exact (nth_map_to _ _ _ _ _ _ Nj)|].
      split; [exists k'; split; [lia|exact T]|]. unfold push. cbn [h_cs h_rs h_n h_rem Nat.add]. rewrite <- Ec. destruct h; reflexivity.
  - intros refs b Ir Hb. assert (Nr : refs <> []) by exact (lk_nonempty _ L _ _ Im Ir).
    assert (Hb' : match_next f g lim (mkPath (p_rules p) (refs ++ p_next p) (p_rem p)) level = Done b) by (destruct refs; [congruence|exact Hb]). clear Hb.
    apply IH in Hb'; [|exact L| |].
    + destruct Hb' as (hs & -> & G). exists hs. split; [reflexivity|]. cbn [p_next p_rem] in G. rewrite map_app in G. exact G.
    + cbn [p_next]. apply Forall_app. split; [|exact Rn]. apply Forall_forall. intros r Hr. exact (lk_refs _ L _ _ _ Im Ir Hr).
    + cbn [p_next]. destruct refs; [congruence|discriminate].
Qed.
Lemma next_step : forall f, meta_lists f -> next_lists f -> next_lists (S f).
Proof.
  intros f IHm IHn g lim p level l L Rn Nn H. cbn [match_next] in H. destruct (p_next p) as [|sp rest] eqn:En; [congruence|]. clear Nn. inversion Rn as [|? ? Rs Rr]; subst.
  destruct (do_match f g lim sp (mkPath (p_rules p) rest (p_rem p)) (S level)) as [mr| |] eqn:Em; try discriminate. cbn [sbind] in H.
  destruct (f_meta sp) as [i0|] eqn:Es.
  - apply IHm in Em; [|exact L|exact Rs|exact Rr|congruence]. destruct Em as (hs & -> & G). cbn [p_rules p_next p_rem] in G, H. exists hs. split; [|exact G].
    clear G. revert l H. induction hs as [|h hs IH]; intros l H; [injection H as <-; reflexivity|]. change (map (hit_path (p_rules p)) (h :: hs)) with (hit_path (p_rules p) h :: map (hit_path (p_rules p)) hs) in H.
    assert (E1 : forall F, sconcat (fun result => match p_next result with [] => Done [result] | _ :: _ => F end) (map (hit_path (p_rules p)) hs) = Done (map (hit_path (p_rules p)) hs)).
    { intros F. clear. induction hs as [|h hs IH]; [reflexivity|]. cbn [map sconcat hit_path p_next sbind]. cbn [hit_path] in IH. rewrite IH. reflexivity. }
    cbn [sconcat] in H. cbn [hit_path p_next] in H. cbn [hit_path] in E1. rewrite E1 in H. cbn [sbind app] in H. injection H as <-. reflexivity.
  - destruct Rs as [(i & ms & Em' & _)|(_ & i & sec & Er & Ni & Ename)]; [congruence|]. assert (Is := nth_error_In _ _ Ni).
    destruct f as [|f']; [discriminate|]. cbn [do_match] in Em. destruct (Nat.ltb_spec lim (S level)) as [Q|Q].
    { injection Em as <-. cbn [sconcat] in H. injection H as <-. exists []. split; [reflexivity|]. apply lists_none. intros h (k & K & _). lia. }
    rewrite Es, Er, Ni in Em. injection Em as Em. set (p' := mkPath (p_rules p) rest (p_rem p)) in *.
    assert (HN : forall q, In q mr -> p_next q = rest) by (intros q Hq; rewrite <- Em in Hq; exact (match_rules_next _ _ _ Hq)).
    assert (Fit := fitting_count (rs_rules sec) p'). rewrite Em in Fit. cbn [p_rem p'] in Fit.
    assert (RT : forall h, reached g lim (S level) (map f_name (sp :: rest)) (p_rem p) h <-> exists j r rem h', nth_error (rs_rules sec) j = Some r /\ p_rem p = r_in r ++ rem /\
               reached g lim (S level) (map f_name rest) rem h' /\ h = mkHit (j :: h_cs h') (r :: h_rs h') (match rest with [] => h_n h' | _ => fitting (rs_rules sec) (p_rem p) * h_n h' end) (h_rem h')).
    { intros h. unfold reached. cbn [map]. rewrite <- Ename. split.
      - intros (k & K & T). apply traced_rule in T; [|exact L|exact Is]. destruct T as (j & r & pat' & cs' & rs' & n' & Nj & Ep & Ec & Er' & T & En').
        exists j, r, pat', (mkHit cs' rs' n' (h_rem h)). split; [exact Nj|]. split; [exact Ep|]. split; [exists k; auto|]. destruct h as [hc hr hn hm]. cbn [h_cs h_rs h_n h_rem] in *.
        rewrite Ec, Er', En'. destruct rest; reflexivity.
      - intros (j & r & rem & h' & Nj & Ep & (k & K & T) & ->). exists k. split; [exact K|]. apply traced_rule; [exact L|exact Is|]. cbn [h_cs h_rs h_n h_rem].
        exists j, r, rem, (h_cs h'), (h_rs h'), (h_n h'). split; [exact Nj|]. split; [exact Ep|]. split; [reflexivity|]. split; [reflexivity|]. split; [exact T|]. destruct rest; reflexivity. }
    destruct rest as [|sp2 rest2].
    + (* the last section *)
      assert (El : l = mr).
      { clear - HN H. revert l H. assert (E1 : forall F l', (forall q, In q l' -> p_next q = []) -> sconcat (fun result => match p_next result with [] => Done [result] | _ :: _ => F end) l' = Done l').
        { intros F l'. induction l' as [|q l' IH]; intros HM; [reflexivity|]. cbn [sconcat]. rewrite (HM q (or_introl eq_refl)), IH by (intros z Hz; apply HM; right; exact Hz). reflexivity. }
        intros l H. rewrite E1 in H by exact HN. injection H as <-. reflexivity. }
      subst l. rewrite <- Em. set (alt := fun r => match strip_prefix (r_in r) (p_rem p) with Some rem => [mkHit [] [r] 1 rem] | None => [] end).
      exists (pushes 0 (map alt (rs_rules sec))). split.
      { rewrite paths_push. clear. induction (rs_rules sec) as [|r rs IH]; [reflexivity|]. cbn [match_rules map concat]. rewrite match_rule_cases. cbn [p_rem p' p_rules p_next].
        unfold alt at 1. destruct (strip_prefix (r_in r) (p_rem p)) as [rem|]; [|exact IH]. cbn [map app]. rewrite IH. reflexivity. }
      assert (G : Forall2 lists (map (fun r h => exists rem, strip_prefix (r_in r) (p_rem p) = Some rem /\ mkHit [] [r] 1 rem = h) (rs_rules sec)) (map alt (rs_rules sec))).
      { clear. induction (rs_rules sec) as [|r rs IH]; [constructor|]. cbn [map]. constructor; [|exact IH]. unfold alt. destruct (strip_prefix (r_in r) (p_rem p)) as [rem|].
        - eapply lists_ext; [|apply (lists_one (mkHit [] [r] 1 rem)); reflexivity]. intros h. split; [intros <-; exists rem; auto|intros (rem' & E & <-); injection E as <-; reflexivity].
        - apply lists_none. intros h (rem & K & _). discriminate. }
      apply (lists_push _ _ 0) in G. eapply lists_ext; [|exact G]. intros h. rewrite RT. split.
      * intros (j & P & h' & Nj & K & ->). apply nth_map_inv in Nj. destruct Nj as (r & Ej & <-). destruct K as (rem & K & <-).
        apply strip_prefix_app in K. exists j, r, rem, (mkHit [] [] 1 rem). split; [exact Ej|]. split; [exact K|]. split; [exists 0; split; [lia|constructor]|reflexivity].
      * intros (j & r & rem & h' & Nj & Ep & (k & Kk & T) & ->). inversion T as [rem' E1 E2 E3 E4 E5 E6| |]; subst.
        exists j. eexists. exists (mkHit [] [r] 1 (h_rem h')). split; [exact (nth_map_to _ _ _ _ _ _ Nj)|]. split; [exists (h_rem h'); split; [apply strip_prefix_app; exact Ep|reflexivity]|reflexivity].
    + destruct mr as [|q0 mr0] eqn:Emr.
      { cbn [sconcat] in H. injection H as <-. exists []. split; [reflexivity|]. apply lists_none. intros h K. apply RT in K. destruct K as (j & r & rem & h' & Nj & Ep & _).
        assert (I : In (mkPath (p_rules p ++ [r]) (sp2 :: rest2) rem) (match_rules (rs_rules sec) p')) by (apply match_rules_In; exists r; split; [exact (nth_error_In _ _ Nj)|]; auto).
        rewrite Em in I. destruct I. }
      rewrite <- Emr in *. assert (Nmr : mr <> []) by (rewrite Emr; discriminate). clear Emr q0 mr0.
      apply (same_body _ _ _ (sconcat (fun q => match p_next q with [] => Done [] | _ :: _ => match_next (S f') g lim q level end) mr)) in H; [|exact Nmr|intros q Hq; rewrite (HN q Hq); reflexivity].
      destruct H as (c & Hc & ->). rewrite <- Em in Hc. apply loop_rules in Hc. destruct Hc as (bs & F & ->).
      apply (forall2_split _ _ _ _ (fun r hs => lists (fun h => exists rem h0, strip_prefix (r_in r) (p_rem p) = Some rem /\ reached g lim (S level) (map f_name (sp2 :: rest2)) rem h0 /\
               h = mkHit (h_cs h0) (r :: h_rs h0) (h_n h0) (h_rem h0)) hs) (map (hit_path (p_rules p)))) in F.
      * destruct F as (hss & -> & G). set (n := List.length mr) in *. exists (concat (repeat (map (scale n) (pushes 0 hss)) n)). split.
        { rewrite concat_map, map_repeat, map_map. change (fun x => hit_path (p_rules p) (scale n x)) with (hit_path (p_rules p)). rewrite paths_push. reflexivity. }
        apply (forall2_map_l _ _ _ lists (fun r h => exists rem h0, strip_prefix (r_in r) (p_rem p) = Some rem /\ reached g lim (S level) (map f_name (sp2 :: rest2)) rem h0 /\
               h = mkHit (h_cs h0) (r :: h_rs h0) (h_n h0) (h_rem h0))) in G. apply (lists_push _ _ 0) in G. apply (lists_scale _ n) in G; [|unfold n; destruct mr; [congruence|cbn [List.length]; lia]].
        eapply lists_ext; [|exact G]. intros h. rewrite RT. split.
        -- intros (h1 & (j & P & h2 & Nj & K & ->) & ->). apply nth_map_inv in Nj. destruct Nj as (r & Ej & <-).
           destruct K as (rem & h0 & K1 & K2 & ->). apply strip_prefix_app in K1. exists j, r, rem, h0. split; [exact Ej|]. split; [exact K1|]. split; [exact K2|].
           unfold scale, push. cbn [h_cs h_rs h_n h_rem Nat.add]. rewrite Fit. reflexivity.
        -- intros (j & r & rem & h0 & Nj & Ep & K & ->). exists (push j (mkHit (h_cs h0) (r :: h_rs h0) (h_n h0) (h_rem h0))). split.
           ++ exists j. eexists. exists (mkHit (h_cs h0) (r :: h_rs h0) (h_n h0) (h_rem h0)). split; [exact (nth_map_to _ _ _ _ _ _ Nj)|]. split; [|reflexivity].
              exists rem, h0. split; [apply strip_prefix_app; exact Ep|]. auto.
           ++ unfold scale, push. cbn [h_cs h_rs h_n h_rem Nat.add]. rewrite Fit. reflexivity.
      * intros r b Ir Hb. rewrite match_rule_cases in Hb. cbn [p_rem p' p_rules p_next] in Hb. destruct (strip_prefix (r_in r) (p_rem p)) as [rem|] eqn:Er'.
        -- cbn [p_next] in Hb. apply IHn in Hb; [|exact L|exact Rr|discriminate]. destruct Hb as (hs & -> & G). cbn [p_rules p_next p_rem] in G |- *.
           apply (lists_map _ (fun h => mkHit (h_cs h) (r :: h_rs h) (h_n h) (h_rem h))) in G; [|reflexivity|reflexivity].
           exists (map (fun h => mkHit (h_cs h) (r :: h_rs h) (h_n h) (h_rem h)) hs). split.
           ++ rewrite map_map. apply map_ext. intros h. unfold hit_path. cbn [h_rs h_rem]. rewrite <- app_assoc. reflexivity.
           ++ eapply lists_ext; [|exact G]. intros h. split.
              ** intros (h0 & K & ->). exists rem, h0. auto.
              ** intros (rem' & h0 & K1 & K2 & ->). injection K1 as <-. exists h0. auto.
        -- subst b. exists []. split; [reflexivity|]. apply lists_none. intros h (rem & h0 & K & _). discriminate.
Qed.
Lemma inner_lists : forall f, meta_lists f /\ next_lists f.
Proof.
  induction f as [|f (IHm & IHn)]; [split; intros g; intros; discriminate|]. split; [apply meta_step; exact IHn|apply next_step; assumption].
Qed.
