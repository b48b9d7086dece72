(** The number of matches: a bound for all grammars, and a grammar with exponentially many. *)
From Coq Require Import String List NArith ZArith Bool Lia Arith Sorting.Sorted Sorting.Permutation Floats.SpecFloat.
From Verif Require Import Base_model Class_model Class_spec Float_model Uni_model Token_model Rule_model Search_model Grammar_model Sample_model Search_spec Grammar_spec Loaded_spec Order_spec Count_spec
  Enum_proofs Search_proofs SearchTop_proofs Loaded_proofs Order_proofs OrderTop_proofs Answer_proofs Pattern_proofs.
Import ListNotations.

Lemma sum_times : forall ds, List.length (flat_map (fun m => repeat m (l_times m)) ds) = list_sum (map l_times ds).
Proof. induction ds as [|d ds IH]; [reflexivity|]. cbn [flat_map map list_sum fold_right]. rewrite app_length, repeat_length. unfold list_sum in IH. lia. Qed.
Lemma sum_bound : forall A (f : A -> nat) b l, (forall x, In x l -> f x <= b) -> list_sum (map f l) <= List.length l * b.
Proof.
  induction l as [|x l IH]; intros H; [cbn; lia|]. cbn [map list_sum fold_right List.length]. assert (K := H x (or_introl eq_refl)).
  assert (K2 := IH (fun y I => H y (or_intror I))). unfold list_sum in K2. lia.
Qed.

(** ** At most *)
Lemma fitting_bound : forall rs pat, fitting rs pat <= List.length rs.
Proof. intros rs pat. unfold fitting. induction rs as [|r rs IH]; [cbn; lia|]. cbn [filter List.length]. destruct (if list_eq_dec _ _ _ then true else false); cbn [List.length]; lia. Qed.
Lemma traced_bound : forall g a w, lines_at_most g a -> width g w -> forall names pat k cs rs n rem, traced g names pat k cs rs n rem ->
  Forall (fun c => c < a) cs /\ List.length cs <= List.length names + k * w /\ n <= S a ^ List.length cs.
Proof.
  intros g a w (LM & LR) W names pat k cs rs n rem H.
  induction H as [rem|ms i refs rest pat k cs rs n rem I E H IH|sec i r rest pat k cs rs n rem I E H IH].
  - split; [constructor|]. cbn. lia.
  - destruct IH as (A & B & C). assert (Li : i < a) by (apply Nat.lt_le_trans with (List.length (ms_rules ms)); [apply nth_error_Some; congruence|exact (LM ms I)]).
    assert (Wr := W ms refs I (nth_error_In _ _ E)). rewrite app_length, map_length in B. split; [constructor; assumption|]. cbn [List.length Nat.pow]. split; [lia|].
    assert (0 < S a ^ List.length cs) by (apply Nat.neq_0_lt_0, Nat.pow_nonzero; discriminate). lia.
  - destruct IH as (A & B & C). assert (Li : i < a) by (apply Nat.lt_le_trans with (List.length (rs_rules sec)); [apply nth_error_Some; congruence|exact (LR sec I)]).
    split; [constructor; assumption|]. cbn [List.length]. split; [lia|]. cbn [Nat.pow].
    assert (F : fitting (rs_rules sec) (r_in r ++ pat) <= S a) by (assert (F := fitting_bound (rs_rules sec) (r_in r ++ pat)); assert (G := LR sec I); lia).
    destruct rest; [lia|]. assert (M := Nat.mul_le_mono _ _ _ _ F C). exact M.
Qed.
Lemma pad_inj : forall a x y i j, Forall (fun c => c < a) x -> Forall (fun c => c < a) y -> x ++ repeat a i = y ++ repeat a j -> x = y.
Proof.
  intros a. induction x as [|c x IH]; intros y i j Hx Hy E.
  - destruct y as [|d y]; [reflexivity|]. destruct i as [|i]; [discriminate|]. injection E as -> _. inversion Hy; subst. lia.
  - inversion Hx; subst. destruct y as [|d y].
    + destruct j as [|j]; [discriminate|]. injection E as -> _. lia.
    + injection E as -> E. inversion Hy; subst. f_equal. eapply IH; eassumption.
Qed.
Lemma cart_length : forall A n (s : list A), List.length (cart (repeat s n)) = List.length s ^ n.
Proof.
  intros A. induction n as [|n IH]; intros s; [reflexivity|]. cbn [repeat cart Nat.pow]. rewrite <- IH. remember (cart (repeat s n)) as c. clear.
  induction s as [|x s IH]; [reflexivity|]. cbn [flat_map List.length]. rewrite app_length, map_length, IH. lia.
Qed.
Lemma cart_combinations : forall ts, N.of_nat (List.length (cart (map t_in ts))) = combinations ts.
Proof.
  induction ts as [|k ts IH]; [reflexivity|]. cbn [map cart combinations fold_right]. fold (combinations ts). rewrite <- IH. remember (cart (map t_in ts)) as c. clear.
  rewrite <- Nnat.Nat2N.inj_mul. f_equal. induction (t_in k) as [|x s IH]; [reflexivity|]. cbn [flat_map List.length]. rewrite app_length, map_length, IH. lia.
Qed.
Lemma sorted_keys : forall B (key : listing -> B) ds, (forall x y, In x ds -> In y ds -> key x = key y -> l_classes x = l_classes y /\ l_choices x = l_choices y) ->
  StronglySorted earlier ds -> NoDup (map key ds).
Proof.
  intros B key ds K H. induction H as [|x ds H IH F]; cbn [map]; constructor.
  - intros I. apply in_map_iff in I. destruct I as (y & E & J). rewrite Forall_forall in F. specialize (F y J).
    destruct (K x y (or_introl eq_refl) (or_intror J) (eq_sym E)) as (E1 & E2). destruct F as [F|(_ & F)].
    + rewrite E1 in F. exact (lex_asym _ _ F F).
    + rewrite E2 in F. exact (choice_asym _ _ F F).
  - apply IH. intros y z I J. apply K; right; assumption.
Qed.
Lemma count_bound : forall g a w node phrase ps, is_loaded g -> lines_at_most g a -> width g w -> (combinations phrase <= 2 ^ 32)%N -> Forall (fun k => is_inset (t_in k)) phrase ->
  search_node g node phrase = Ok ps ->
  (N.of_nat (List.length ps) <= combinations phrase * N.of_nat (S a) ^ N.of_nat (2 * ((List.length phrase + 2) * w + 1)))%N.
Proof.
  intros g a w node phrase ps HL LA W C Sp H. destruct (search_listed g node phrase ps (loaded_linked g HL) C Sp H) as (ds & ls & A1 & A2 & A3 & _ & A5).
  set (l := (List.length phrase + 2) * w + 1).
  assert (B : forall m, In m ds -> Forall (fun c => c < a) (l_choices m) /\ List.length (l_choices m) <= l /\ l_times m <= S a ^ l).
  { intros m I. apply A2 in I. destruct I as (_ & k & K & T). destruct (traced_bound g a w LA W _ _ _ _ _ _ _ T) as (T1 & T2 & T3). split; [exact T1|]. cbn [List.length] in T2.
    assert (Q : List.length (l_choices m) <= l) by (unfold l; assert (M := Nat.mul_le_mono_r _ _ w K); lia). split; [exact Q|].
    etransitivity; [exact T3|]. apply Nat.pow_le_mono_r; [discriminate|exact Q]. }
  assert (E1 : List.length ps = list_sum (map l_times ds)).
  { rewrite <- sum_times, <- (Permutation_length A5). rewrite <- (map_length p_rules ps), A3. apply map_length. }
  assert (E2 : list_sum (map l_times ds) <= List.length ds * S a ^ l) by (apply sum_bound; intros m I; apply (B m I)).
  set (key := fun m => (l_classes m, l_choices m ++ repeat a (l - List.length (l_choices m)))).
  assert (ND : NoDup (map key ds)).
  { apply sorted_keys; [|exact A1]. intros x y Ix Iy E. unfold key in E. injection E as Ea Eb. split; [exact Ea|]. destruct (B x Ix) as (Bx & _). destruct (B y Iy) as (By & _).
    eapply pad_inj; eassumption. }
  assert (IN : incl (map key ds) (list_prod (cart (map t_in phrase)) (cart (repeat (List.seq 0 (S a)) l)))).
  { intros q I. apply in_map_iff in I. destruct I as (m & <- & I). unfold key. apply in_prod.
    - apply A2 in I. destruct I as (I & _). apply cart_In. clear -I. unfold chooses in I. induction I; cbn [map]; constructor; assumption.
    - destruct (B m I) as (B1 & B2 & _). apply cart_In.
      assert (G : forall x, Forall (fun c => c < S a) x -> Forall2 (fun s y => In y s) (repeat (List.seq 0 (S a)) (List.length x)) x).
      { induction 1 as [|y x Hy Hx IH]; cbn [List.length repeat]; constructor; [apply in_seq; lia|exact IH]. }
      assert (EL : List.length (l_choices m ++ repeat a (l - List.length (l_choices m))) = l) by (rewrite app_length, repeat_length; clearbody l; lia).
      assert (G1 := G (l_choices m ++ repeat a (l - List.length (l_choices m)))). rewrite EL in G1. apply G1. apply Forall_app. split; [eapply Forall_impl; [|exact B1]; intros y Hy; cbn beta in *; clearbody l; lia|]. apply Forall_forall. intros y Hy. apply repeat_spec in Hy. subst y. cbn beta. apply Nat.lt_succ_diag_r. }
  apply NoDup_incl_length in IN; [|exact ND]. rewrite map_length, prod_length, cart_length, seq_length in IN.
  rewrite <- cart_combinations. rewrite <- Nnat.Nat2N.inj_pow, <- Nnat.Nat2N.inj_mul. fold l.
  assert (F : List.length ps <= List.length (cart (map t_in phrase)) * S a ^ (2 * l)).
  { rewrite E1. etransitivity; [exact E2|]. replace (2 * l) with (l + l) by lia. rewrite Nat.pow_add_r, Nat.mul_assoc. apply Nat.mul_le_mono_r. exact IN. }
  clearbody l. lia.
Qed.

(** ** Exactly *)
Definition many_g : grammar := grammar_of (load_sample many_src).
Lemma many_loaded : is_loaded many_g.
Proof.
  unfold many_g. remember (load_sample many_src) as o eqn:E. destruct o as [L|m|].
  - exists ascii_uni, sample_atof, (s2t many_src), L. split; [apply ascii_uni_ok|]. split; auto.
  - exfalso. vm_compute in E. discriminate.
  - exfalso. vm_compute in E. discriminate.
Qed.
Definition w_name : text := s2t "W".
Definition half : flt := f32_dec 5 1.
Definition w_rule (b : bool) : rule := mkRule [I_WORD] [if b then O_CITY else O_STREET] half.
Lemma many_sections : (exists a b c, g_metas many_g = [mkMeta ADDRESS [[a]; [b; c]]] /\ f_name a = w_name /\ f_name b = w_name /\ f_name c = ADDRESS) /\
  g_rules many_g = [mkRules w_name [w_rule false; w_rule true]].
Proof. split; [|vm_compute; reflexivity]. do 3 eexists. split; [vm_compute; reflexivity|]. repeat split. Qed.
Definition bit (b : bool) : nat := if b then 1 else 0.
Fixpoint picks (bs : list bool) : list nat :=
  match bs with
  | [] => []
  | b :: bs' => match bs' with [] => [0; bit b] | _ => 1 :: bit b :: picks bs' end
  end.
Lemma address_inv : forall rest pat k cs rs n rem, traced many_g (ADDRESS :: rest) pat k cs rs n rem ->
  exists k' cs', k = S k' /\ (cs = 0 :: cs' /\ traced many_g (w_name :: rest) pat k' cs' rs n rem \/ cs = 1 :: cs' /\ traced many_g (w_name :: ADDRESS :: rest) pat k' cs' rs n rem).
Proof.
  intros rest pat k cs rs n rem H. destruct many_sections as ((a & b & c & E & Ea & Eb & Ec) & R).
  inversion H as [|ms i refs rest' pat' k' cs' rs' n' rem' I Q T E1|sec i r rest' pat' k' cs' rs' n' rem' I Q T E1]; subst.
  - rewrite E in I. destruct I as [<-|[]]. exists k', cs'. split; [reflexivity|]. cbn [ms_rules] in Q. destruct i as [|[|i]].
    + injection Q as <-. left. split; [reflexivity|]. cbn [map app] in T. rewrite Ea in T. exact T.
    + injection Q as <-. right. split; [reflexivity|]. cbn [map app] in T. rewrite Eb, Ec in T. exact T.
    + destruct i; discriminate Q.
  - rewrite R in I. destruct I as [<-|[]]. discriminate E1.
Qed.
Lemma fitting_words : forall pat, fitting [w_rule false; w_rule true] (I_WORD :: pat) = 2.
Proof. intros pat. reflexivity. Qed.
Lemma word_inv : forall rest pat k cs rs n rem, traced many_g (w_name :: rest) pat k cs rs n rem ->
  exists b pat' cs' rs' n', pat = I_WORD :: pat' /\ cs = bit b :: cs' /\ rs = w_rule b :: rs' /\ traced many_g rest pat' k cs' rs' n' rem /\ n = match rest with [] => n' | _ => 2 * n' end.
Proof.
  intros rest pat k cs rs n rem H. destruct many_sections as ((a & b & c & E & Ea & Eb & Ec) & R).
  inversion H as [|ms i refs rest' pat' k' cs' rs' n' rem' I Q T E1|sec i r rest' pat' k' cs' rs' n' rem' I Q T E1]; subst.
  - rewrite E in I. destruct I as [<-|[]]. discriminate E1.
  - rewrite R in I. destruct I as [<-|[]]. cbn [rs_rules] in *.
    assert (D : exists d, i = bit d /\ r = w_rule d) by (destruct i as [|[|i]]; [exists false; injection Q as <-; auto|exists true; injection Q as <-; auto|destruct i; discriminate Q]).
    destruct D as (d & -> & ->). exists d, pat', cs', rs', n'. split; [destruct d; reflexivity|]. split; [reflexivity|]. split; [reflexivity|]. split; [exact T|].
    destruct rest; [reflexivity|]. destruct d; reflexivity.
Qed.
Lemma nil_inv : forall pat k cs rs n rem, traced many_g [] pat k cs rs n rem -> k = 0 /\ cs = [] /\ rs = [] /\ n = 1 /\ pat = rem.
Proof. intros pat k cs rs n rem H. inversion H; subst; auto. Qed.
Lemma address_step : forall i names rest pat k cs rs n rem, (i = 0 /\ names = [w_name] \/ i = 1 /\ names = [w_name; ADDRESS]) ->
  traced many_g (names ++ rest) pat k cs rs n rem -> traced many_g (ADDRESS :: rest) pat (S k) (i :: cs) rs n rem.
Proof.
  intros i names rest pat k cs rs n rem I T. destruct many_sections as ((a & b & c & E & Ea & Eb & Ec) & _).
  destruct I as [(-> & ->)|(-> & ->)].
  - apply (tr_meta many_g (mkMeta ADDRESS [[a]; [b; c]]) 0 [a] rest); [rewrite E; left; reflexivity|reflexivity|]. cbn [map]. rewrite Ea. exact T.
  - apply (tr_meta many_g (mkMeta ADDRESS [[a]; [b; c]]) 1 [b; c] rest); [rewrite E; left; reflexivity|reflexivity|]. cbn [map]. rewrite Eb, Ec. exact T.
Qed.
Lemma word_step : forall b rest pat k cs rs n rem, traced many_g rest pat k cs rs n rem ->
  traced many_g (w_name :: rest) (I_WORD :: pat) k (bit b :: cs) (w_rule b :: rs) (match rest with [] => n | _ => 2 * n end) rem.
Proof.
  intros b rest pat k cs rs n rem T. destruct many_sections as (_ & R).
  assert (H := tr_rule many_g (mkRules w_name [w_rule false; w_rule true]) (bit b) (w_rule b) rest pat k cs rs n rem). cbn [rs_rules rs_name] in H.
  replace (r_in (w_rule b) ++ pat) with (I_WORD :: pat) in H by (destruct b; reflexivity). rewrite fitting_words in H. apply H; [rewrite R; left; reflexivity|destruct b; reflexivity|exact T].
Qed.
Lemma many_traced : forall n k cs rs t, traced many_g [ADDRESS] (repeat I_WORD (S n)) k cs rs t [] <->
  exists bs, List.length bs = S n /\ k = S n /\ cs = picks bs /\ rs = map w_rule bs /\ t = 2 ^ n.
Proof.
  induction n as [|n IH]; intros k cs rs t; split.
  - intros H. apply address_inv in H. destruct H as (k' & cs' & -> & [(-> & H)|(-> & H)]); apply word_inv in H; destruct H as (b & pat' & cs2 & rs' & n' & E & -> & -> & H & ->); injection E as <-.
    + apply nil_inv in H. destruct H as (-> & -> & -> & -> & _). exists [b]. repeat split.
    + apply address_inv in H. destruct H as (? & ? & _ & [(_ & H)|(_ & H)]); apply word_inv in H; destruct H as (? & ? & ? & ? & ? & H & _); discriminate H.
  - intros (bs & L & -> & -> & -> & ->). destruct bs as [|b [|]]; try discriminate L. cbn [picks map]. apply (address_step 0 [w_name]); [left; auto|]. cbn [app].
    apply (word_step b [] [] 0 [] [] 1 []). constructor.
  - intros H. apply address_inv in H. destruct H as (k' & cs' & -> & [(-> & H)|(-> & H)]); apply word_inv in H; destruct H as (b & pat' & cs2 & rs' & n' & E & -> & -> & H & ->); injection E as <-.
    + apply nil_inv in H. destruct H as (_ & _ & _ & _ & H). discriminate H.
    + apply IH in H. destruct H as (bs & L & -> & -> & -> & ->). exists (b :: bs). cbn [List.length]. rewrite L. split; [reflexivity|]. split; [reflexivity|].
      destruct bs as [|b' bs]; [discriminate L|]. split; [reflexivity|]. split; reflexivity.
  - intros (bs & L & -> & -> & -> & ->). destruct bs as [|b [|b' bs]]; try discriminate L. cbn [List.length] in L. injection L as L.
    change (picks (b :: b' :: bs)) with (1 :: bit b :: picks (b' :: bs)). apply (address_step 1 [w_name; ADDRESS]); [right; auto|]. cbn [app]. cbn [repeat map].
    apply (word_step b [ADDRESS] (I_WORD :: repeat I_WORD n) (S n) (picks (b' :: bs)) (w_rule b' :: map w_rule bs) (2 ^ n) []).
    apply (proj2 (IH (S n) _ _ _)). exists (b' :: bs). cbn [List.length]. rewrite L. repeat split.
Qed.
Fixpoint bools (n : nat) : list (list bool) := match n with O => [[]] | S n' => map (cons false) (bools n') ++ map (cons true) (bools n') end.
Lemma bools_in : forall n bs, In bs (bools n) <-> List.length bs = n.
Proof.
  induction n as [|n IH]; intros bs; cbn [bools].
  - destruct bs; split; [intros _; reflexivity|intros _; left; reflexivity|intros [H|[]]; discriminate H|discriminate].
  - rewrite in_app_iff, !in_map_iff. split.
    + intros [(x & <- & H)|(x & <- & H)]; apply IH in H; cbn [List.length]; congruence.
    + intros H. destruct bs as [|b bs]; [discriminate|]. injection H as H. apply IH in H. destruct b; [right|left]; exists bs; auto.
Qed.
Lemma bools_length : forall n, List.length (bools n) = 2 ^ n.
Proof. induction n as [|n IH]; [reflexivity|]. cbn [bools]. rewrite app_length, !map_length, IH. cbn [Nat.pow]. lia. Qed.
Lemma bools_nodup : forall n, NoDup (bools n).
Proof.
  induction n as [|n IH]; cbn [bools]; [constructor; [intros []|constructor]|].
  assert (M : forall b, NoDup (map (cons b) (bools n))) by (intros b; apply FinFun.Injective_map_NoDup; [intros x y E; congruence|exact IH]).
  assert (G : forall A (l l' : list A), NoDup l -> NoDup l' -> (forall x, In x l -> ~ In x l') -> NoDup (l ++ l')).
  { clear. intros A l l' H K D. induction H as [|x l X H IH]; [exact K|]. cbn [app]. constructor; [|apply IH; intros y I; apply D; right; exact I].
    rewrite in_app_iff. intros [I|I]; [exact (X I)|exact (D x (or_introl eq_refl) I)]. }
  apply G; [apply M|apply M|]. intros x I J. apply in_map_iff in I. apply in_map_iff in J. destruct I as (y & <- & _). destruct J as (z & E & _). discriminate E.
Qed.
Lemma words_choose : forall phrase pat, only_words phrase -> (chooses phrase pat <-> pat = repeat I_WORD (List.length phrase)).
Proof.
  intros phrase pat H. revert pat. induction H as [|k phrase E H IH]; intros pat; split.
  - intros C. inversion C. reflexivity.
  - intros ->. constructor.
  - intros C. inversion C as [|? c ? pat' Hc C']; subst. rewrite E in Hc. destruct Hc as [<-|[]]. cbn [List.length repeat]. f_equal. apply IH. exact C'.
  - intros ->. cbn [List.length repeat]. constructor; [rewrite E; left; reflexivity|]. apply IH. reflexivity.
Qed.
Lemma w_rule_inj : forall x y, map w_rule x = map w_rule y -> x = y.
Proof.
  induction x as [|a x IH]; intros [|b y] E; try discriminate E; [reflexivity|]. cbn [map] in E. injection E as E1 E2. f_equal; [destruct a, b; congruence || discriminate E1|apply IH; exact E2].
Qed.
Lemma words_simple : forall phrase, only_words phrase -> (combinations phrase = 1)%N /\ Forall (fun k => is_inset (t_in k)) phrase.
Proof.
  intros phrase H. split.
  - induction H as [|k phrase E H IH]; [reflexivity|]. cbn [combinations fold_right]. fold (combinations phrase). rewrite IH, E. reflexivity.
  - eapply Forall_impl; [|exact H]. intros k E. cbn beta in E. rewrite E. repeat constructor.
Qed.
Lemma count_exact : forall phrase, only_words phrase -> phrase <> [] -> exists ps, search many_g phrase = Ok ps /\
  List.length ps = 2 ^ (2 * List.length phrase - 1) /\
  exists ds, NoDup ds /\ List.length ds = 2 ^ List.length phrase /\ forall rs, In rs (map p_rules ps) <-> In rs ds.
Proof.
  intros phrase H NE. destruct (words_simple phrase H) as (C & Sp).
  destruct (search_defined many_g ADDRESS phrase (loaded_linked many_g many_loaded)) as (ps & E).
  { destruct many_sections as ((a & b & c & M & _) & _). unfold section_names. rewrite M. left. reflexivity. }
  exists ps. split; [exact E|]. destruct (search_listed many_g ADDRESS phrase ps (loaded_linked many_g many_loaded) ltac:(rewrite C; discriminate) Sp E) as (ds & ls & A1 & A2 & A3 & A4 & A5).
  assert (EN : exists n, List.length phrase = S n) by (destruct phrase; [congruence|eexists; reflexivity]). destruct EN as (n & EN).
  set (f := fun bs => mkL (repeat I_WORD (S n)) (picks bs) (map w_rule bs) (2 ^ n)).
  assert (IN : forall m, In m ds <-> In m (map f (bools (S n)))).
  { intros m. rewrite A2, in_map_iff. unfold listed_match. rewrite (words_choose phrase _ H), EN. split.
    - intros (Em & k & K & T). destruct m as [cl ch rs t]. cbn [l_classes l_choices l_rules l_times] in *. subst cl. apply many_traced in T. destruct T as (bs & L & -> & -> & -> & ->).
      exists bs. split; [reflexivity|]. apply bools_in. exact L.
    - intros (bs & <- & I). apply bools_in in I. cbn [f l_classes l_choices l_rules l_times]. split; [reflexivity|]. exists (S n). split; [lia|]. apply many_traced. exists bs. auto. }
  assert (PD : Permutation ds (map f (bools (S n)))).
  { apply NoDup_Permutation; [exact (sorted_nodup ds A1)| |exact IN]. apply FinFun.Injective_map_NoDup; [|apply bools_nodup]. intros x y Exy. unfold f in Exy. injection Exy as _ Exy. apply w_rule_inj. exact Exy. }
  split.
  - rewrite <- (map_length p_rules ps), A3, map_length, (Permutation_length A5), (Permutation_length (Permutation_flat_map _ PD)), sum_times, map_map. cbn [f l_times].
    rewrite EN. assert (G : forall (l : list (list bool)) c, list_sum (map (fun _ => c) l) = List.length l * c) by (clear; induction l as [|x l IH]; intros c; [reflexivity|cbn [map list_sum fold_right List.length]; unfold list_sum in IH; rewrite IH; lia]).
    rewrite G, bools_length, <- Nat.pow_add_r. f_equal. lia.
  - exists (map (map w_rule) (bools (S n))). split; [apply FinFun.Injective_map_NoDup; [intros x y; apply w_rule_inj|apply bools_nodup]|]. split; [rewrite map_length, bools_length, EN; reflexivity|].
    intros rs. rewrite A3, !in_map_iff. split.
    + intros (m & <- & I). apply (Permutation_in _ A5) in I. apply in_flat_map in I. destruct I as (d & I & J). apply repeat_spec in J. subst d. apply IN in I. apply in_map_iff in I.
      destruct I as (bs & <- & I). exists bs. auto.
    + intros (bs & <- & I). exists (f bs). split; [reflexivity|]. apply (echo_all _ _ _ _ _ A4). apply IN. apply in_map. exact I.
Qed.

(** ** No polynomial is enough *)
Lemma below_power : forall n, n < 2 ^ n.
Proof. intros n. apply Nat.pow_gt_lin_r. lia. Qed.
Lemma beats_polynomial : forall c d, exists n, 1 <= n /\ c * n ^ d < 2 ^ (2 * n - 1).
Proof.
  intros c d. set (j := 2 * d + c + 1). exists (2 ^ (2 * j)). assert (P : 1 <= 2 ^ (2 * j)) by (apply Nat.neq_0_lt_0, Nat.pow_nonzero; discriminate). split; [exact P|].
  rewrite <- Nat.pow_mul_r. apply Nat.lt_le_trans with (2 ^ c * 2 ^ (2 * j * d)).
  - apply Nat.mul_lt_mono_pos_r; [apply Nat.neq_0_lt_0, Nat.pow_nonzero; discriminate|apply below_power].
  - rewrite <- Nat.pow_add_r. apply Nat.pow_le_mono_r; [discriminate|]. assert (Q := below_power j). replace (2 * j) with (j + j) at 2 by lia. rewrite Nat.pow_add_r.
    assert (R := Nat.mul_le_mono (S j) (2 ^ j) (S j) (2 ^ j) Q Q). remember (2 ^ j) as x. clear Heqx P. unfold j in *. nia.
Qed.
Definition word_phrase (n : nat) : list token := repeat (tk "MAIN" [I_WORD]) n.
Lemma word_phrase_words : forall n, only_words (word_phrase n).
Proof. intros n. unfold only_words, word_phrase. apply Forall_forall. intros k I. apply repeat_spec in I. subst k. reflexivity. Qed.
Lemma no_polynomial : exists g, is_loaded g /\ forall c d, exists phrase ps, search g phrase = Ok ps /\ c * List.length phrase ^ d < List.length ps.
Proof.
  exists many_g. split; [exact many_loaded|]. intros c d. destruct (beats_polynomial c d) as (n & N1 & Q). exists (word_phrase n).
  destruct (count_exact (word_phrase n) (word_phrase_words n)) as (ps & E & L & _); [destruct n; [lia|discriminate]|]. exists ps. split; [exact E|]. rewrite L. unfold word_phrase. rewrite repeat_length. exact Q.
Qed.
Lemma count_setting : is_loaded many_g /\ lines_at_most many_g 2 /\ width many_g 2 /\ (combinations (word_phrase 3) <= 2 ^ 32)%N /\ Forall (fun k => is_inset (t_in k)) (word_phrase 3) /\
  exists ps, search_node many_g ADDRESS (word_phrase 3) = Ok ps /\ List.length ps = 32.
Proof.
  split; [exact many_loaded|]. destruct many_sections as ((a & b & c & M & _) & R).
  split; [unfold lines_at_most; rewrite M, R; split; intros x [<-|[]]; cbn; lia|]. split; [unfold width; rewrite M; intros x r [<-|[]] [<-|[<-|[]]]; cbn; lia|].
  destruct (words_simple _ (word_phrase_words 3)) as (C & Sp). split; [rewrite C; discriminate|]. split; [exact Sp|].
  destruct (count_exact (word_phrase 3) (word_phrase_words 3)) as (ps & E & L & _); [discriminate|]. exists ps. split; [exact E|exact L].
Qed.
Lemma count_rows : forall phrase, only_words phrase -> phrase <> [] -> exists rows, search_all many_g [phrase] = Ok rows /\ List.length rows = 2 ^ (2 * List.length phrase - 1).
Proof.
  intros phrase H NE. destruct (count_exact phrase H NE) as (ps & E & L & _).
  destruct (search_all_spec many_g [phrase] (loaded_linked _ many_loaded) (loaded_balanced _ many_loaded) (loaded_address _ many_loaded)) as (found & rows & F & R & _ & K).
  inversion F as [|? q ? qs Q F']; subst. inversion F'; subst. rewrite E in Q. injection Q as <-. cbn [List.concat] in K. rewrite app_nil_r in K.
  exists rows. split; [exact R|]. rewrite <- L. symmetry. assert (G : forall A B (R : A -> B -> Prop) l l', Forall2 R l l' -> List.length l = List.length l') by (clear; induction 1; cbn [List.length]; congruence). refine (G _ _ _ _ _ (K _)). intros ->. cbn [List.length] in L. symmetry in L. revert L. apply Nat.pow_nonzero. discriminate.
Qed.
