(** Derivations stay below the excess of their sections; a procedure that computes excesses. *)
From Coq Require Import List NArith ZArith Lia Bool.
From Verif Require Import Base_model Class_model Float_model Token_model Rule_model Search_model Search_spec Excess_spec Grammar_spec
  Loaded_spec Search_proofs SearchTop_proofs Loaded_proofs.
Import ListNotations.

Lemma total_cons : forall v n l, total v (n :: l) = match v n, total v l with Some x, Some y => Some (x + y)%Z | _, _ => None end.
Proof. reflexivity. Qed.
Lemma total_app : forall v a b, total v (a ++ b) =
  match total v a, total v b with Some x, Some y => Some (x + y)%Z | _, _ => None end.
Proof.
  intros v a b. induction a as [|n a IH]; cbn [app].
  - change (total v []) with (Some 0%Z). destruct (total v b); reflexivity.
  - rewrite !total_cons, IH. destruct (v n), (total v a), (total v b); try reflexivity. f_equal. lia.
Qed.
Lemma derives_excess : forall g v, excess g v -> forall names k rs, derives g names k rs ->
  exists x, total v names = Some x /\ (Z.of_nat k - Z.of_nat (List.length (rule_inputs rs)) <= x)%Z.
Proof.
  intros g v (EM & ER) names k rs D. induction D as [|ms refs rest k rs I1 I2 D IH|sec r rest k rs I1 I2 D IH].
  - exists 0%Z. split; [reflexivity|cbn; lia].
  - destruct IH as (x & T & L). rewrite total_app in T.
    destruct (total v (map f_name refs)) as [a|] eqn:TA; [|discriminate]. destruct (total v rest) as [b|] eqn:TB; [|discriminate].
    injection T as <-. destruct (EM ms refs a I1 I2 TA) as (y & Y & LY). exists (y + b)%Z. split; [|lia].
    rewrite total_cons, Y, TB. reflexivity.
  - destruct IH as (x & T & L). destruct (ER sec r I1 I2) as (y & Y & LY). exists (y + x)%Z. split.
    + rewrite total_cons, Y, T. reflexivity.
    + unfold rule_inputs in *. cbn [map concat]. rewrite app_length. lia.
Qed.
Lemma within_length : forall g node k rs, within_limit g node -> derives g [node] k rs -> k <= List.length (rule_inputs rs) + 2.
Proof.
  intros g node k rs (v & E & B) D. destruct (derives_excess g v E _ _ _ D) as (x & T & L). rewrite total_cons in T. change (total v []) with (Some 0%Z) in T.
  destruct (v node) as [y|]; [|discriminate]. specialize (B y eq_refl). injection T as <-. lia.
Qed.
Lemma search_within : forall g node phrase, linked g -> within_limit g node -> (combinations phrase <= 2 ^ 32)%N ->
  In node (section_names g) ->
  exists ps, search_node g node phrase = Ok ps /\
    forall rs, In rs (map p_rules ps) <-> exists k, derives g [node] k rs /\ chooses phrase (rule_inputs rs).
Proof.
  intros g node phrase L W C N. destruct (search_defined g node phrase L N) as (ps & E). exists ps. split; [exact E|].
  intros rs. split.
  - intros I. apply in_map_iff in I. destruct I as (p & <- & I). destruct (search_sound g node phrase ps p L E I) as (k & M & _).
    exists k. exact M.
  - intros (k & D & Ch). pose proof (chooses_length _ _ Ch) as CL. pose proof (within_length _ _ _ _ W D) as K.
    destruct (search_complete g node phrase k rs L C (conj D Ch)) as (ps' & p & E' & I & <-); [lia|].
    rewrite E in E'. injection E' as <-. apply in_map, I.
Qed.

(** ** Computing excesses: longest replacements of bounded height, and a check that higher ones are not longer. *)
Definition tab := list (text * option Z).
Fixpoint tab_get (t : tab) (n : text) : option Z :=
  match t with [] => None | (m, x) :: t' => if teqb m n then x else tab_get t' n end.
Definition omax (a b : option Z) : option Z :=
  match a, b with Some x, Some y => Some (Z.max x y) | Some x, None => Some x | None, _ => b end.
Definition meta_excess (v : text -> option Z) (ms : metasection) : option Z :=
  fold_right (fun refs a => omax (match total v (map f_name refs) with Some x => Some (1 + x)%Z | None => None end) a) None (ms_rules ms).
Definition rule_excess (sec : rulesection) : option Z :=
  fold_right (fun r a => omax (Some (- Z.of_nat (List.length (r_in r)))%Z) a) None (rs_rules sec).
Definition next_tab (g : grammar) (t : tab) : tab :=
  map (fun ms => (ms_name ms, meta_excess (tab_get t) ms)) (g_metas g)
  ++ map (fun sec => (rs_name sec, rule_excess sec)) (g_rules g).
Fixpoint tab_rounds (n : nat) (g : grammar) (t : tab) : tab :=
  match n with O => t | S n' => tab_rounds n' g (next_tab g t) end.
Definition ole (a b : option Z) : bool :=
  match a, b with Some x, Some y => Z.leb x y | Some _, None => false | None, _ => true end.
Definition excess_tab (g : grammar) : tab := tab_rounds (S (List.length (section_names g))) g [].
Definition excess_b (g : grammar) (t : tab) : bool :=
  forallb (fun ms => ole (meta_excess (tab_get t) ms) (tab_get t (ms_name ms))) (g_metas g)
  && forallb (fun sec => ole (rule_excess sec) (tab_get t (rs_name sec))) (g_rules g).
Definition within_b (g : grammar) (node : text) : bool :=
  let t := excess_tab g in excess_b g t && ole (tab_get t node) (Some 2%Z).

Lemma ole_trans : forall a b c, ole a b = true -> ole b c = true -> ole a c = true.
Proof. intros [a|] [b|] [c|]; cbn; intros; try discriminate; try reflexivity. lia. Qed.
Lemma omax_l : forall a b, ole a (omax a b) = true.
Proof. intros [a|] [b|]; cbn; try reflexivity; lia. Qed.
Lemma omax_r : forall a b, ole b (omax a b) = true.
Proof. intros [a|] [b|]; cbn; try reflexivity; lia. Qed.
Lemma ole_some : forall x b, ole (Some x) b = true -> exists y, b = Some y /\ (x <= y)%Z.
Proof. intros x [y|] H; cbn in H; [|discriminate]. exists y. split; [reflexivity|lia]. Qed.
Lemma meta_excess_ge : forall v ms refs, In refs (ms_rules ms) ->
  ole (match total v (map f_name refs) with Some x => Some (1 + x)%Z | None => None end) (meta_excess v ms) = true.
Proof.
  intros v [nm rs] refs. unfold meta_excess. cbn [ms_rules]. induction rs as [|r rs IH]; cbn [In fold_right]; intros [].
  - subst r. apply omax_l.
  - eapply ole_trans; [apply IH; assumption|apply omax_r].
Qed.
Lemma rule_excess_ge : forall sec r, In r (rs_rules sec) ->
  ole (Some (- Z.of_nat (List.length (r_in r)))%Z) (rule_excess sec) = true.
Proof.
  intros [nm rs] r. unfold rule_excess. cbn [rs_rules]. induction rs as [|a rs IH]; cbn [In fold_right]; intros [].
  - subst a. apply omax_l.
  - eapply ole_trans; [apply IH; assumption|apply omax_r].
Qed.
Lemma excess_b_ok : forall g t, excess_b g t = true -> excess g (tab_get t).
Proof.
  intros g t H. unfold excess_b in H. apply andb_true_iff in H. destruct H as (A & B).
  rewrite forallb_forall in A, B. split.
  - intros ms refs x I1 I2 T. apply ole_some. eapply ole_trans; [|apply A, I1].
    pose proof (meta_excess_ge (tab_get t) ms refs I2) as M. rewrite T in M. exact M.
  - intros sec r I1 I2. apply ole_some. eapply ole_trans; [|apply B, I1]. apply rule_excess_ge, I2.
Qed.
Lemma within_b_ok : forall g node, within_b g node = true -> within_limit g node.
Proof.
  intros g node H. unfold within_b in H. apply andb_true_iff in H. destruct H as (A & B).
  exists (tab_get (excess_tab g)). split; [apply excess_b_ok, A|].
  intros x E. rewrite E in B. cbn in B. lia.
Qed.
