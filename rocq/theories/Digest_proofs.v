(** The digest of a grammar. *)
From Coq Require Import String List NArith ZArith Bool Lia.
From Verif Require Import Base_model Class_model Float_model Uni_model Rule_model Search_model Grammar_model Md5_model Lexicon_model
  Grammar_spec GrammarLoad_proofs Digest_model Digest_spec.
Import ListNotations.
Local Open Scope N_scope.

(** What the loop collects. *)
Fixpoint gather (fuel : nat) (first : bool) (is : stream) (line : text) : text :=
  match fuel with
  | O => []
  | S f => if s_fail is then []
           else let (is', raw) := getline LF is line in
                raw ++ gather f false is' (if first then match strip_bom raw with Ok l => l | _ => [] end else raw)
  end.
Lemma loop_gather : forall f u atof first is line s acc,
  load_loop_d f u atof first is line s acc = obind (load_loop f u atof first is line s) (fun s' => Ok (s', acc ++ gather f first is line)).
Proof.
  induction f as [|f IH]; intros u atof first is line s acc; [reflexivity|]. cbn [load_loop_d load_loop gather].
  destruct (s_fail is); [cbn [obind]; rewrite app_nil_r; reflexivity|]. destruct (getline LF is line) as [is' raw].
  assert (G : forall l, (if first then match strip_bom raw with Ok l => l | _ => [] end else raw) = l ->
     obind (load_line u atof s l) (fun s' => load_loop_d f u atof false is' l s' (acc ++ raw)) =
     obind (obind (load_line u atof s l) (fun s' => load_loop f u atof false is' l s')) (fun s' => Ok (s', acc ++ raw ++
        gather f false is' (if first then match strip_bom raw with Ok l => l | _ => [] end else raw)))).
  { intros l ->. destruct (load_line u atof s l) as [s'|m|]; cbn [obind]; [|reflexivity|reflexivity]. rewrite IH, <- app_assoc. reflexivity. }
  destruct first.
  - destruct (strip_bom raw) as [l|m|]; cbn [obind]; [apply G; reflexivity|reflexivity|reflexivity].
  - cbn [obind]. apply G. reflexivity.
Qed.
Lemma pieces_last_cons : forall a t, last (a :: pieces t) [] = last (pieces t) [].
Proof. intros a t. pose proof (pieces_nonempty t). destruct (pieces t); [congruence|reflexivity]. Qed.
Lemma span_run : forall t, match span_to 10 t with
  | (a, Some r) => run_together t = a ++ run_together r /\ last_piece t = last_piece r
  | (a, None) => run_together t = a /\ last_piece t = a
  end.
Proof.
  intros t. assert (H : match span_to 10 t with (a, Some r) => run_together t = a ++ run_together r | (a, None) => run_together t = a end).
  { unfold run_together. induction t as [|c t IH]; cbn [span_to filter]; [reflexivity|]. destruct (c =? 10); cbn [negb]; [reflexivity|].
    destruct (span_to 10 t) as [a [r|]]; rewrite IH; reflexivity. }
  pose proof (span_to_pieces t) as K. destruct (span_to 10 t) as [a [r|]].
  - destruct K as (K & _). split; [exact H|]. unfold last_piece. rewrite K. apply pieces_last_cons.
  - destruct K as (-> & K). split; [exact H|]. unfold last_piece. rewrite K. reflexivity.
Qed.
Lemma gather_plain : forall n f t first line, (List.length t <= n)%nat -> (n + 3 <= f)%nat -> (first = true -> ~ has_bom t) ->
  gather f first (mkStream t false false) line = run_together t ++ last_piece t.
Proof.
  induction n as [|n IH]; intros f t first line Ht Hf Hb; (destruct f as [|f]; [lia|]); cbn [gather s_fail]; unfold getline; cbn [s_eof s_fail orb s_rest];
    pose proof (span_run t) as R; pose proof (span_to_pieces t) as K; change LF with 10; destruct (span_to 10 t) as [a [r|]] eqn:E.
  - destruct K as (_ & K). lia.
  - destruct t; [|cbn in Ht; lia]. cbn [span_to] in E. injection E as <-. destruct f as [|f]; [lia|]. destruct first; reflexivity.
  - destruct R as (-> & ->). destruct K as (K1 & K2).
    assert (Hs : (if first then match strip_bom a with Ok l => l | _ => [] end else a) = a).
    { destruct first; [|reflexivity]. rewrite strip_nobom; [reflexivity|].
      destruct a as [|c a]; auto. intros ->. apply (Hb eq_refl).
      destruct t as [|c t]; cbn [span_to] in E; [discriminate|]. destruct (c =? 10); [discriminate|].
      destruct (span_to 10 t). injection E; intros; subst. exists t. reflexivity. }
    rewrite Hs, <- app_assoc. f_equal. apply IH; [lia|lia|discriminate].
  - destruct R as (-> & ->). destruct K as (-> & K).
    assert (Hs : (if first then match strip_bom t with Ok l => l | _ => [] end else t) = t).
    { destruct first; [|reflexivity]. rewrite strip_nobom; [reflexivity|]. destruct t as [|c t]; auto. intros ->. apply (Hb eq_refl). exists t. reflexivity. }
    rewrite Hs. f_equal. destruct t as [|c t]; destruct f as [|[|f]]; try lia; [reflexivity|]. cbn [gather s_fail]. unfold getline. cbn [s_eof s_fail orb s_rest].
    cbn [gather s_fail]. rewrite app_nil_r. reflexivity.
Qed.
Lemma gather_mark : forall d t, d < 128 -> d <> 10 ->
  gather (List.length (0xFEFF :: d :: t) + 3) true (open_stream (0xFEFF :: d :: t)) [] = run_together (0xFEFF :: d :: t) ++ last_piece t.
Proof.
  intros d t H1 H2. unfold open_stream. replace (List.length (0xFEFF%N :: d :: t) + 3)%nat with (S (List.length t + 4)) by (simpl; lia).
  cbn [gather s_fail]. unfold getline. cbn [s_eof s_fail orb s_rest]. change LF with 10.
  cbn [span_to]. replace (0xFEFF =? 10) with false by reflexivity. replace (d =? 10) with false by (symmetry; apply N.eqb_neq; exact H2).
  assert (R0 : run_together (0xFEFF :: d :: t) = 0xFEFF :: d :: run_together t).
  { unfold run_together. cbn [filter]. replace (0xFEFF =? 10) with false by reflexivity. replace (d =? 10) with false by (symmetry; apply N.eqb_neq; exact H2). reflexivity. }
  rewrite R0. assert (Hl : Nat.eqb (utf8_len d) 1 = true).
  { unfold utf8_len. replace (d <? 0x80) with true by (symmetry; apply N.ltb_lt; exact H1). reflexivity. }
  pose proof (span_run t) as R. pose proof (span_to_pieces t) as K. destruct (span_to 10 t) as [a [r|]] eqn:E.
  - cbn [strip_bom]. replace (0xFEFF =? BOM) with true by reflexivity. rewrite Hl. destruct R as (-> & ->). destruct K as (_ & K).
    cbn [app]. do 2 f_equal. rewrite <- app_assoc. f_equal. apply (gather_plain (List.length t)); [lia|lia|discriminate].
  - cbn [strip_bom]. replace (0xFEFF =? BOM) with true by reflexivity. rewrite Hl. destruct R as (-> & ->). destruct K as (-> & K).
    cbn [app]. do 3 f_equal. replace (List.length t + 4)%nat with (S (S (List.length t + 2))) by lia.
    cbn [gather s_fail]. unfold getline. cbn [s_eof s_fail orb s_rest]. cbn [gather s_fail]. rewrite app_nil_r. reflexivity.
Qed.
Lemma gather_effective : forall src t, effective src t -> gather (List.length src + 3) true (open_stream src) [] = run_together src ++ last_piece t.
Proof.
  intros src t H. destruct H as [t H|d t H1 H2]; [|apply gather_mark; assumption].
  unfold open_stream. apply (gather_plain (List.length t)); [lia|lia|auto].
Qed.
Lemma load_digest : forall u atof src t, effective src t ->
  load_grammar_d u atof src = obind (load_grammar u atof src) (fun l => Ok (l, md5_hex (bytes_of (run_together src ++ last_piece t)))).
Proof.
  intros u atof src t H. unfold load_grammar_d, load_grammar, load_sections. rewrite loop_gather, (gather_effective src t H).
  destruct (load_loop (List.length src + 3) u atof true (open_stream src) [] load0) as [s|m|]; cbn [obind fst snd app]; [|reflexivity|reflexivity].
  assert (E : (match l_sec s with [] => Ok s | _ => Ok (flush s) end) = Ok (match l_sec s with [] => s | _ => flush s end)) by (destruct (l_sec s); reflexivity).
  rewrite E. cbn [obind]. destruct (update_pointers _) as [[[g st] issues]|m|]; cbn [obind]; [|reflexivity|reflexivity].
  destruct st; reflexivity.
Qed.
