(** Concrete addresses for the examples of Address_props. *)
From Coq Require Import String List NArith Bool Lia.
From Verif Require Import Base_model Class_model Uni_model Token_model Lexicon_model Tokenizer_model Wrapper_model Sample_model Lexicon_spec Tokenizer_spec Split_spec Read_spec Address_spec
  TokExample_proofs Split_proofs SplitEx_proofs WrapperEx_proofs Read_proofs Address_proofs.
Import ListNotations.
Local Open Scope N_scope.

Lemma fold_upper : forall c, c < 65 \/ 90 < c < 97 \/ 122 < c -> forall d, a_fold d = c -> d = c.
Proof. intros c H d. unfold a_fold, a_upper. destruct (65 <=? d) eqn:A, (d <=? 90) eqn:B; cbn [andb]; try (intros ->; reflexivity). apply N.leb_le in A, B. intros <-. lia. Qed.
Lemma ascii_apart : apart_tables ascii_uni.
Proof.
  split.
  - intros c H. assert (R : 48 <= c <= 57 \/ 65 <= c <= 90 \/ 97 <= c <= 122).
    { unfold alnum in H. cbn [ascii_uni u_alpha u_digit] in H. unfold a_alpha, a_upper, a_lower, a_digit in H. rewrite ?orb_true_iff, ?andb_true_iff, ?N.leb_le in H. tauto. }
    assert (L : forall a, a < 48 \/ 57 < a < 65 \/ 90 < a < 97 \/ 122 < a -> ~ like ascii_uni a c).
    { intros a Ha K. unfold like in K. cbn [ascii_uni u_fold] in K. assert (E : a_fold a = a). { unfold a_fold, a_upper. destruct (65 <=? a) eqn:A, (a <=? 90) eqn:B; try reflexivity. apply N.leb_le in A, B. lia. }
      rewrite E in K. symmetry in K. apply fold_upper in K; lia. }
    split; [|apply L; lia]. unfold sep_char. intros [K|[K|[K|[K|K]]]]; try (revert K; apply L; lia).
    + cbn [ascii_uni u_space] in K. unfold a_space, c_isspace in K. rewrite orb_true_iff, andb_true_iff, N.eqb_eq, !N.leb_le in K. lia.
    + cbn [ascii_uni u_punct] in K. unfold a_punct in K. apply existsb_exists in K. destruct K as (d & I & E). apply N.eqb_eq in E. subst d. simpl in I. lia.
  - intros c H. cbn [ascii_uni u_digit]. unfold like in H. cbn [ascii_uni u_fold] in H. change (a_fold 47) with 47 in H. change (a_fold 44) with 44 in H. change (a_fold 46) with 46 in H.
    destruct H as [H|[H|H]]; symmetry in H; apply fold_upper in H; try lia; subst c; reflexivity.
Qed.
(** Without small letters in the lexicon there are no two ways to write a word. *)
Lemma upper_clear : forall x t ws, built x -> map fst (x_lex x) = ws -> forallb (fun c => negb (a_lower c)) (concat ws) = true -> case_clear ascii_uni x t.
Proof.
  intros x t ws B E F w w' c d e L L' Ic Id _ Q Q'. rewrite forallb_forall in F. apply (listed_keys x w ws B E) in L. apply (listed_keys x w' ws B E) in L'.
  assert (Fc : negb (a_lower c) = true) by (apply F, in_concat; exists w; auto). assert (Fd : negb (a_lower d) = true) by (apply F, in_concat; exists w'; auto).
  unfold like in Q, Q'. rewrite <- Q' in Q. clear Q' e. cbn [ascii_uni u_fold] in Q. unfold a_fold in Q. unfold a_lower in Fc, Fd. apply negb_true_iff in Fc, Fd. apply andb_false_iff in Fc, Fd. rewrite !N.leb_gt in Fc, Fd.
  unfold a_upper in Q. destruct (65 <=? c) eqn:A1, (c <=? 90) eqn:A2, (65 <=? d) eqn:B1, (d <=? 90) eqn:B2; cbn [andb] in Q; rewrite ?N.leb_le, ?N.leb_gt in *; lia.
Qed.
Definition w_text : text := e_upper ascii_env (x_locale w_x) (e_nfc ascii_env (e_upper ascii_env en (e_nfc ascii_env w_addr))).
Lemma w_exact : case_clear ascii_uni w_x w_text.
Proof. apply (upper_clear w_x w_text [s2t "PO BOX"; s2t "ST"] w_x_built); vm_compute; reflexivity. Qed.
Lemma w_tabs : tabs_apart ascii_uni w_x.
Proof.
  split; [exact ascii_tabs|]. intros w L. apply (listed_keys w_x w [s2t "PO BOX"; s2t "ST"] w_x_built eq_refl) in L. destruct L as [<-|[<-|[]]]; absent.
Qed.
Lemma w_setting : built w_x /\ simple_words w_x /\ apart_tables ascii_uni /\ word_tables ascii_uni /\ blank_lines ascii_uni w_text /\ case_clear ascii_uni w_x w_text /\ tabs_apart ascii_uni w_x.
Proof.
  split; [exact w_x_built|]. split; [exact w_x_simple|]. split; [exact ascii_apart|]. split; [exact ascii_tables|]. split; [exact w_lines_blank|]. split; [exact w_exact|exact w_tabs].
Qed.
Lemma w_scanned : exists ps, scanned ascii_uni w_x w_text ps /\ map pc_tok ps = map s2t ["12"; "MAIN"; "ST"; "PO BOX"; "7"]%string /\ map pc_sep ps = map s2t [" "; " "; ",  "; " "; ""]%string.
Proof.
  destruct (get_pieces ascii_env w_x w_text) as [ps| |] eqn:E.
  - exists ps. split; [apply (pieces_scanned ascii_env w_x w_text ps w_x_built w_x_simple ascii_apart w_lines_blank w_exact); exact E|]. vm_compute in E. injection E as <-. split; reflexivity.
  - exfalso. vm_compute in E. discriminate.
  - exfalso. vm_compute in E. discriminate.
Qed.
Lemma w_read : exists phs, read_address ascii_uni w_x w_filter w_text phs /\
  map (map t_text) phs = [map s2t ["12"; "MAIN"; "ST"; "PO BOX"; "7"]%string; map s2t ["12"; "MAIN"; "ST"; "PO"; "BOX"; "7"]%string].
Proof.
  destruct (make_phrases ascii_env w_x en w_filter w_addr) as [phs| |] eqn:E.
  - exists phs. split; [apply (make_phrases_are ascii_env w_x en w_filter w_addr phs w_x_built w_x_simple ascii_apart ascii_tables w_lines_blank w_exact w_tabs); exact E|].
    vm_compute in E. injection E as <-. reflexivity.
  - exfalso. vm_compute in E. discriminate.
  - exfalso. vm_compute in E. discriminate.
Qed.
