(** A concrete lexicon for the example of Split_props. *)
From Coq Require Import String List NArith Bool Lia.
From Verif Require Import Base_model Class_model Uni_model Token_model Lexicon_model Tokenizer_model Lexicon_spec Tokenizer_spec Split_spec
  LexMap_proofs LexLoad_proofs TokPieces_proofs Split_proofs TokExample_proofs.
Import ListNotations.
Local Open Scope N_scope.

Definition split_alt : lexentry := mkLE (s2t "ALT") (s2t "ALT") [I_WORD] [ATT_PRE].
Definition split_str : lexentry := mkLE (s2t "STR") (s2t "STRASSE") [I_TYPE] [ATT_SUF].
Definition split_lex : lexicon := run (new_lexicon []) [Ins split_str; Ins split_alt].
Lemma split_built : built split_lex.
Proof. apply built_run, built_new. Qed.
Lemma split_listed : forall w, listed split_lex w <-> In w [s2t "ALT"; s2t "STR"].
Proof. intros w. apply listed_keys; [exact split_built|]. vm_compute. reflexivity. Qed.
Lemma split_simple : simple_words split_lex.
Proof.
  intros w c H K. apply split_listed in H. simpl in H. destruct H as [<-|[<-|[]]]; simpl in K; repeat (destruct K as [<-|K]; [repeat split; discriminate|]); destruct K.
Qed.
Lemma ascii_tables : word_tables ascii_uni.
Proof.
  split; [|split; [|split]].
  - intros c. cbn [ascii_uni u_alpha u_word u_digit]. unfold a_alpha, a_word, a_digit, a_alpha, a_upper, a_lower. rewrite ?orb_true_iff, ?andb_true_iff, ?N.leb_le. intros H.
    split; [rewrite ?orb_true_iff, ?andb_true_iff, ?N.leb_le; tauto|]. apply andb_false_iff. rewrite !N.leb_gt. lia.
  - intros c. cbn [ascii_uni u_word u_digit]. unfold a_word, a_digit, a_alpha. rewrite ?orb_true_iff, ?andb_true_iff, ?N.leb_le. tauto.
  - intros c H. assert (K : 97 <= a_fold c <= 122) by exact H. clear H. cbn [ascii_uni u_word]. unfold a_fold in K. unfold a_word, a_alpha. destruct (a_upper c) eqn:E; [reflexivity|].
    unfold a_lower. rewrite (proj2 (N.leb_le 97 c)), (proj2 (N.leb_le c 122)) by apply K. reflexivity.
  - intros c [H| ->]; [|reflexivity]. unfold line_end in H. simpl in H. destruct H as [<-|[<-|[<-|[<-|[<-|[<-|[]]]]]]]; reflexivity.
Qed.
Lemma ascii_tabs : tab_tables ascii_uni.
Proof.
  split; [intros [H|H]; discriminate|]. split.
  - intros c. unfold like. cbn [ascii_uni u_fold]. change (a_fold 9) with 9. unfold a_fold, a_upper. destruct (65 <=? c) eqn:A, (c <=? 90) eqn:B; cbn [andb]; try (intros ->; reflexivity). apply N.leb_le in A, B. lia.
  - intros c H K. assert (L : forall a, a < 65 -> ~ like ascii_uni a c).
    { intros a Ha Q. unfold like in Q. cbn [ascii_uni u_fold] in Q. unfold a_fold, a_upper in Q. destruct (65 <=? a) eqn:A; [apply N.leb_le in A; lia|]. cbn [andb] in Q. destruct (_ && _); lia. }
    destruct K as [K|[K|[K|[K|K]]]]; try (revert K; apply L; lia).
    + unfold like in K. cbn [ascii_uni u_fold] in K. change (a_fold 124) with 124 in K. unfold a_fold, a_upper in K. destruct (_ && _); lia.
    + cbn [ascii_uni u_space] in K. unfold a_space, c_isspace in K. rewrite orb_true_iff, andb_true_iff, N.eqb_eq, !N.leb_le in K. lia.
    + cbn [ascii_uni u_punct] in K. unfold a_punct in K. apply existsb_exists in K. destruct K as (d & I & E). apply N.eqb_eq in E. subst d. simpl in I. lia.
Qed.
Lemma split_tab : tab_free split_lex.
Proof. intros w L. apply split_listed in L. simpl in L. destruct L as [<-|[<-|[]]]; absent. Qed.
Lemma find_only : forall w le, In le (lex_find split_lex w) -> (w = s2t "ALT" /\ le = split_alt) \/ (w = s2t "STR" /\ le = split_str).
Proof.
  intros w le H. assert (L : listed split_lex w). { unfold listed. intros K. rewrite K in H. destruct H. }
  apply split_listed in L. simpl in L. destruct L as [<-|[<-|[]]]; vm_compute in H; destruct H as [<-|[]]; auto.
Qed.
Lemma split_front : forall w, front_word split_lex w <-> w = s2t "ALT".
Proof.
  intros w. split.
  - intros (_ & le & H & A). apply find_only in H. destruct H as [(-> & ->)|(-> & ->)]; [reflexivity|]. destruct A as [A|[]]. discriminate.
  - intros ->. split; [discriminate|]. exists split_alt. split; [vm_compute; auto|left; reflexivity].
Qed.
Lemma split_back : forall w, back_word split_lex w <-> w = s2t "STR".
Proof.
  intros w. split.
  - intros (_ & le & H & A). apply find_only in H. destruct H as [(-> & ->)|(-> & ->)]; [|reflexivity]. destruct A as [A|[]]. discriminate.
  - intros ->. split; [discriminate|]. exists split_str. split; [vm_compute; auto|left; reflexivity].
Qed.
Lemma exact_ex : let str := s2t "altmarktstr 12b altstr e7" in let t := search_text ascii_env split_lex str in
  built split_lex /\ simple_words split_lex /\ tab_free split_lex /\ word_tables ascii_uni /\ tab_tables ascii_uni /\ blank_lines ascii_uni t /\
  (front ascii_uni split_lex (s2t "ALTMARKTSTR") (s2t "ALT") (s2t "MARKTSTR") /\ back split_lex (s2t "ALTMARKTSTR") (s2t "ALTMARKT") (s2t "STR")) /\
  exists ks, all_tokens ascii_env split_lex str = Ok ks /\
    map t_text ks = map s2t ["ALT"; "MARKT"; "STR"; " "; "12"; "B"; " "; "ALT"; "STR"; " "; "E"; "7"]%string.
Proof.
  cbv zeta. split; [exact split_built|]. split; [exact split_simple|]. split; [exact split_tab|]. split; [exact ascii_tables|]. split; [exact ascii_tabs|]. split; [apply ascii_lines; absent|]. split; [split|].
  - split; [reflexivity|]. split; [apply split_front; reflexivity|]. split; [exists 84, 77; repeat split; reflexivity|]. intros a' b' _ H _. apply split_front in H. subst a'. auto.
  - split; [reflexivity|]. split; [discriminate|]. split; [apply split_back; reflexivity|]. intros c' d' _ _ H. apply split_back in H. subst d'. auto.
  - eexists. split; vm_compute; reflexivity.
Qed.
