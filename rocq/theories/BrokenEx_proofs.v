From Coq Require Import String List NArith ZArith Bool Lia.
From Verif Require Import Archive_proofs Base_model Class_model Uni_model Md5_model Lexicon_model Archive_model Archive_spec CString_spec Broken_spec Lexicon_spec Sample_model WrapperEx_proofs CString_proofs CStringAll_proofs CStringEx_proofs Broken_proofs.
Import ListNotations.
Local Open Scope N_scope.

Definition b_arch : text := match serialize_lexicon ascii_env w_lexicon with Ok a => a | _ => [] end.
Definition b_cut (n : nat) : text := firstn (List.length b_arch - n) b_arch.
Definition b_off (n : nat) : text := skipn (List.length b_arch - n) b_arch.
Lemma b_made : serialize_lexicon ascii_env w_lexicon = Ok b_arch.
Proof. vm_compute. reflexivity. Qed.
Lemma b_parts : forall n, b_arch = b_cut n ++ b_off n.
Proof. intros n. unfold b_cut, b_off. symmetry. apply firstn_skipn. Qed.
Lemma b_keeps : keeps no_lf ascii_env.
Proof.
  split; [intros t T; exact T|]. intros l t T. cbn [e_upper ascii_env]. unfold made_of in *. induction T as [|c t C T IH]; cbn [map]; [constructor|].
  constructor; [|exact IH]. destruct (up_cases c) as [->|(A & B & ->)]; [exact C|]. unfold no_lf. lia.
Qed.
(** Cut in the middle of the second word, and followed by a source. *)
Definition b_source : text := s2t "LEXICON:" ++ [9] ++ s2t "more" ++ [9] ++ s2t "ENG" ++ [9] ++ s2t "en" ++ [9; 10] ++
  s2t "LEXENTRY:" ++ [9] ++ s2t "PO BOX" ++ [9] ++ s2t "BOX" ++ [9] ++ s2t "BOXH" ++ [9; 9; 10].
Definition b_broken : text := firstn 130 b_arch ++ 10 :: b_source.
Lemma b_refused : keeps no_lf ascii_env /\ serialize_lexicon ascii_env w_lexicon = Ok b_arch /\ b_arch = b_cut 35 ++ b_off 35 /\ (34 < List.length (b_off 35))%nat.
Proof. split; [exact b_keeps|]. split; [exact b_made|]. split; [apply b_parts|]. apply Nat.ltb_lt. vm_compute. reflexivity. Qed.
Lemma b_accepted : serialize_lexicon ascii_env w_lexicon = Ok b_arch /\ b_arch = b_cut 34 ++ b_off 34 /\ (List.length (b_off 34) <= 34)%nat /\
  exists y z, get_lexicon ascii_env b_arch = Ok y /\ get_lexicon ascii_env (b_cut 34) = Ok z /\ x_md5 y <> x_md5 z.
Proof.
  split; [exact b_made|]. split; [apply b_parts|]. split; [apply Nat.leb_le; vm_compute; reflexivity|]. eexists. eexists.
  split; [vm_compute; reflexivity|]. split; [vm_compute; reflexivity|]. vm_compute. intros H. discriminate H.
Qed.
Lemma b_noticed : exists e src a p q x, serialize_lexicon e src = Ok a /\ a = p ++ q /\ q <> [] /\ get_lexicon e p = Ok x.
Proof.
  exists ascii_env, w_lexicon, b_arch, (b_cut 34), (b_off 34). eexists. split; [exact b_made|]. split; [apply b_parts|]. split; [vm_compute; intros H; discriminate H|]. vm_compute. reflexivity.
Qed.
Lemma b_more : serialize_lexicon ascii_env w_lexicon = Ok b_arch /\ get_lexicon ascii_env (b_arch ++ b_source) = get_lexicon ascii_env b_arch /\
  exists x y, get_lexicon ascii_env b_arch = Ok x /\ get_lexicon ascii_env b_source = Ok y /\ x_lex x <> x_lex y.
Proof.
  split; [exact b_made|]. split; [vm_compute; reflexivity|]. eexists. eexists. split; [vm_compute; reflexivity|]. split; [vm_compute; reflexivity|]. vm_compute. intros H. discriminate H.
Qed.
Lemma b_not : ~ begins_archive w_lexicon /\ exists x, get_lexicon ascii_env w_lexicon = Ok x.
Proof.
  split; [|eexists; vm_compute; reflexivity]. assert (E : exists t, w_lexicon = 76 :: t) by (eexists; vm_compute; reflexivity). destruct E as (t & ->). apply first_char; [reflexivity|reflexivity|discriminate].
Qed.
Lemma b_kept : exists m y, load_archive b_broken = Throw m /\ m <> s2t "Re-compile-lexicon" /\ load_lexicon ascii_env query_lex b_broken = Ok y /\
  x_locale y <> [] /\ List.length (lex_find (archive_left b_broken) (s2t "PO BOX")) = 1%nat /\ List.length (lex_find y (s2t "PO BOX")) = 1%nat.
Proof.
  eexists. eexists. split; [vm_compute; reflexivity|]. split; [vm_compute; intros H; discriminate H|]. split; [vm_compute; reflexivity|].
  split; [vm_compute; intros H; discriminate H|]. split; vm_compute; reflexivity.
Qed.
Lemma b_mixed : exists e t m x y w, load_archive t = Throw m /\ get_lexicon e t = Ok x /\ load_lexicon e query_lex t = Ok y /\ lex_find x w <> lex_find y w.
Proof.
  exists ascii_env, b_broken. eexists. eexists. eexists. exists (s2t "PO BOX"). split; [vm_compute; reflexivity|]. split; [vm_compute; reflexivity|]. split; [vm_compute; reflexivity|].
  vm_compute. intros H. discriminate H.
Qed.
Lemma b_left : exists x, load_archive b_arch = Ok x /\ x_lex x <> [].
Proof. eexists. split; [vm_compute; reflexivity|]. vm_compute. intros H. discriminate H. Qed.
