From Coq Require Import String List NArith ZArith Bool Lia.
From Verif Require Import Base_model Uni_model Utf8_model Float_model Rule_model Search_model Lexicon_model Tokenizer_model Archive_model Wrapper_model CString_model CString_spec
  Sample_model Lexicon_spec WrapperEx_proofs CString_proofs CStringAll_proofs.
Import ListNotations.
Local Open Scope N_scope.

Definition ascii (c : N) : Prop := c < 128.
Lemma ascii_ord : ordinary ascii.
Proof. intros c _ C. exact C. Qed.
Lemma up_cases : forall c, a_up c = c \/ (97 <= c /\ c <= 122 /\ a_up c = c - 32).
Proof.
  intros c. unfold a_up, a_lower. destruct ((97 <=? c) && (c <=? 122)) eqn:E; [|left; reflexivity]. right. apply andb_prop in E. destruct E as [A B].
  apply N.leb_le in A. apply N.leb_le in B. repeat split; assumption.
Qed.
Lemma env_keeps : forall P : N -> Prop, ordinary P -> keeps P ascii_env.
Proof.
  intros P O. split; [intros t T; exact T|]. intros l t T. cbn [e_upper ascii_env]. unfold made_of in *. induction T as [|c t C T IH]; cbn [map]; [constructor|].
  constructor; [|exact IH]. destruct (up_cases c) as [->|(A & B & ->)]; [exact C|]. apply O; lia.
Qed.
Lemma ascii_text : forall t, forallb (fun c => c <? 128) t = true -> made_of ascii t.
Proof. intros t E. apply Forall_forall. intros c C. apply (proj1 (forallb_forall _ _) E) in C. apply N.ltb_lt. exact C. Qed.
Lemma ascii_setting : ordinary ascii /\ keeps ascii ascii_env /\ made_of ascii w_addr /\ made_of ascii w_grammar /\ made_of ascii w_lexicon /\
  (exists r, std_standardize ascii_env sample_atof w_addr w_grammar w_lexicon en w_filter = Ok (Some r)) /\
  exists m, std_standardize ascii_env sample_atof w_addr [] w_lexicon en w_filter = Throw m /\ m <> [].
Proof.
  split; [exact ascii_ord|]. split; [exact (env_keeps _ ascii_ord)|]. split; [apply ascii_text; vm_compute; reflexivity|].
  split; [apply ascii_text; vm_compute; reflexivity|]. split; [apply ascii_text; vm_compute; reflexivity|].
  split; [eexists; vm_compute; reflexivity|]. eexists. split; [vm_compute; reflexivity|]. intros H. discriminate H.
Qed.
Lemma parse_setting : ordinary ascii /\ keeps ascii ascii_env /\ made_of ascii w_addr /\ made_of ascii w_lexicon /\
  exists r rows, std_parse_address ascii_env w_addr w_lexicon en w_filter = Ok (r :: rows).
Proof.
  split; [exact ascii_ord|]. split; [exact (env_keeps _ ascii_ord)|]. split; [apply ascii_text; vm_compute; reflexivity|].
  split; [apply ascii_text; vm_compute; reflexivity|]. do 2 eexists. vm_compute. reflexivity.
Qed.
Lemma match_setting : ordinary ascii /\ keeps ascii ascii_env /\ (forall (l : list mresult) r, In r (rev l) -> In r l) /\ made_of ascii w_addr /\ made_of ascii w_grammar /\ made_of ascii w_lexicon /\
  exists r rows, std_match_address ascii_env sample_atof (@rev mresult) w_addr w_grammar w_lexicon en w_filter = Ok (r :: rows).
Proof.
  split; [exact ascii_ord|]. split; [exact (env_keeps _ ascii_ord)|]. split; [intros l r H; apply in_rev; exact H|]. split; [apply ascii_text; vm_compute; reflexivity|].
  split; [apply ascii_text; vm_compute; reflexivity|]. split; [apply ascii_text; vm_compute; reflexivity|]. do 2 eexists. vm_compute. reflexivity.
Qed.
Lemma compile_setting : ordinary ascii /\ keeps ascii ascii_env /\ made_of ascii w_lexicon /\ exists t, serialize_lexicon ascii_env w_lexicon = Ok t /\ t <> [].
Proof.
  split; [exact ascii_ord|]. split; [exact (env_keeps _ ascii_ord)|]. split; [apply ascii_text; vm_compute; reflexivity|].
  eexists. split; [vm_compute; reflexivity|]. intros H. discriminate H.
Qed.
(** An address followed by NUL and more. *)
Definition nul_addr : text := w_addr ++ 0 :: s2t "7 Other Rd".
Lemma nul_setting : keeps nonzero ascii_env /\ (forall (l : list mresult) r, In r (rev l) -> In r l) /\ In 0 nul_addr /\ c_str nul_addr = w_addr /\
  (exists r, standardize_c ascii_env sample_atof nul_addr w_grammar w_lexicon en w_filter = Ok (Some r)) /\
  std_standardize ascii_env sample_atof nul_addr w_grammar w_lexicon en w_filter <> standardize_c ascii_env sample_atof nul_addr w_grammar w_lexicon en w_filter.
Proof.
  split; [exact (env_keeps _ nonzero_ord)|]. split; [intros l r H; apply in_rev; exact H|]. split; [unfold nul_addr; apply in_or_app; right; left; reflexivity|].
  split; [vm_compute; reflexivity|]. split; [eexists; vm_compute; reflexivity|]. intros H. vm_compute in H. discriminate H.
Qed.
(** 0 , e-acute, NUL, a. *)
Lemma bytes_setting : encode [48; 233; 0; 97] = Ok [48; 195; 169; 0; 97].
Proof. vm_compute. reflexivity. Qed.
Lemma source_setting : exists r t, standardize_addr ascii_env w_g w_x en w_filter w_addr = Ok (Some r) /\ In (Some t) (sa_fields r) /\ t <> [].
Proof.
  exists (match standardize_addr ascii_env w_g w_x en w_filter w_addr with Ok (Some r) => r | _ => mkStd [] [] end), (s2t "12").
  split; [vm_compute; reflexivity|]. split; [vm_compute; right; left; reflexivity|]. intros H. discriminate H.
Qed.
