From Coq Require Import NArith String List.
From Verif Require Import Base_model Class_model Token_model Lexicon_model Archive_model Wrapper_model Sample_model Lexicon_spec ShippedLex_model ShippedLex_spec WrapperEx_proofs
  ShippedLex_proofs Settled_spec Settled_proofs.
Import ListNotations.

(** ** C116 *)
(** Standardizing a standard word gives it again, for every word and class, exactly when the forms of the lexicon are settled. *)
Theorem C116_again : forall x, settled x <->
  forall c w k k', standardize_word x (bare w c) = Ok k -> standardize_word x (bare (t_std k) c) = Ok k' -> t_std k' = t_std k.
Proof. exact again_iff. Qed.
Print Assumptions C116_again.
Theorem C116_readings : forall x c n w s, settled x -> readings x c (S n) w s -> form x c w s.
Proof. exact readings_settled. Qed.
Print Assumptions C116_readings.
Theorem C116_entries : forall x, settled_entries x -> settled x.
Proof. exact entries_settled. Qed.
Print Assumptions C116_entries.
Example C116_example : settled_entries w_x /\ readings w_x I_TYPE 3 (s2t "ST") (s2t "STREET") /\ ~ settled (lex_of swap_text).
Proof.
  split; [exact w_x_settled|]. split.
  - do 3 (eapply rd_more; [vm_compute; reflexivity|]; cbn [t_std]). apply rd_none.
  - intros H. destruct (swap_step (s2t "ST") (or_introl eq_refl)) as (k & E & D & [T|T]); [exact (D T)|].
    destruct (swap_step (s2t "STREET") (or_intror eq_refl)) as (k' & E' & D' & _). apply D'. rewrite <- T.
    rewrite <- T in E'. exact (proj1 (again_iff _) H I_TYPE _ k k' E E').
Qed.
(** The forms of a lexicon that loads need not be settled after any number of readings. *)
Theorem C116_settles_refuted : exists t x c w, load_lexicon ascii_env query_lex t = Ok x /\
  (forall n, exists s, readings x c n w s) /\
  forall n s, readings x c n w s -> exists k, standardize_word x (bare s c) = Ok k /\ t_std k <> s.
Proof. exact never_settles. Qed.
Print Assumptions C116_settles_refuted.
(** Nor are those of the lexicons shipped with the program: the Portuguese one writes É as E, and has blanks behind the form of the word with E. *)
Theorem C116_shipped_refuted : exists ps t x, In ps shipped_lexicons /\ text_of ps t /\ load_lexicon ascii_env query_lex t = Ok x /\ ~ settled x /\
  exists k1 k2, standardize_word x (bare (201%N :: s2t "VORA") I_PROV) = Ok k1 /\ t_std k1 = s2t "EVORA" /\
    standardize_word x (bare (s2t "EVORA") I_PROV) = Ok k2 /\ t_std k2 = s2t "EVORA ".
Proof. exact shipped_unsettled. Qed.
Print Assumptions C116_shipped_refuted.
(** With a settled lexicon too, what a call returns need not be something the call can read. *)
Theorem C116_call_refuted : exists e atof gr lx locale filt address r,
  (forall x, load_lexicon e query_lex lx = Ok x -> settled x) /\
  std_standardize e atof address gr lx locale filt = Ok (Some r) /\
  std_standardize e atof (join [32%N] (flat_map (fun f => match f with Some w => [w] | None => [] end) (sa_fields r))) gr lx locale filt = Ok None.
Proof. exact call_again. Qed.
Print Assumptions C116_call_refuted.
