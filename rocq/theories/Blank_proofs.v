(** Lemmas about white space with tabs. *)
From Coq Require Import String List NArith Bool Lia Arith.
From Verif Require Import Base_model Class_model Class_spec Float_model Uni_model Token_model Lexicon_model Tokenizer_model Archive_model Wrapper_model Sample_model
  Grammar_spec LexText_spec Lexicon_spec Tokenizer_spec Split_spec Blank_spec Tab_proofs Split_proofs SplitEx_proofs WrapperEx_proofs Address_proofs.
Import ListNotations.
Local Open Scope N_scope.

Definition punct_token : token := mkToken [] [] [I_PUNCT] O_BADTOKEN [] false.
Definition space_token : token := mkToken [32] [] [I_SPACE] O_BADTOKEN [] false.
Lemma unlisted_plain : forall x w, ~ listed x w -> unlisted x (plain_token w).
Proof. intros x w N. split; [reflexivity|]. intros le I. exfalso. apply N. intros E. cbn [plain_token t_text] in I. rewrite E in I. destruct I. Qed.
Lemma space_made : forall u x, word_tables u -> u_space u 32 = true -> ~ listed x [32] -> made_from u x I_PUNCT [32] space_token.
Proof.
  intros u x WT BK NL. destruct (tables_blank u WT) as (BW & BD & BL).
  assert (ND : forall seps, ~ split_digits u seps [32]).
  { intros seps (a & s & b & E & (NA & FA) & _). destruct a as [|c a]; [destruct (NA eq_refl)|]. injection E as <- _. inversion FA; congruence. }
  assert (NWd : ~ words u [32]) by (intros (_ & F); inversion F; congruence).
  split; [|split; [discriminate|split; [split|auto]]].
  - left. split; [|reflexivity]. intros (_ & H & _). exact (ND _ H).
  - intros H. destruct (H (unlisted_plain x [32] NL)).
  - intros _. split; [reflexivity|]. exists [I_SPACE]. split; [|reflexivity]. unfold row_applies, shape_rows.
    eexists [_; _; _; _; _; _; _; _; _; _; _; _], _, _. split; [reflexivity|]. split; [|split; [split; [discriminate|constructor; [exact BK|constructor]]|reflexivity]].
    repeat (apply Forall_cons; [cbn [fst]|]); [apply ND| | | |apply ND| | | |exact NWd| | | |constructor].
    + intros (_ & F). inversion F; congruence.
    + discriminate.
    + discriminate.
    + intros (a & b & c & E & FA & _ & _ & L & _). destruct a as [|d a]; [cbn in L; lia|]. injection E as <- _. inversion FA; contradiction.
    + intros (a & b & c & E & _). discriminate.
    + intros (K & _). exact (NWd K).
    + discriminate.
    + intros (_ & F). inversion F. discriminate.
    + discriminate.
Qed.
Lemma punct_made : forall u x, ~ listed x [] -> made_from u x I_PUNCT [] punct_token.
Proof.
  intros u x NL.
  assert (ND : forall seps, ~ split_digits u seps []). { intros seps (a & s & b & E & (NA & FA) & _). destruct a as [|c a]; [destruct (NA eq_refl)|discriminate]. }
  split; [|split; [discriminate|split; [split|auto]]].
  - left. split; [|reflexivity]. intros (_ & H & _). exact (ND _ H).
  - intros H. destruct (H (unlisted_plain x [] NL)).
  - intros _. split; [reflexivity|]. exists [I_PUNCT]. split; [|reflexivity]. unfold row_applies, shape_rows.
    eexists [_; _; _; _; _; _; _; _; _; _; _; _; _; _], _, _. split; [reflexivity|]. split; [|split; [exact I|reflexivity]].
    repeat (apply Forall_cons; [cbn [fst]|]); [apply ND| | | |apply ND| | | | | | | | | |constructor].
    + intros (N & _). exact (N eq_refl).
    + discriminate.
    + discriminate.
    + intros (a & b & c & E & _ & _ & _ & L & _). destruct a as [|d a]; [cbn in L; lia|discriminate].
    + intros (a & b & c & E & _). discriminate.
    + intros ((N & _) & _). exact (N eq_refl).
    + intros (N & _). exact (N eq_refl).
    + discriminate.
    + intros (N & _). exact (N eq_refl).
    + discriminate.
    + intros (N & _). exact (N eq_refl).
    + intros (N & _). exact (N eq_refl).
Qed.
Lemma cell_white : forall w fs i c, cells w fs -> Forall white w -> In c (cell fs i) -> white c.
Proof. intros w fs i c C F I. rewrite Forall_forall in F. apply F. exact (cell_in _ _ _ _ C I). Qed.
Lemma white_trimmed : forall f m, Forall white f -> trimmed f m -> m = [32].
Proof.
  intros f m F (a & b & _ & _ & [(_ & ->)|(-> & N & H & _)]); [reflexivity|]. destruct m as [|c m]; [destruct (N eq_refl)|]. exfalso. apply (H c eq_refl).
  rewrite Forall_forall in F. apply F. apply in_or_app. right. left. reflexivity.
Qed.
Lemma white_commas : forall f, Forall white f -> Forall (eq 44) f -> f = [].
Proof. intros f F K. destruct f as [|c f]; [reflexivity|]. inversion F as [|? ? W _]; inversion K as [|? ? E _]; subst. destruct W as [E|[E|[E|[E|[E|[E|[]]]]]]]; discriminate. Qed.
(** The token of a separator of white space. *)
Lemma white_token : forall u x w, word_tables u -> u_space u 32 = true -> ~ listed x [] -> ~ listed x [32] -> w <> [] -> Forall white w ->
  exists fs k, cells w fs /\ sep_tokens u x w = [k] /\ t_text k = match cell fs 0 with [] => [] | _ => [32] end /\ t_std k = cell fs 1 /\
    forall c, In c (t_in k) <-> c = white_class (cell fs 0) (cell fs 2).
Proof.
  intros u x w WT BK N0 N1 NW F.
  assert (LT : lower_text w). { intros c I. rewrite Forall_forall in F. unfold capital. destruct (F c I) as [<-|[<-|[<-|[<-|[<-|[<-|[]]]]]]]; lia. }
  assert (FW : forall fs i, cells w fs -> Forall white (cell fs i)) by (intros fs i C; apply Forall_forall; intros c I; exact (cell_white _ _ _ _ C F I)).
  destruct (sep_cut u x w LT) as [(E & _)|(fs & m & k & _ & C & T & E & H)]; [congruence|]. exists fs, k. split; [exact C|]. split; [exact E|].
  assert (Em : m = match cell fs 0 with [] => [] | _ => [32] end).
  { destruct T as [(-> & ->)|(N & T)]; [reflexivity|]. rewrite (white_trimmed _ _ (FW fs 0%nat C) T). destruct (cell fs 0); [destruct (N eq_refl)|reflexivity]. }
  destruct H as [(K & k0 & M & ->)|(K & B1 & B2 & _ & _ & _ & B6)].
  - assert (E2 := white_commas _ (FW fs 2%nat C) K). rewrite E2. unfold white_class.
    assert (S0 : same_token k0 (match cell fs 0 with [] => punct_token | _ => space_token end)).
    { destruct (cell fs 0); subst m; apply (made_same u x I_PUNCT _ _ _ M); [apply punct_made; exact N0|apply space_made; assumption]. }
    destruct S0 as (S1 & S2 & _). split; [cbn [set_std t_text]; rewrite S1; destruct (cell fs 0); reflexivity|]. split; [reflexivity|].
    intros c. cbn [set_std t_in]. rewrite S2. destruct (cell fs 0); cbn [punct_token space_token t_in In]; split; intros H; [destruct H as [H|[]]; auto|left; auto|destruct H as [H|[]]; auto|left; auto].
  - split; [congruence|]. split; [exact B2|]. intros c. rewrite B6. unfold white_class. destruct (cell fs 2) as [|d f]; [destruct (K (Forall_nil _))|].
    split; [|intros ->; left; reflexivity]. intros [H|(le & I & _)]; [exact H|]. exfalso.
    assert (NE : lex_find x m = []). { clear - Em N0 N1. destruct (lex_find x m) eqn:Q; [reflexivity|]. exfalso. destruct (cell fs 0); subst m; [apply N0|apply N1]; unfold listed; rewrite Q; discriminate. }
    rewrite NE in I. destruct I.
Qed.

(** ** Examples *)
Lemma white_example : word_tables ascii_uni /\ u_space ascii_uni 32 = true /\ ~ listed w_x [] /\ ~ listed w_x [32] /\
  map (fun w => map (fun k => (t_text k, t_in k)) (sep_tokens ascii_uni w_x w)) [[32]; [9]; [32; 9]; [9; 9]; [9; 9; 32]; [32; 9; 32; 9; 32]] =
  [[([32], [I_SPACE])]; [([], [I_PUNCT])]; [([32], [I_SPACE])]; [([], [I_PUNCT])]; [([], [I_BADTOKEN])]; [([32], [I_BADTOKEN])]].
Proof.
  split; [exact ascii_tables|]. split; [reflexivity|]. split; [intros H; apply H; vm_compute; reflexivity|]. split; [intros H; apply H; vm_compute; reflexivity|]. vm_compute. reflexivity.
Qed.
(** Two tabs and a blank between two words. *)
Lemma tabs_differ : exists r, std_standardize ascii_env sample_atof (tabbed [32]) w_grammar w_lexicon en w_filter = Ok (Some r) /\
  std_standardize ascii_env sample_atof (tabbed [9]) w_grammar w_lexicon en w_filter = Ok (Some r) /\
  std_standardize ascii_env sample_atof (tabbed [9; 9]) w_grammar w_lexicon en w_filter = Ok (Some r) /\
  std_standardize ascii_env sample_atof (tabbed [9; 9; 32]) w_grammar w_lexicon en w_filter = Ok None.
Proof. eexists. split; [vm_compute; reflexivity|]. split; [vm_compute; reflexivity|]. split; vm_compute; reflexivity. Qed.
(** A filter without PUNCT. *)
Lemma tab_kept : exists r, std_standardize ascii_env sample_atof (tabbed [32]) w_grammar w_lexicon en (s2t "SPACE"%string) = Ok (Some r) /\
  std_standardize ascii_env sample_atof (tabbed [9]) w_grammar w_lexicon en (s2t "SPACE"%string) = Ok None.
Proof. eexists. split; vm_compute; reflexivity. Qed.
(** A blank after the address. *)
Lemma tab_then_blank : exists r, std_standardize ascii_env sample_atof (tabbed [32] ++ [9; 9]) w_grammar w_lexicon en w_filter = Ok (Some r) /\
  std_standardize ascii_env sample_atof (tabbed [32] ++ [9; 9; 32]) w_grammar w_lexicon en w_filter = Ok None.
Proof. eexists. split; vm_compute; reflexivity. Qed.
(** A rule with a misspelled name. *)
Lemma misspelled_used : (forall c, in_str c <> s2t "WROD"%string) /\ (exists r, std_standardize ascii_env sample_atof (tabbed [9; 9; 32]) wrod_grammar w_lexicon en w_filter = Ok (Some r)) /\
  std_standardize ascii_env sample_atof (tabbed [32]) wrod_grammar w_lexicon en w_filter = Ok None.
Proof. split; [intros c; destruct c; vm_compute; discriminate|]. split; [eexists; vm_compute; reflexivity|vm_compute; reflexivity]. Qed.
