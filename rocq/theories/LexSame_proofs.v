(** Lexicons with the same words and locale give the same results, whether or not their patterns are stored. *)
From Coq Require Import String List NArith Bool.
From Verif Require Import Base_model Class_model Uni_model Token_model Regex_model Lexicon_model Tokenizer_model LexMap_proofs.
Import ListNotations.
Local Open Scope N_scope.

Lemma same_caches : forall x y, x_lex x = x_lex y -> cache_ok x -> cache_ok y ->
  fst (lex_regex x) = fst (lex_regex y) /\ fst (lex_pre x) = fst (lex_pre y) /\ fst (lex_suf x) = fst (lex_suf y).
Proof. intros x y W Cx Cy. destruct (patterns_of x Cx) as (-> & -> & ->). destruct (patterns_of y Cy) as (-> & -> & ->). rewrite W. auto. Qed.
(** Asking for a pattern fills in what is missing. *)
Lemma asked_patterns : forall x x', x' = snd (lex_regex x) \/ x' = snd (lex_pre x) \/ x' = snd (lex_suf x) ->
  x_lex x' = x_lex x /\ x_locale x' = x_locale x /\
  fst (lex_regex x') = fst (lex_regex x) /\ fst (lex_pre x') = fst (lex_pre x) /\ fst (lex_suf x') = fst (lex_suf x).
Proof.
  intros x x' H. destruct x as [n l c w r p s m]. unfold lex_regex, lex_pre, lex_suf in H. cbn [x_regex x_pre x_suf x_lex] in H.
  destruct H as [->|[->| ->]]; [destruct r|destruct p|destruct s]; cbn [snd]; repeat split; unfold lex_regex, lex_pre, lex_suf;
    cbn [x_lex x_locale x_regex x_pre x_suf fst snd]; try reflexivity; try (destruct (make_regex w); reflexivity); try (destruct (make_pre w); reflexivity); try (destruct (make_suf w); reflexivity);
    try (destruct r; reflexivity); try (destruct p; reflexivity); destruct s; reflexivity.
Qed.
Section same.
Variables x y : lexicon.
Hypothesis W : x_lex x = x_lex y.
Hypothesis L : x_locale x = x_locale y.
Hypothesis same_patterns3 : fst (lex_regex x) = fst (lex_regex y) /\ fst (lex_pre x) = fst (lex_pre y) /\ fst (lex_suf x) = fst (lex_suf y).

Lemma same_find : forall w, lex_find x w = lex_find y w.
Proof. intros w. unfold lex_find. rewrite W. reflexivity. Qed.
Lemma same_classify : forall u k c, classify u x k c = classify u y k c.
Proof. intros u k c. unfold classify. rewrite same_find. reflexivity. Qed.
Lemma same_part : forall u w, part_token u x w = part_token u y w.
Proof. intros u w. apply same_classify. Qed.
Lemma same_standardize : forall k, standardize_word x k = standardize_word y k.
Proof. intros k. unfold standardize_word. rewrite same_find. reflexivity. Qed.
Lemma same_split : forall u k, split_token u x k = split_token u y k.
Proof.
  intros u k. unfold split_token. assert (split_parts u x k = split_parts u y k) as ->.
  { unfold split_parts. destruct same_patterns3 as (_ & -> & ->). reflexivity. }
  destruct (split_parts u y k) as [ws| |]; cbn [obind]; [|reflexivity|reflexivity]. f_equal. apply map_ext. apply same_part.
Qed.
Lemma same_pieces : forall u ps, piece_tokens u x ps = piece_tokens u y ps.
Proof.
  intros u. induction ps as [|p ps IH]; [reflexivity|]. cbn [piece_tokens]. rewrite IH.
  assert (word_tokens u x (pc_tok p) = word_tokens u y (pc_tok p)) as ->.
  { unfold word_tokens. destruct (pc_tok p); [reflexivity|]. rewrite same_classify, same_split. reflexivity. }
  assert (sep_tokens u x (pc_sep p) = sep_tokens u y (pc_sep p)) as ->.
  { unfold sep_tokens. destruct (pc_sep p); [reflexivity|]. rewrite same_classify. reflexivity. }
  reflexivity.
Qed.
Lemma same_tokens : forall e f str, get_tokens e (mkTz x f) str = get_tokens e (mkTz y f) str.
Proof.
  intros e f str. unfold get_tokens, all_tokens. cbn [z_lex z_filter]. assert (get_pieces e x str = get_pieces e y str) as ->.
  { unfold get_pieces, search_text. destruct same_patterns3 as (-> & _). rewrite L. reflexivity. }
  destruct (get_pieces e y str) as [ps| |]; cbn [obind]; [|reflexivity|reflexivity]. rewrite same_pieces. reflexivity.
Qed.
Lemma same_alt_one : forall u i ks n, alt_one u x i n ks = alt_one u y i n ks.
Proof.
  intros u i. induction ks as [|k ks IH]; intros n; [reflexivity|]. cbn [alt_one]. rewrite !IH. rewrite (map_ext _ _ (same_part u)). reflexivity.
Qed.
Lemma same_alts : forall u ks, get_alt_tokens u x ks = get_alt_tokens u y ks.
Proof.
  intros u ks. unfold get_alt_tokens. destruct (phrases ks) as [|n]; [reflexivity|]. destruct (Nat.ltb 31 (S n)); [reflexivity|].
  f_equal. apply map_ext. intros i. apply same_alt_one.
Qed.
End same.
