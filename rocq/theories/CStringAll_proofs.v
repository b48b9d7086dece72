From Coq Require Import String List NArith ZArith Bool Lia.
From Verif Require Import Base_model Class_model Uni_model Float_model Token_model Rule_model Search_model Grammar_model Regex_model Trie_model
  Utf8_model Md5_model Lexicon_model Tokenizer_model Archive_model Wrapper_model CString_model CString_spec
  Trie_proofs TrieRegex_proofs Archive_proofs CString_proofs.
Import ListNotations.
Local Open Scope N_scope.

Definition printable (P : N -> Prop) : Prop := forall c, 32 <= c -> c < 128 -> P c.
Lemma ordinary_printable : forall P, ordinary P -> printable P.
Proof. intros P O c A B. apply O; lia. Qed.
Section All.
Variable P : N -> Prop.
Hypothesis ord : printable P.
Notation "'ok' t" := (Forall P t) (at level 10).

Lemma ok_ascii : forall t : text, forallb (fun c => (32 <=? c) && (c <? 128)) t = true -> ok t.
Proof.
  intros t E. apply Forall_forall. intros c C. apply (proj1 (forallb_forall _ _) E) in C. apply andb_prop in C. destruct C as [A B].
  apply N.leb_le in A. apply N.ltb_lt in B. apply ord; assumption.
Qed.
Ltac asc := apply ok_ascii; vm_compute; reflexivity.
Lemma ok_in : forall i, ok (in_str i).
Proof. intros i. destruct i; asc. Qed.
Lemma ok_out : forall o, ok (out_str o).
Proof. intros o. destruct o; asc. Qed.
Lemma ok_att : forall a, ok (att_str a).
Proof. intros a. destruct a; asc. Qed.
Lemma ok_iset : forall s, ok (iset_str s).
Proof. intros s. apply ok_join; [asc|]. apply Forall_forall. intros t T. apply in_map_iff in T. destruct T as (i & <- & _). apply ok_in. Qed.
Lemma ok_aset : forall s, ok (aset_str s).
Proof. intros s. apply ok_join; [asc|]. apply Forall_forall. intros t T. apply in_map_iff in T. destruct T as (i & <- & _). apply ok_att. Qed.
Lemma ok_pattern : forall ts, ok (pattern_str ts).
Proof.
  intros ts. unfold pattern_str. apply ok_removelast. apply ok_app; [|apply ok_app; [asc|]].
  - apply ok_concat. apply Forall_forall. intros t T. apply in_map_iff in T. destruct T as (k & <- & _). apply ok_app; [apply ok_iset|asc].
  - apply ok_concat. apply Forall_forall. intros t T. apply in_map_iff in T. destruct T as (k & <- & _). apply ok_app; [apply ok_out|asc].
Qed.
Lemma ok_dec : forall n, ok (dec_text n).
Proof.
  intros n. eapply Forall_impl; [|exact (proj1 (dec_text_ok n))]. intros c C. unfold is_digit in C. apply andb_prop in C. destruct C as [A B].
  apply N.leb_le in A. apply N.leb_le in B. apply ord; lia.
Qed.
Lemma ok_md5 : forall l, ok (md5_hex l).
Proof.
  intros l. unfold md5_hex, md_hexdigest. set (m := md_finalize _).
  assert (D : Forall (fun b => b < 256) (m_digest m)).
  { subst m. unfold md_finalize. assert (F : m_final (md_update (md_init (repeat 0 64) (repeat 0 16)) l) = false).
    { unfold md_update. cbn zeta. destruct (Nat.leb _ _); [|reflexivity]. destruct (md_blocks _ _ _). reflexivity. }
    rewrite F. cbn zeta. cbn [m_digest]. unfold md_encode. apply Forall_forall. intros b B. apply in_flat_map in B. destruct B as (w & _ & B).
    assert (H : forall y, N.land y 255 < 256) by (intros y; change 255 with (N.ones 8); rewrite N.land_ones; apply N.mod_lt; discriminate).
    repeat (destruct B as [<-|B]; [apply H|]). destruct B. }
  clearbody m. destruct (m_final m); [|constructor]. apply Forall_forall. intros c C. apply in_flat_map in C. destruct C as (b & B & C).
  assert (L : b < 256).
  { apply (proj1 (Forall_forall _ _) D). rewrite <- (firstn_skipn 16 (m_digest m)). apply in_or_app. left. exact B. }
  assert (H : forall d, d < 16 -> 32 <= hex_digit d /\ hex_digit d < 128).
  { intros d X. unfold hex_digit. destruct (N.ltb_spec d 10); lia. }
  assert (Q : b / 16 < 16) by (apply N.div_lt_upper_bound; lia). assert (R : b mod 16 < 16) by (apply N.mod_lt; discriminate).
  destruct C as [<-|[<-|[]]]; apply ord; apply H; assumption.
Qed.

(** ** The trie *)
Fixpoint trie_ok (t : trie) : Prop :=
  match t with Node _ _ kids => (fix go l := match l with [] => True | (c, k) :: l' => P c /\ trie_ok k /\ go l' end) kids end.
Definition kids_ok (kids : list (N * trie)) : Prop := forall c k, In (c, k) kids -> P c /\ trie_ok k.
Lemma trie_kids : forall n e kids, trie_ok (Node n e kids) <-> kids_ok kids.
Proof.
  intros n e kids. cbn [trie_ok]. unfold kids_ok. induction kids as [|[c k] kids IH]; [split; [intros _ c k []|intros _; exact I]|]. split.
  - intros (A & B & C) c' k' [E|E]; [injection E as <- <-; split; assumption|]. exact (proj1 IH C c' k' E).
  - intros H. split; [apply (H c k); left; reflexivity|]. split; [apply (H c k); left; reflexivity|]. apply IH. intros c' k' E. apply H. right. exact E.
Qed.
Lemma add_ok : forall w t, ok w -> trie_ok t -> trie_ok (add_word w t).
Proof.
  intros w t W. revert t. induction W as [|c w C W IH]; intros t T; [exact T|]. destruct t as [n e kids]. cbn [add_word]. cbn zeta.
  apply trie_kids. apply trie_kids in T. intros c' k' I. apply kid_set_in in I. destruct I as [I|I]; [|exact (T c' k' I)].
  injection I as -> ->. split; [exact C|]. destruct (kid_find c kids) as [[m e' ks]|] eqn:F.
  - assert (K : trie_ok (Node m e' ks)).
    { revert F. clear -T. induction kids as [|[d k] kids IHk]; intros F; cbn [kid_find] in F; [discriminate F|].
      destruct (d =? c); [injection F as ->; apply (T d _); left; reflexivity|]. apply IHk; [|exact F]. intros c' k' I. apply T. right. exact I. }
    destruct w; [exact K|]. apply IH. exact K.
  - apply IH. apply trie_kids. intros ? ? [].
Qed.
Lemma trie_of_ok : forall ws, Forall (Forall P) ws -> trie_ok (trie_of ws).
Proof.
  intros ws W. unfold trie_of. assert (G : forall t, trie_ok t -> trie_ok (fold_left (fun t w => add_word w t) ws t)).
  { induction W as [|w ws A W IH]; intros t T; [exact T|]. cbn [fold_left]. apply IH. apply add_ok; assumption. }
  apply G. apply trie_kids. intros ? ? [].
Qed.
Lemma ok_quote : forall c, P c -> ok (quote_meta [c]).
Proof.
  intros c C. unfold quote_meta. cbn [map concat]. rewrite app_nil_r. destruct (existsb (N.eqb c) special_chars); repeat constructor; try exact C. apply ord; [discriminate|reflexivity].
Qed.
Lemma ok_finish : forall e alt cc n, Forall (Forall P) alt -> Forall (Forall P) cc -> ok (finish_regexp e alt cc n).
Proof.
  intros e alt cc n A C. unfold finish_regexp. cbn zeta.
  assert (G : forall alt' : list text, Forall (Forall P) alt' -> ok (if e && negb (Nat.eqb n 0)
    then if match alt with [] => true | _ => false end
         then (match alt' with [x] => x | _ => s2t "(?:" ++ join (s2t "|") alt' ++ s2t ")" end) ++ s2t "?"
         else s2t "(?:" ++ (match alt' with [x] => x | _ => s2t "(?:" ++ join (s2t "|") alt' ++ s2t ")" end) ++ s2t ")?"
    else match alt' with [x] => x | _ => s2t "(?:" ++ join (s2t "|") alt' ++ s2t ")" end)).
  { intros alt' A'. assert (R : ok (match alt' with [x] => x | _ => s2t "(?:" ++ join (s2t "|") alt' ++ s2t ")" end)).
    { assert (J : ok (s2t "(?:" ++ join (s2t "|") alt' ++ s2t ")")) by (apply ok_app; [asc|]; apply ok_app; [apply ok_join; [asc|exact A']|asc]).
      destruct alt' as [|x [|y l]]; try exact J. inversion A'; assumption. }
    destruct (e && negb (Nat.eqb n 0)); [|exact R]. destruct (match alt with [] => true | _ => false end); [apply ok_app; [exact R|asc]|].
    apply ok_app; [asc|]. apply ok_app; [exact R|asc]. }
  destruct cc as [|x [|y cc]]; [exact (G _ A)|apply (G (alt ++ [x]))|apply (G (alt ++ [s2t "[" ++ concat (x :: y :: cc) ++ s2t "]"]))];
    (apply Forall_app; split; [exact A|]; apply Forall_cons; [|apply Forall_nil]).
  - inversion C; assumption.
  - apply ok_app; [asc|]. apply ok_app; [apply ok_concat; exact C|asc].
Qed.
Fixpoint trie_size (t : trie) : nat := match t with Node _ _ kids => S ((fix go l := match l with [] => O | (_, k) :: l' => (trie_size k + go l')%nat end) kids) end.
Lemma kid_smaller : forall n e kids c k, In (c, k) kids -> (trie_size k < trie_size (Node n e kids))%nat.
Proof.
  intros n e kids c k. cbn [trie_size]. induction kids as [|[d q] kids IH]; intros I; [destruct I|]. destruct I as [E|I]; [injection E as <- <-; lia|].
  specialize (IH I). lia.
Qed.
Lemma ok_regexp : forall t, trie_ok t -> ok (get_regexp t).
Proof.
  assert (G : forall n t, (trie_size t < n)%nat -> trie_ok t -> ok (get_regexp t)).
  { induction n as [|n IH]; intros t L T; [lia|]. destruct t as [m e kids]. rewrite get_regexp_eq. destruct (e && Nat.eqb (List.length kids) 0); [constructor|].
    pose proof (proj1 (trie_kids m e kids) T) as K. apply ok_finish.
    - apply Forall_forall. intros t I. apply in_map_iff in I. destruct I as ([c k] & <- & I). apply filter_In in I. destruct I as [I _].
      cbn [fst snd]. destruct (K c k I) as [A B]. apply ok_app; [apply ok_quote; exact A|]. apply IH; [|exact B]. pose proof (kid_smaller m e kids c k I). lia.
    - apply Forall_forall. intros t I. apply in_map_iff in I. destruct I as (c & <- & I). unfold leaves in I. apply in_map_iff in I.
      destruct I as ([d k] & <- & I). apply filter_In in I. destruct I as [I _]. apply ok_quote. exact (proj1 (K d k I)). }
  intros t T. exact (G _ t (Nat.lt_succ_diag_r _) T).
Qed.

(** ** Lexicons *)
Definition le_ok (l : lexentry) : Prop := ok (le_word l) /\ ok (le_std l).
Definition lex_ok (l : list (text * list lexentry)) : Prop := Forall (fun kv => ok (fst kv) /\ Forall le_ok (snd kv)) l.
Definition x_ok (x : lexicon) : Prop :=
  lex_ok (x_lex x) /\ ok (x_name x) /\ ok (x_locale x) /\ ok (x_regex x) /\ ok (x_pre x) /\ ok (x_suf x) /\ ok (x_md5 x).
Lemma lex_stds : forall x, lex_ok (x_lex x) -> stds_ok P x.
Proof.
  intros x X w les le I L. pose proof (proj1 (Forall_forall _ _) X _ I) as [_ A]. exact (proj2 (proj1 (Forall_forall _ _) A le L)).
Qed.
Lemma put_ok : forall k v l, ok k -> Forall le_ok v -> lex_ok l -> lex_ok (map_put k v l).
Proof.
  intros k v l K V L. induction L as [|[k' v'] l [A B] L IH]; cbn [map_put]; [constructor; [split; assumption|constructor]|].
  destruct (tltb k k'); [constructor; [split; assumption|constructor; [split; assumption|exact L]]|].
  destruct (tltb k' k); constructor; try (split; assumption); try exact IH; try exact L.
Qed.
Lemma find_ok : forall x k, lex_ok (x_lex x) -> Forall le_ok (lex_find x k).
Proof.
  intros x k X. unfold lex_find. destruct (map_get k (x_lex x)) as [v|] eqn:G; [|constructor]. destruct (map_get_pair _ _ _ _ G) as [k' K].
  exact (proj2 (proj1 (Forall_forall _ _) X _ K)).
Qed.
Lemma insert_ok : forall x l, x_ok x -> le_ok l -> x_ok (lex_insert x l).
Proof.
  intros x l (A & B & C & D) L. unfold lex_insert. cbn zeta. destruct (existsb (fun y => le_eqb y l) (lex_find x (le_word l))); [exact (conj A (conj B (conj C D)))|].
  unfold set_lex, x_ok. cbn [x_lex x_name x_locale x_regex x_pre x_suf x_md5]. split; [|repeat split; try assumption; try apply D; constructor].
  apply put_ok; [exact (proj1 L)| |exact A]. apply Forall_app. split; [apply find_ok; exact A|constructor; [exact L|constructor]].
Qed.
Lemma line_ok : forall t, ok t -> le_ok (lexentry_of_line t).
Proof.
  intros t T. unfold lexentry_of_line.
  pose proof (ok_getline P TAB (open_stream t) [] T (Forall_nil _)) as A. destruct (getline TAB (open_stream t) []) as [s1 w]. cbn [fst snd] in A.
  assert (B : let q := if teqb w (s2t "LEXENTRY:") then getline TAB s1 w else (s1, w) in ok (s_rest (fst q)) /\ ok (snd q))
    by (destruct (teqb w (s2t "LEXENTRY:")); cbn zeta; [apply ok_getline; apply A|exact A]).
  cbn zeta in B. destruct (if teqb w (s2t "LEXENTRY:") then getline TAB s1 w else (s1, w)) as [s2 word]. cbn [fst snd] in B.
  pose proof (ok_getline P TAB s2 [] (proj1 B) (Forall_nil _)) as C. destruct (getline TAB s2 []) as [s3 stdw]. cbn [fst snd] in C.
  destruct (getline TAB s3 []) as [s4 ty]. destruct (getline TAB s4 []) as [s5 att].
  split; cbn [le_word le_std]; [exact (proj2 B)|exact (proj2 C)].
Qed.
Variable e : env.
Hypothesis kp : keeps P e.
Lemma bad_ok : forall n t, ok t -> ok (bad_entry n t).
Proof. intros n t T. unfold bad_entry. apply ok_app; [asc|]. apply ok_app; [apply ok_dec|]. apply ok_app; [asc|exact T]. Qed.
Lemma entry_ok : forall loc n raw, ok raw -> result_of P (fun r => match fst r with Some l => le_ok l | None => True end /\ ok (snd r)) (entry_line e loc n raw).
Proof.
  intros loc n raw R. unfold entry_line. cbn zeta. pose proof (ok_squeeze P raw R) as S0. destruct (squeeze raw) as [|c t] eqn:Q; [split; [exact I|constructor]|].
  rewrite <- Q in *. destruct (has_prefix (s2t "LEXENTRY:") (squeeze raw) || has_prefix (s2t "LexEntry:") (squeeze raw)); [|apply bad_ok; exact S0].
  pose proof (proj1 kp _ S0) as N1.
  assert (G : forall n', ok n' -> result_of P (fun r : option lexentry * text => match fst r with Some l => le_ok l | None => True end /\ ok (snd r))
    (if le_in_class (lexentry_of_line n') I_BADTOKEN then Throw (bad_entry n n') else Ok (Some (lexentry_of_line n'), n'))).
  { intros n' N2. destruct (le_in_class (lexentry_of_line n') I_BADTOKEN); [apply bad_ok; exact N2|]. split; cbn [fst snd]; [apply line_ok|]; exact N2. }
  destruct loc; [apply (G (e_nfc e (squeeze raw)) N1)|apply G; apply (proj2 kp); exact N1].
Qed.
Definition entries_only (x : lexicon) : Prop := lex_ok (x_lex x).
Lemma insert_only : forall x l, entries_only x -> le_ok l -> entries_only (lex_insert x l).
Proof.
  intros x l A L. unfold lex_insert. cbn zeta. destruct (existsb (fun y => le_eqb y l) (lex_find x (le_word l))); [exact A|].
  unfold set_lex, entries_only. cbn [x_lex]. apply put_ok; [exact (proj1 L)| |exact A]. apply Forall_app. split; [apply find_ok; exact A|constructor; [exact L|constructor]].
Qed.
Lemma entries_gen : forall Q : lexicon -> Prop, (forall x l, Q x -> le_ok l -> Q (lex_insert x l)) -> forall f is line acc n x, ok (s_rest is) -> ok line -> Q x ->
  result_of P (fun r => Q (snd r)) (read_entries f e is line acc n x).
Proof.
  intros Q QI. induction f as [|f IH]; intros is line acc n x S0 L X; [exact I|]. cbn [read_entries]. destruct (s_fail is); [exact X|].
  pose proof (ok_getline P LF is line S0 L) as [A B]. destruct (getline LF is line) as [is' raw]. cbn [fst snd] in A, B.
  pose proof (entry_ok (x_locale x) (n + 1) raw B) as E. destruct (entry_line e (x_locale x) (n + 1) raw) as [[o l']| |]; cbn [obind result_of fst snd] in *; [|exact E|exact I].
  apply IH; [exact A|exact (proj2 E)|]. destruct o; [apply QI; [exact X|exact (proj1 E)]|exact X].
Qed.
Lemma entries_ok : forall f is line acc n x, ok (s_rest is) -> ok line -> x_ok x ->
  result_of P (fun r => x_ok (snd r)) (read_entries f e is line acc n x).
Proof. exact (entries_gen x_ok insert_ok). Qed.
(** The cut first line may contain a number that is no code point; it is no header. *)
Definition first_ok (line : text) : Prop := ok line \/ exists t, line = 0x110000 :: t.
Lemma skip_ok : forall f is line acc n, ok (s_rest is) -> first_ok line ->
  result_of P (fun h => let '(is', hl, _, _) := h in ok (s_rest is') /\ ok hl) (skip_header f is line acc n).
Proof.
  induction f as [|f IH]; intros is line acc n S0 L; [exact I|]. cbn [skip_header]. destruct (s_fail is) eqn:SF; [asc|].
  destruct (has_prefix (s2t "LEXICON:") line) eqn:H.
  - split; [exact S0|]. destruct L as [L|[t ->]]; [exact L|]. discriminate H.
  - destruct (has_prefix (s2t "LEXENTRY:") line); [asc|].
    assert (G : ok (s_rest (fst (getline LF is line))) /\ first_ok (snd (getline LF is line))).
    { unfold getline. destruct (s_eof is || s_fail is); [split; [exact S0|exact L]|].
      pose proof (ok_span_to P LF (s_rest is) S0) as [A B]. destruct (span_to LF (s_rest is)) as [a [r|]]; cbn [fst snd s_rest] in *; split; auto; left; exact A. }
    destruct (getline LF is line) as [is' line']. cbn [fst snd] in G. apply IH; apply G.
Qed.
Lemma bom_ok : forall line, ok line -> result_of P first_ok (lex_strip_bom line).
Proof.
  intros line L. unfold lex_strip_bom. destruct line as [|c t]; [left; constructor|]. destruct (c =? BOM); [|left; exact L].
  destruct t as [|d t]; [asc|]. inversion L as [|? ? C T]; subst. inversion T; subst.
  destruct (Nat.eqb (utf8_len d) 1); [left; assumption|right; exists t; reflexivity].
Qed.
Lemma fields_ok : forall t, ok t -> ok (snd (header_fields t)).
Proof.
  intros t T. unfold header_fields.
  pose proof (ok_getline P TAB (open_stream t) [] T (Forall_nil _)) as A. destruct (getline TAB (open_stream t) []) as [s1 t1]. cbn [fst snd] in A.
  pose proof (ok_getline P TAB s1 t1 (proj1 A) (proj2 A)) as B. destruct (getline TAB s1 t1) as [s2 t2]. cbn [fst snd] in B.
  pose proof (ok_getline P TAB s2 t2 (proj1 B) (proj2 B)) as C. destruct (getline TAB s2 t2) as [s3 t3]. cbn [fst snd] in C.
  pose proof (ok_getline P TAB s3 [] (proj1 C) (Forall_nil _)) as D. destruct (getline TAB s3 []) as [s4 loc]. exact (proj2 D).
Qed.
Lemma load_ok : forall name src, ok name -> ok src -> result_of P x_ok (load_lexicon e name src).
Proof.
  intros name src N0 S0. unfold load_lexicon. pose proof (ok_getline P LF (open_stream src) [] S0 (Forall_nil _)) as [A B].
  destruct (getline LF (open_stream src) []) as [is raw]. cbn [fst snd] in A, B. pose proof (bom_ok raw B) as C.
  destruct (lex_strip_bom raw) as [line| |]; cbn [obind result_of] in *; [|exact C|exact I].
  pose proof (skip_ok (List.length src + 3) is line raw 1 A C) as D.
  destruct (skip_header (List.length src + 3) is line raw 1) as [[[[is' hl] acc] cnt]| |]; cbn [obind result_of] in *; [|exact D|exact I].
  destruct D as [D1 D2]. pose proof (fields_ok hl D2) as F. destruct (header_fields hl) as [[t1 t3] loc]. cbn [snd] in F.
  destruct (teqb t1 (s2t "LEXICON:") || teqb t1 (s2t "Lexicon:")).
  - assert (X : x_ok (mkLex name (as_lang t3) loc [] [] [] [] [])) by (repeat split; cbn; try constructor; assumption).
    pose proof (entries_ok (List.length src + 3) is' hl acc (cnt + 1) _ D1 D2 X) as E.
    destruct (read_entries (List.length src + 3) e is' hl acc (cnt + 1) (mkLex name (as_lang t3) loc [] [] [] [] [])) as [[d y]| |]; cbn [obind result_of fst snd] in *; [|exact E|exact I].
    destruct E as (E1 & E2 & E3 & E4 & E5 & E6 & _). unfold x_ok. cbn [x_lex x_name x_locale x_regex x_pre x_suf x_md5]. repeat split; try assumption. apply ok_md5.
  - apply ok_app; [asc|]. apply ok_app; [apply ok_dec|]. apply ok_app; [asc|exact D2].
Qed.

(** ** Archives *)
Lemma num_ok : forall z, ok (put_num z).
Proof.
  intros z. unfold put_num. constructor; [apply ord; [discriminate|reflexivity]|]. destruct z; try apply ok_dec. constructor; [apply ord; [discriminate|reflexivity]|apply ok_dec].
Qed.
Lemma str_ok : forall t, ok t -> ok (put_str t).
Proof. intros t T. unfold put_str. apply ok_app; [apply num_ok|]. constructor; [apply ord; [discriminate|reflexivity]|exact T]. Qed.
Definition w_ok (w : writer) : Prop := forall l, ok (fst (w l)).
Lemma w_put : forall t, ok t -> w_ok (put t).
Proof. intros t T l. exact T. Qed.
Lemma w_class : forall c, w_ok (put_class c).
Proof. intros c l. unfold put_class. destruct (seen c l); [constructor|]. cbn [fst]. apply ok_app; apply num_ok. Qed.
Lemma w_seq : forall a b, w_ok a -> w_ok b -> w_ok (Archive_model.seq a b).
Proof.
  intros a b A B l. unfold Archive_model.seq. specialize (A l). destruct (a l) as [t l1]. specialize (B l1). destruct (b l1) as [t' l2]. apply ok_app; assumption.
Qed.
Lemma w_items : forall (A : Type) (f : A -> writer) xs, Forall (fun x => w_ok (f x)) xs -> w_ok (put_items f xs).
Proof.
  intros A f xs F. unfold put_items. apply w_seq; [apply w_put; apply ok_app; apply num_ok|].
  induction F; cbn [put_all]; [apply w_put; constructor|apply w_seq; assumption].
Qed.
Local Opaque put_items put_class put.
Lemma w_entry : forall l, le_ok l -> w_ok (put_entry l).
Proof.
  intros l [A B]. unfold put_entry. repeat apply w_seq; try apply w_class; try (apply w_put; apply str_ok; assumption).
  - apply w_items. apply Forall_forall. intros c _. apply w_put. apply num_ok.
  - apply w_items. apply Forall_forall. intros c _. apply w_put. apply num_ok.
Qed.
Lemma w_item : forall kv, ok (fst kv) -> Forall le_ok (snd kv) -> w_ok (put_item kv).
Proof.
  intros kv A B. unfold put_item. repeat apply w_seq; try apply w_class; try (apply w_put; apply str_ok; assumption).
  apply w_items. eapply Forall_impl; [|exact B]. intros l L. apply w_entry. exact L.
Qed.
Lemma save_ok : forall v x, x_ok x -> ok (save_archive v x).
Proof.
  intros v x (A & B & C & D & E & F & G). unfold save_archive. apply ok_app; [asc|]. apply ok_app; [asc|]. repeat (apply ok_app; [apply num_ok|]).
  apply (fun W : w_ok (save x) => W []). unfold save. repeat apply w_seq; try apply w_class; try (apply w_put; apply str_ok; assumption).
  - apply w_put. apply num_ok.
  - apply w_items. eapply Forall_impl; [|exact A]. intros kv [K L]. apply w_item; assumption.
Qed.
Local Transparent put_items put_class put.
Lemma keys_ok : forall l, lex_ok l -> Forall (Forall P) (map fst l).
Proof. intros l. induction 1 as [|kv l [A B] L IH]; cbn [map]; constructor; assumption. Qed.
Lemma att_words_ok : forall p l, lex_ok l -> Forall (Forall P) (att_words p l).
Proof.
  intros p l L. apply Forall_forall. intros t T. unfold att_words in T. apply in_flat_map in T. destruct T as (kv & I0 & T).
  apply in_map_iff in T. destruct T as (q & <- & _). exact (proj1 (proj1 (Forall_forall _ _) L kv I0)).
Qed.
Lemma regex_ok : forall x, x_ok x -> x_ok (snd (lex_regex x)).
Proof.
  intros x X. pose proof X as (A & B & C & D & E & F & G). unfold lex_regex. destruct (x_regex x); [|exact X]. cbn zeta. unfold x_ok.
  cbn [snd x_lex x_name x_locale x_regex x_pre x_suf x_md5]. repeat split; try assumption. unfold make_regex. apply ok_app; [|asc].
  apply ok_regexp. apply trie_of_ok. apply keys_ok. exact A.
Qed.
Lemma pre_ok : forall x, x_ok x -> x_ok (snd (lex_pre x)).
Proof.
  intros x X. pose proof X as (A & B & C & D & E & F & G). unfold lex_pre. destruct (x_pre x); [|exact X]. cbn zeta. unfold x_ok.
  cbn [snd x_lex x_name x_locale x_regex x_pre x_suf x_md5]. repeat split; try assumption. unfold make_pre. apply ok_app; [asc|]. apply ok_app; [|asc].
  apply ok_regexp. apply trie_of_ok. apply att_words_ok. exact A.
Qed.
Lemma suf_ok : forall x, x_ok x -> x_ok (snd (lex_suf x)).
Proof.
  intros x X. pose proof X as (A & B & C & D & E & F & G). unfold lex_suf. destruct (x_suf x); [|exact X]. cbn zeta. unfold x_ok.
  cbn [snd x_lex x_name x_locale x_regex x_pre x_suf x_md5]. repeat split; try assumption. unfold make_suf.
  apply ok_regexp. apply trie_of_ok. apply att_words_ok. exact A.
Qed.
Lemma compile_ok : forall src, ok src -> result_of P (made_of P) (serialize_lexicon e src).
Proof.
  intros src S0. unfold serialize_lexicon. assert (Q : ok query_lex) by asc. pose proof (load_ok query_lex src Q S0) as L.
  destruct (load_lexicon e query_lex src) as [x| |]; cbn [obind result_of] in *; [|exact L|exact I]. apply save_ok. apply suf_ok, pre_ok, regex_ok. exact L.
Qed.

(** Reading. *)
Lemma digits_ok : forall t n, ok t -> ok (snd (read_digits n t)).
Proof. intros t. induction t as [|c t IH]; intros n T; cbn [read_digits]; [exact T|]. inversion T; subst. destruct (is_digit c); [apply IH; assumption|exact T]. Qed.
Lemma unsigned_ok : forall t, ok t -> result_of P (fun r => ok (snd r)) (get_unsigned t).
Proof. intros t T. unfold get_unsigned. destruct t as [|c t]; [asc|]. destruct (is_digit c); [apply digits_ok; exact T|asc]. Qed.
Lemma get_num_ok : forall t, ok t -> result_of P (fun r => ok (snd r)) (get_num t).
Proof.
  intros t T. unfold get_num. pose proof (ok_drop_space P t T) as D. destruct (drop_space t) as [|c t']; [asc|]. destruct (c =? 45); [|destruct (c =? 43)].
  - inversion D; subst. pose proof (unsigned_ok t' H2) as U. destruct (get_unsigned t'); cbn [obind result_of snd] in *; [exact U|exact U|exact I].
  - inversion D; subst. pose proof (unsigned_ok t' H2) as U. destruct (get_unsigned t'); cbn [obind result_of snd] in *; [exact U|exact U|exact I].
  - pose proof (unsigned_ok (c :: t') D) as U. destruct (get_unsigned (c :: t')); cbn [obind result_of snd] in *; [exact U|exact U|exact I].
Qed.
Lemma get_size_ok : forall t, ok t -> result_of P (fun r => ok (snd r)) (get_size t).
Proof.
  intros t T. unfold get_size. pose proof (get_num_ok t T) as U. destruct (get_num t) as [[z r]| |]; cbn [obind result_of fst snd] in *; [|exact U|exact I].
  destruct (z <? 0)%Z; [asc|exact U].
Qed.
(** A string may be cut short by the end of the text, and then be completed by NUL characters. *)
Lemma get_str_ok : forall t, ok t -> result_of P (fun r => ok (snd r) /\ (ok (fst r) \/ snd r = [])) (get_str t).
Proof.
  intros t T. unfold get_str. pose proof (get_size_ok t T) as U. destruct (get_size t) as [[n r]| |]; cbn [obind result_of fst snd] in *; [|exact U|exact I].
  destruct r as [|c r]; [split; [constructor|right; reflexivity]|]. inversion U; subst. split; cbn [fst snd]; [apply ok_skipn; assumption|].
  destruct (Nat.le_gt_cases n (List.length r)) as [L|L]; [left|right].
  - replace (n - List.length r)%nat with O by lia. cbn [repeat]. rewrite app_nil_r. apply ok_firstn. assumption.
  - apply skipn_all2. lia.
Qed.
Definition r_ok {A} (Q : A -> Prop) (r : reader A) : Prop := forall st : text * list cls, ok (fst st) -> result_of P (fun q => Q (fst q) /\ ok (fst (snd q))) (r st).
Lemma r_bind : forall A B (Q : A -> Prop) (R : B -> Prop) (a : reader A) (f : A -> reader B), r_ok Q a -> (forall v, Q v -> r_ok R (f v)) -> r_ok R (rbind a f).
Proof.
  intros A B Q R a f HA HF st S0. unfold rbind. specialize (HA st S0). destruct (a st) as [[v st']| |]; cbn [obind result_of fst snd] in *; [|exact HA|exact I].
  apply HF; apply HA.
Qed.
Lemma r_get : forall A (Q : A -> Prop) (f : text -> outcome (A * text)), (forall t, ok t -> result_of P (fun r => Q (fst r) /\ ok (snd r)) (f t)) -> r_ok Q (get f).
Proof.
  intros A Q f F st S0. unfold get. specialize (F _ S0). destruct (f (fst st)); cbn [obind result_of fst snd] in *; [exact F|exact F|exact I].
Qed.
Lemma r_ret : forall A (Q : A -> Prop) v, Q v -> r_ok Q (rret v).
Proof. intros A Q v V st S0. split; assumption. Qed.
Lemma r_class : forall c, r_ok (fun _ => True) (get_class c).
Proof.
  intros c st S0. unfold get_class. destruct (seen c (snd st)); [split; [exact I|exact S0]|].
  pose proof (get_num_ok _ S0) as U. destruct (get_num (fst st)) as [[z t]| |]; cbn [obind result_of fst snd] in *; [|exact U|exact I].
  pose proof (get_num_ok _ U) as V. destruct (get_num t) as [[y t']| |]; cbn [obind result_of fst snd] in *; [|exact V|exact I]. split; [exact I|exact V].
Qed.
(** A reader that needs more text. *)
Definition needs {A} (r : reader A) : Prop := forall l, exists m, r ([], l) = Throw m /\ ok m.
Lemma needs_get : forall A (f : text -> outcome (A * text)), f [] = Throw bad_archive -> needs (get f).
Proof. intros A f F l. exists bad_archive. unfold get. cbn [fst]. rewrite F. split; [reflexivity|asc]. Qed.
Lemma needs_bind : forall A B (a : reader A) (f : A -> reader B), needs a -> needs (rbind a f).
Proof. intros A B a f H l. destruct (H l) as (m & E & M). exists m. unfold rbind. rewrite E. split; [reflexivity|exact M]. Qed.
Lemma needs_class : forall B c (f : unit -> reader B), needs (f tt) -> needs (rbind (get_class c) f).
Proof.
  intros B c f H l. unfold rbind, get_class. cbn [fst snd]. destruct (seen c l); [cbn [obind fst snd]; apply H|]. exists bad_archive. split; [reflexivity|asc].
Qed.
Lemma needs_items : forall A (f : reader A), needs (get_items f).
Proof. intros A f. unfold get_items. apply needs_bind. apply needs_get. reflexivity. Qed.
Lemma needs_str : needs (get get_str).
Proof. apply needs_get. reflexivity. Qed.
Lemma r_str : forall B (R : B -> Prop) (f : text -> reader B), (forall v, ok v -> r_ok R (f v)) -> (forall v, needs (f v)) -> r_ok R (rbind (get get_str) f).
Proof.
  intros B R f F D st S0. unfold rbind, get. pose proof (get_str_ok _ S0) as G. destruct (get_str (fst st)) as [[v t]| |]; cbn [obind result_of fst snd] in *; [|exact G|exact I].
  destruct G as [T [V|V]]; [apply (F v V (t, snd st) T)|]. subst t. destruct (D v (snd st)) as (m & E & M).
  match goal with |- result_of _ _ ?g => replace g with (@Throw (B * (text * list cls)) m) by (symmetry; exact E) end. exact M.
Qed.
Lemma r_any : forall A (f : text -> outcome (A * text)), (forall t, ok t -> result_of P (fun r => ok (snd r)) (f t)) -> r_ok (fun _ => True) (get f).
Proof. intros A f F. apply r_get. intros t T. specialize (F t T). destruct (f t); cbn [result_of] in *; [split; [exact I|exact F]|exact F|exact I]. Qed.
Lemma r_all : forall A (Q : A -> Prop) (f : reader A) n, r_ok Q f -> r_ok (Forall Q) (get_all f n).
Proof.
  intros A Q f n F. induction n as [|n IH]; cbn [get_all]; [apply r_ret; constructor|].
  apply (r_bind _ _ Q); [exact F|]. intros v V. apply (r_bind _ _ (Forall Q)); [exact IH|]. intros l L. apply r_ret. constructor; assumption.
Qed.
Lemma r_items : forall A (Q : A -> Prop) (f : reader A), r_ok Q f -> r_ok (Forall Q) (get_items f).
Proof.
  intros A Q f F. unfold get_items. apply (r_bind _ _ (fun _ => True)); [apply r_any; exact get_size_ok|]. intros n _.
  apply (r_bind _ _ (fun _ => True)); [apply r_any; exact get_num_ok|]. intros _ _. apply r_all. exact F.
Qed.
Lemma r_enum : forall A (code : A -> Z) all, r_ok (fun _ => True) (get (get_enum code all)).
Proof.
  intros A code all. apply r_any. intros t T. unfold get_enum. pose proof (get_num_ok t T) as U.
  destruct (get_num t) as [[z r]| |]; cbn [obind result_of fst snd] in *; [|exact U|exact I]. unfold enum_of.
  destruct (find (fun a => (code a =? z)%Z) all); cbn [obind result_of snd]; [exact U|exact I].
Qed.
Lemma r_entry : r_ok le_ok get_entry.
Proof.
  unfold get_entry. apply (r_bind _ _ (fun _ => True)); [apply r_class|]. intros _ _.
  apply r_str; [|intros v; apply needs_bind, needs_str]. intros w W.
  apply r_str; [|intros v; apply needs_class, needs_bind, needs_items]. intros s S0.
  apply (r_bind _ _ (fun _ => True)); [apply r_class|]. intros _ _.
  apply (r_bind _ _ (Forall (fun _ => True))); [apply r_items; apply r_enum|]. intros ts _.
  apply (r_bind _ _ (fun _ => True)); [apply r_class|]. intros _ _.
  apply (r_bind _ _ (Forall (fun _ => True))); [apply r_items; apply r_enum|]. intros la _. apply r_ret. split; assumption.
Qed.
Lemma r_item : r_ok (fun kv : text * list lexentry => ok (fst kv) /\ Forall le_ok (snd kv)) get_item.
Proof.
  unfold get_item. apply (r_bind _ _ (fun _ => True)); [apply r_class|]. intros _ _.
  apply r_str; [|intros v; apply needs_class, needs_bind, needs_items]. intros k K. apply (r_bind _ _ (fun _ => True)); [apply r_class|]. intros _ _.
  apply (r_bind _ _ (Forall le_ok)); [apply r_items; apply r_entry|]. intros l L. apply r_ret. split; assumption.
Qed.
Lemma adds_ok : forall (items : list (text * list lexentry)) m, Forall (fun kv : text * list lexentry => ok (fst kv) /\ Forall le_ok (snd kv)) items -> lex_ok m -> lex_ok (fold_left map_add items m).
Proof.
  intros items m F. revert m. induction F as [|kv items [A B] F IH]; intros m M; [exact M|]. cbn [fold_left]. apply IH. unfold map_add.
  destruct (map_get (fst kv) m); [exact M|]. apply put_ok; assumption.
Qed.
Lemma r_text : r_ok (fun _ : text => True) (get get_str).
Proof. apply r_any. intros t T. pose proof (get_str_ok t T) as G. destruct (get_str t); cbn [result_of] in *; [apply G|exact G|exact I]. Qed.
Lemma r_load : forall v, r_ok entries_only (load v).
Proof.
  intros v. unfold load. destruct (v <? lexicon_version)%Z; [intros st _; asc|]. destruct (lexicon_version <? v)%Z; [intros st _; asc|].
  apply (r_bind _ _ (fun _ => True)); [apply r_text|]. intros name _. apply (r_bind _ _ (fun _ => True)); [apply r_enum|]. intros lg _.
  apply (r_bind _ _ (fun _ => True)); [apply r_text|]. intros loc _. apply (r_bind _ _ (fun _ => True)); [apply r_class|]. intros _ _.
  apply (r_bind _ _ _ _ _ _ (r_items _ _ _ r_item)). intros items IT. apply (r_bind _ _ (fun _ => True)); [apply r_text|]. intros re _.
  apply (r_bind _ _ (fun _ => True)); [apply r_text|]. intros pre _. apply (r_bind _ _ (fun _ => True)); [apply r_text|]. intros suf _.
  apply (r_bind _ _ (fun _ => True)); [apply r_text|]. intros md _. apply r_ret. apply adds_ok; [exact IT|constructor].
Qed.
Lemma archive_ok : forall t, ok t -> result_of P entries_only (load_archive t).
Proof.
  intros t T. unfold load_archive. pose proof (get_str_ok t T) as A. destruct (get_str t) as [[s r]| |]; cbn [obind result_of fst snd] in *; [|exact A|exact I].
  destruct (negb (teqb s signature)); [asc|].
  pose proof (get_num_ok _ (proj1 A)) as B. destruct (get_num r) as [[v r1]| |]; cbn [obind result_of fst snd] in *; [|exact B|exact I].
  destruct (library_version <? v)%Z; [asc|].
  pose proof (get_num_ok _ B) as C. destruct (get_num r1) as [[y r2]| |]; cbn [obind result_of fst snd] in *; [|exact C|exact I].
  pose proof (get_num_ok _ C) as D. destruct (get_num r2) as [[z r3]| |]; cbn [obind result_of fst snd] in *; [|exact D|exact I].
  pose proof (r_load z (r3, []) D) as L. destruct (load z (r3, [])) as [[x st]| |]; cbn [obind result_of fst snd] in *; [exact (proj1 L)|exact L|exact I].
Qed.
(** What a broken archive leaves. *)
Definition f_ok (f : filler) : Prop := forall x st, entries_only x -> ok (fst st) ->
  entries_only (fst (f x st)) /\ forall st', snd (f x st) = Some st' -> ok (fst st').
Lemma f_fill : forall A (Q : A -> Prop) (r : reader A) f, r_ok Q r -> (forall a x, Q a -> entries_only x -> entries_only (f a x)) -> f_ok (fill r f).
Proof.
  intros A Q r f R F x st X S0. unfold fill. specialize (R st S0). destruct (r st) as [[a st']| |]; cbn [result_of fst snd] in *; [|split; [exact X|discriminate]|split; [exact X|discriminate]].
  split; [apply F; [apply R|exact X]|]. intros st'' E. injection E as <-. apply R.
Qed.
Lemma f_then : forall a b, f_ok a -> f_ok b -> f_ok (fill_then a b).
Proof.
  intros a b A B x st X S0. unfold fill_then. specialize (A x st X S0). destruct (a x st) as [x' [st'|]]; cbn [fst snd] in *; [|exact A].
  apply B; [apply A|]. apply A. reflexivity.
Qed.
Lemma f_all : forall a n, f_ok a -> f_ok (fill_all a n).
Proof.
  intros a n A. induction n as [|n IH]; cbn [fill_all]; [|apply f_then; assumption]. intros x st X S0. split; [exact X|]. intros st' E. injection E as <-. exact S0.
Qed.
Lemma f_items : forall a, f_ok a -> f_ok (fill_items a).
Proof.
  intros a A x st X S0. unfold fill_items. pose proof (r_any _ _ get_size_ok st S0) as G.
  destruct (get get_size st) as [[n st']| |]; cbn [result_of fst snd] in *; [|split; [exact X|discriminate]|split; [exact X|discriminate]].
  apply f_then; [|apply f_all; exact A|exact X|apply G]. apply (f_fill _ (fun _ => True)); [apply r_any; exact get_num_ok|]. intros ? ? _ H. exact H.
Qed.
Lemma members_ok : f_ok fill_members.
Proof.
  assert (ST : forall f, (forall v x, x_lex (f v x) = x_lex x) -> f_ok (fill (get get_str) f)).
  { intros f F. apply (f_fill _ (fun _ => True)); [apply r_text|]. intros v x _ X. unfold entries_only. rewrite F. exact X. }
  unfold fill_members. repeat apply f_then; try (apply ST; reflexivity).
  - apply (f_fill _ (fun _ => True)); [apply r_enum|]. intros v x _ X. exact X.
  - apply (f_fill _ (fun _ => True)); [apply r_class|]. intros v x _ X. exact X.
  - apply f_items. apply (f_fill _ _ _ _ r_item). intros kv x K X. unfold entries_only, put_entries. cbn [x_lex]. apply (adds_ok [kv]); [constructor; [exact K|constructor]|exact X].
Qed.
Lemma left_ok : forall t, ok t -> entries_only (archive_left t).
Proof.
  intros t T. unfold archive_left. cbn zeta. assert (Z : entries_only (new_lexicon [])) by constructor.
  pose proof (get_str_ok t T) as A. destruct (get_str t) as [[s r]| |]; cbn [result_of fst snd] in *; [|exact Z|exact Z].
  destruct (negb (teqb s signature)); [exact Z|].
  pose proof (get_num_ok _ (proj1 A)) as B. destruct (get_num r) as [[v r1]| |]; cbn [result_of fst snd] in *; [|exact Z|exact Z].
  destruct (library_version <? v)%Z; [exact Z|].
  pose proof (get_num_ok _ B) as C. destruct (get_num r1) as [[y r2]| |]; cbn [result_of fst snd] in *; [|exact Z|exact Z].
  pose proof (get_num_ok _ C) as D. destruct (get_num r2) as [[z r3]| |]; cbn [result_of fst snd] in *; [|exact Z|exact Z].
  destruct (z =? lexicon_version)%Z; [|exact Z]. apply (members_ok _ (r3, []) Z D).
Qed.
Lemma onto_ok : forall x src, entries_only x -> ok src -> result_of P entries_only (load_onto e x src).
Proof.
  intros x src X S0. unfold load_onto. pose proof (ok_getline P LF (open_stream src) [] S0 (Forall_nil _)) as [A B].
  destruct (getline LF (open_stream src) []) as [is raw]. cbn [fst snd] in A, B. pose proof (bom_ok raw B) as C.
  destruct (lex_strip_bom raw) as [line| |]; cbn [obind result_of] in *; [|exact C|exact I].
  pose proof (skip_ok (List.length src + 3) is line raw 1 A C) as D.
  destruct (skip_header (List.length src + 3) is line raw 1) as [[[[is' hl] acc] cnt]| |]; cbn [obind result_of] in *; [|exact D|exact I].
  destruct D as [D1 D2]. destruct (getline TAB (open_stream hl) []) as [s1 t1]. destruct (getline TAB s1 t1) as [s2 t2]. destruct (getline TAB s2 t2) as [s3 t3].
  destruct (getline TAB s3 (x_locale x)) as [s4 loc].
  destruct (teqb t1 (s2t "LEXICON:") || teqb t1 (s2t "Lexicon:")).
  - pose proof (entries_gen entries_only insert_only (List.length src + 3) is' hl acc (cnt + 1) (put_locale loc (put_lang (as_lang t3) x)) D1 D2 X) as E.
    destruct (read_entries (List.length src + 3) e is' hl acc (cnt + 1) (put_locale loc (put_lang (as_lang t3) x))) as [[d y]| |]; cbn [obind result_of fst snd] in *; [exact E|exact E|exact I].
  - apply ok_app; [asc|]. apply ok_app; [apply ok_dec|]. apply ok_app; [asc|exact D2].
Qed.
Lemma lexicon_ok : forall t, ok t -> result_of P entries_only (get_lexicon e t).
Proof.
  intros t T. unfold get_lexicon. pose proof (archive_ok t T) as A. destruct (load_archive t) as [x|m|]; cbn [result_of] in *; [exact A| |exact I].
  destruct (teqb m recompile); [exact A|]. apply onto_ok; [exact (left_ok t T)|exact T].
Qed.

(** ** Grammars: messages only *)
Hypothesis every : ordinary P.
Lemma ok_every : forall t : text, forallb (fun c => (0 <? c) && (c <? 128)) t = true -> ok t.
Proof.
  intros t E. apply Forall_forall. intros c C. apply (proj1 (forallb_forall _ _) E) in C. apply andb_prop in C. destruct C as [A B].
  apply N.ltb_lt in A. apply N.ltb_lt in B. apply every; assumption.
Qed.
Ltac asc ::= first [apply ok_ascii; vm_compute; reflexivity | apply ok_every; vm_compute; reflexivity].
Definition refs_ok (l : list metarule) : Prop := Forall (Forall (fun r => ok (f_name r))) l.
Definition gst_ok (s : loadst) : Prop :=
  ok (l_sec s) /\ refs_ok (l_mrules s) /\ Forall (fun m => ok (ms_name m) /\ refs_ok (ms_rules m)) (l_metas s) /\ Forall (fun r => ok (rs_name r)) (l_rsecs s).
Lemma flush_ok : forall s, gst_ok s -> gst_ok (flush s).
Proof.
  intros s (A & B & C & D). unfold flush. destruct (l_type s); [| |repeat split; assumption]; unfold gst_ok; cbn [l_sec l_mrules l_metas l_rsecs]; repeat split; try assumption.
  - constructor.
  - apply Forall_app. split; [exact C|]. constructor; [split; assumption|constructor].
  - constructor.
  - apply Forall_app. split; [exact D|]. constructor; [exact A|constructor].
Qed.
Lemma refs_rest : forall u f t, ok t -> Forall (fun r => ok (f_name r)) (meta_refs f u t).
Proof.
  intros u f. induction f as [|f IH]; intros t T; cbn [meta_refs]; [constructor|]. pose proof (ok_drop_while P (fun c => negb (c =? AT)) t T) as D.
  destruct (drop_while (fun c => negb (c =? AT)) t) as [|c t']; [constructor|]. inversion D; subst. pose proof (ok_span P (name_char u) t' H2) as [S1 S2].
  destruct (span (name_char u) t') as [n r]. cbn [fst snd] in S1, S2. destruct n as [|c' n]; [apply IH; exact H2|]. constructor; [exact S1|apply IH; exact S2].
Qed.
Lemma header_ok : forall u line n, ok line -> section_header u line = Some n -> ok n.
Proof.
  intros u line n L E. unfold section_header in E. pose proof (ok_drop_while P (u_space u) line L) as D. destruct (drop_while (u_space u) line) as [|c t]; [discriminate E|].
  destruct (c =? LBRACK); [|discriminate E]. inversion D; subst. pose proof (ok_drop_while P (u_space u) (rev t) (ok_rev P t H2)) as F.
  destruct (drop_while (u_space u) (rev t)) as [|d r]; [discriminate E|]. destruct (d =? RBRACK); [|discriminate E]. destruct r as [|c' r]; [discriminate E|].
  injection E as <-. inversion F; subst. exact (ok_rev P (c' :: r) H4).
Qed.
Lemma rule_parse_ok : forall atof line, ok line -> result_of P (fun _ => True) (rule_parse atof line).
Proof.
  intros atof line L. unfold rule_parse. destruct (rule_loop _ _ _ _ _) as [[n r]|]; [|exact I]. destruct (rule_valid r); [exact I|].
  apply ok_app; [asc|]. apply ok_app; [exact L|asc].
Qed.
Lemma gline_ok : forall u atof s line, gst_ok s -> ok line -> result_of P gst_ok (load_line u atof s line).
Proof.
  intros u atof s line S0 L. unfold load_line. destruct (is_comment u line); [exact S0|]. destruct (section_header u line) as [n|] eqn:H.
  - pose proof (header_ok _ _ _ L H) as N0.
    assert (G : result_of P gst_ok (match index_find (l_index (flush s)) n with
               | Some _ => Throw (s2t "Grammar-Duplicate-Section_Name")
               | None => Ok (mkLoad n (l_type (flush s)) (l_mrules (flush s)) (l_rules (flush s)) (l_metas (flush s)) (l_rsecs (flush s)) (l_index (flush s)))
               end)).
    { destruct (index_find (l_index (flush s)) n); [asc|]. destruct (flush_ok s S0) as (A & B & C & D). repeat split; assumption. }
    cbn zeta. destruct (l_type s); try exact G; destruct (l_sec s); try exact G; asc.
  - destruct S0 as (A & B & C & D). destruct (l_sec s) as [|c0 t0] eqn:LS; [asc|]. destruct (has_char AT line).
    + assert (M : refs_ok (if is_meta u line then l_mrules s ++ [meta_rule_of u line] else l_mrules s)).
      { destruct (is_meta u line); [|exact B]. apply Forall_app. split; [exact B|]. constructor; [apply refs_rest; exact L|constructor]. }
      destruct (l_type s); try asc; repeat split; assumption.
    + pose proof (rule_parse_ok atof line L) as R. destruct (l_type s); try asc;
        (destruct (rule_parse atof line); cbn [obind result_of] in *; [repeat split; assumption|exact R|exact I]).
Qed.
Lemma gbom_ok : forall line, ok line -> result_of P (made_of P) (strip_bom line).
Proof.
  intros line L. unfold strip_bom. destruct line as [|c t]; [constructor|]. destruct (c =? BOM); [|exact L]. destruct t as [|d t]; [asc|].
  inversion L; subst. inversion H2; subst. destruct (Nat.eqb (utf8_len d) 1); [assumption|asc].
Qed.
Lemma gloop_ok : forall u atof f first is line s, ok (s_rest is) -> ok line -> gst_ok s -> result_of P gst_ok (load_loop f u atof first is line s).
Proof.
  intros u atof f. induction f as [|f IH]; intros first is line s A L S0; [exact I|]. cbn [load_loop]. destruct (s_fail is); [exact S0|].
  pose proof (ok_getline P LF is line A L) as [B C]. destruct (getline LF is line) as [is' raw]. cbn [fst snd] in B, C.
  assert (D : result_of P (made_of P) (if first then strip_bom raw else Ok raw)) by (destruct first; [apply gbom_ok; exact C|exact C]).
  destruct (if first then strip_bom raw else Ok raw) as [line'| |]; cbn [obind result_of] in *; [|exact D|exact I].
  pose proof (gline_ok u atof s line' S0 D) as E. destruct (load_line u atof s line') as [s'| |]; cbn [obind result_of] in *; [|exact E|exact I].
  apply IH; assumption.
Qed.
Lemma link_all_ok : forall (A : Type) (f : A -> outcome (A * text)) l, (forall x, In x l -> result_of P (fun r => ok (snd r)) (f x)) ->
  result_of P (fun r => ok (snd r)) (link_all f l).
Proof.
  intros A f l. induction l as [|x l IH]; intros F; cbn [link_all]; [constructor|]. pose proof (F x (or_introl eq_refl)) as X.
  destruct (f x) as [[y t]| |]; cbn [obind result_of snd] in *; [|exact X|exact I].
  assert (L : result_of P (fun r => ok (snd r)) (link_all f l)) by (apply IH; intros z Z; apply F; right; exact Z).
  destruct (link_all f l) as [[ys ts]| |]; cbn [obind result_of snd] in *; [|exact L|exact I]. apply ok_app; assumption.
Qed.
Lemma link_ref_ok : forall metas rules ix self selfname r, ok selfname -> ok (f_name r) -> result_of P (fun q => ok (snd q)) (link_ref metas rules ix self selfname r).
Proof.
  intros metas rules ix self selfname r S0 R. unfold link_ref. cbn zeta. destruct (teqb (f_name r) selfname); [constructor|].
  destruct (index_find ix (f_name r)) as [i|].
  - destruct (match nth_error metas i with Some ms => teqb (ms_name ms) (f_name r) | None => false end); [constructor|].
    destruct (match nth_error rules i with Some rs => teqb (rs_name rs) (f_name r) | None => false end); [constructor|asc].
  - cbn [result_of snd]. apply ok_app; [asc|]. apply ok_app; [exact R|]. apply ok_app; [asc|]. apply ok_app; [exact S0|]. apply ok_app; asc.
Qed.
Lemma link_metas_ok : forall metas rules ix l self, Forall (fun m => ok (ms_name m) /\ refs_ok (ms_rules m)) l ->
  result_of P (fun r => map ms_name (fst r) = map ms_name l /\ ok (snd r)) (link_metas metas rules ix self l).
Proof.
  intros metas rules ix l self F. revert self. induction F as [|m l [A B] F IH]; intros self; cbn [link_metas]; [split; [reflexivity|constructor]|].
  assert (L : result_of P (fun r => ms_name (fst r) = ms_name m /\ ok (snd r)) (link_section metas rules ix self m)).
  { unfold link_section. assert (Q : result_of P (fun r => ok (snd r)) (link_all (link_rule metas rules ix self (ms_name m)) (ms_rules m))).
    { apply link_all_ok. intros r R. unfold link_rule. apply link_all_ok. intros q Q. apply link_ref_ok; [exact A|].
      exact (proj1 (Forall_forall _ _) (proj1 (Forall_forall _ _) B r R) q Q). }
    destruct (link_all (link_rule metas rules ix self (ms_name m)) (ms_rules m)) as [[rs t]| |]; cbn [obind result_of fst snd] in *; [|exact Q|exact I].
    split; [reflexivity|exact Q]. }
  destruct (link_section metas rules ix self m) as [[m' t]| |]; cbn [obind result_of fst snd] in *; [|exact L|exact I].
  specialize (IH (S self)). destruct (link_metas metas rules ix (S self) l) as [[ms ts]| |]; cbn [obind result_of fst snd] in *; [|exact IH|exact I].
  split; [cbn [map]; rewrite (proj1 L), (proj1 IH); reflexivity|]. apply ok_app; [exact (proj2 L)|exact (proj2 IH)].
Qed.
Lemma unref_ok : forall refs n, ok n -> ok (unref_issue refs n).
Proof.
  intros refs n N0. unfold unref_issue. destruct (negb (text_mem n refs) && negb (teqb n ADDRESS)); [|constructor].
  apply ok_app; [asc|]. apply ok_app; [exact N0|]. apply ok_app; asc.
Qed.
Lemma invalid_ok : forall n rs k, ok n -> ok (invalid_issues n k rs).
Proof.
  intros n rs. induction rs as [|r rs IH]; intros k N0; cbn [invalid_issues]; [constructor|]. apply ok_app; [|apply IH; exact N0].
  destruct (rule_valid r); [constructor|]. apply ok_app; [asc|]. apply ok_app; [exact N0|]. apply ok_app; [asc|]. apply ok_app; [apply ok_dec|]. apply ok_app; asc.
Qed.
Lemma rule_issues_ok : forall refs l checked, Forall (fun r => ok (rs_name r)) l -> ok (fst (rule_issues refs checked l)).
Proof.
  intros refs l checked F. revert checked. induction F as [|r l R F IH]; intros checked; cbn [rule_issues]; [constructor|]. cbn zeta.
  specialize (IH (rs_name r :: checked)). destruct (rule_issues refs (rs_name r :: checked) l) as [a b]. cbn [fst] in *.
  apply ok_app; [apply unref_ok; exact R|]. apply ok_app; [|exact IH]. destruct (text_mem (rs_name r) checked); [constructor|apply invalid_ok; exact R].
Qed.
Lemma update_ok : forall g, Forall (fun m => ok (ms_name m) /\ refs_ok (ms_rules m)) (g_metas g) -> Forall (fun r => ok (rs_name r)) (g_rules g) ->
  result_of P (fun r => ok (snd r)) (update_pointers g).
Proof.
  intros g A B. unfold update_pointers. pose proof (link_metas_ok (g_metas g) (g_rules g) (g_index g) _ 0 A) as L.
  destruct (link_metas (g_metas g) (g_rules g) (g_index g) 0 (g_metas g)) as [[metas missing]| |]; cbn [obind result_of fst snd] in *; [|exact L|exact I].
  pose proof (rule_issues_ok (all_refs (g_metas g)) (g_rules g) [] B) as R. destruct (rule_issues (all_refs (g_metas g)) [] (g_rules g)) as [ri rf].
  cbn [result_of snd fst] in *. apply ok_app; [exact (proj2 L)|]. apply ok_app; [destruct (index_find (g_index g) ADDRESS); [constructor|asc]|].
  apply ok_app; [|exact R]. apply ok_concat. apply Forall_forall. intros t T. apply in_map_iff in T. destruct T as (m & <- & M). apply unref_ok.
  assert (N0 : In (ms_name m) (map ms_name (g_metas g))) by (rewrite <- (proj1 L); apply in_map; exact M).
  apply in_map_iff in N0. destruct N0 as (m' & <- & M'). exact (proj1 (proj1 (Forall_forall _ _) A m' M')).
Qed.
Lemma grammar_ok : forall atof t, ok t -> result_of P (fun _ => True) (get_grammar e atof t).
Proof.
  intros atof t T. unfold get_grammar, load_grammar, load_sections.
  assert (G0 : gst_ok load0) by (repeat split; constructor).
  pose proof (gloop_ok (e_uni e) atof (List.length t + 3) true (open_stream t) [] load0 T (Forall_nil _) G0) as A.
  destruct (load_loop (List.length t + 3) (e_uni e) atof true (open_stream t) [] load0) as [s| |]; cbn [obind result_of] in *; [|exact A|exact I].
  assert (B : exists s', (match l_sec s with [] => Ok s | _ => Ok (flush s) end) = Ok s' /\ gst_ok s')
    by (destruct (l_sec s); eexists; (split; [reflexivity|]); [exact A|apply flush_ok; exact A]).
  destruct B as (s' & -> & C & D & E & F). cbn [obind].
  pose proof (update_ok (mkGrammar (l_metas s') (l_rsecs s') (l_index s')) E F) as U.
  destruct (update_pointers (mkGrammar (l_metas s') (l_rsecs s') (l_index s'))) as [[[g st] iss]| |]; cbn [obind result_of snd] in *; [|exact U|exact I].
  destruct st; cbn [obind result_of]; [exact U|exact I|exact I].
Qed.

(** ** The functions *)
Lemma pdot : P 46. Proof. apply ord; [discriminate|reflexivity]. Qed.
Lemma pblank : P 32. Proof. apply ord; [discriminate|reflexivity]. Qed.
Lemma groups_throw : forall u pat t m, two_groups u pat t = Throw m -> ok m.
Proof. intros u pat t m E. unfold two_groups in E. destruct (parse_re pat); [discriminate E|]. injection E as <-. asc. Qed.
Lemma tokens_throw : forall x str m, all_tokens e x str = Throw m -> ok m.
Proof.
  intros x str m E. unfold all_tokens, get_pieces in E. destruct (parse_re (token_pattern (fst (lex_regex x)))) as [r|]; [|injection E as <-; asc].
  cbn zeta in E. destruct (scan _ (e_uni e) r _) as [ps|]; [|discriminate E]. cbn [obind] in E. revert m E.
  induction ps as [|p ps IH]; intros m E; cbn [piece_tokens] in E; [discriminate E|].
  destruct (word_tokens (e_uni e) x (pc_tok p)) as [ks|m'|] eqn:W; cbn [obind] in E; [| |discriminate E].
  - destruct (piece_tokens (e_uni e) x ps) as [l|m'|]; cbn [obind] in E; [discriminate E|injection E as ->; apply IH; reflexivity|discriminate E].
  - injection E as ->. unfold word_tokens in W. destruct (pc_tok p) as [|c w]; [discriminate W|]. cbn zeta in W.
    destruct (t_inlex (classify (e_uni e) x (token_of_text (c :: w)) I_WORD)); [discriminate W|]. unfold split_token, split_parts in W. cbn zeta in W.
    destruct (is_in_class (classify (e_uni e) x (token_of_text (c :: w)) I_WORD) I_MIXED); [discriminate W|].
    destruct (two_groups (e_uni e) (s2t "(" ++ fst (lex_pre x) ++ s2t ")(.+)") _) as [[a b]|m'|] eqn:A; cbn [obind] in W; [| |discriminate W].
    + destruct (two_groups (e_uni e) (s2t "(.+)(" ++ fst (lex_suf x) ++ s2t ")") _) as [[c' d]|m'|] eqn:B; cbn [obind] in W; [| |discriminate W].
      * exfalso. destruct a as [|a0 a]; [destruct d; discriminate W|].
        destruct (Nat.eqb (blen d) 0 || Nat.eqb (blen b) (blen d)); [discriminate W|].
        destruct (Nat.ltb 0 (blen d) && Nat.ltb _ _); [discriminate W|]. destruct (Nat.ltb 0 (blen d) && Nat.ltb _ _); discriminate W.
      * injection W as ->. exact (groups_throw _ _ _ _ B).
    + injection W as ->. exact (groups_throw _ _ _ _ A).
Qed.
Lemma phrases_throw : forall x locale filt address m, make_phrases e x locale filt address = Throw m -> ok m.
Proof.
  intros x locale filt address m E. unfold make_phrases, get_tokens in E. cbn [z_lex z_filter set_filter] in E.
  destruct (all_tokens e x (prepared e locale address)) as [ks|m'|] eqn:A; cbn [obind] in E; [|injection E as ->; exact (tokens_throw _ _ _ A)|discriminate E].
  exfalso. unfold get_alt_tokens in E. destruct (Tokenizer_model.phrases _); [discriminate E|]. destruct (Nat.ltb 31 _); discriminate E.
Qed.
Lemma search_throw : forall g ph m, search g ph = Throw m -> ok m.
Proof.
  intros g ph m E. unfold search, search_node in E. cbn zeta in E. destruct (section_ptr g ADDRESS); [|injection E as <-; asc].
  destruct (sconcat _ _); discriminate E.
Qed.
Lemma reclass_throw : forall ts p m, reclass_tokens ts p = Throw m -> False.
Proof.
  assert (R : forall ins outs ts m, reclass_rule ins outs ts = Throw m -> False).
  { induction ins as [|i ins IH]; intros outs ts m E; cbn [reclass_rule] in E; [discriminate E|]. destruct ts as [|k ts]; [discriminate E|].
    destruct (is_in_class k i); [|discriminate E]. destruct outs as [|o outs]; [discriminate E|].
    destruct (reclass_rule ins outs ts) as [[[d r] b]|m'|] eqn:Q; try discriminate E. exact (IH _ _ _ Q). }
  intros ts p m E. unfold reclass_tokens in E. cbn zeta in E. destruct (Nat.eqb _ _); [|discriminate E]. revert ts m E.
  induction (p_rules p) as [|r rs IH]; intros ts m E; cbn [reclass_rules] in E; [discriminate E|].
  destruct (reclass_rule (r_in r) (r_out r) ts) as [[[d q] [|]]|m'|] eqn:Q; try discriminate E; [|exact (R _ _ _ _ Q)].
  destruct (reclass_rules rs q) as [[l b]|m'|] eqn:W; try discriminate E. exact (IH _ _ W).
Qed.
Lemma best_ok : forall g phs, result_of P (fun b => ok (b_matched b)) (search_best g phs).
Proof.
  intros g phs. unfold search_best. assert (G : forall cur, ok (b_matched cur) -> result_of P (fun b => ok (b_matched b)) (search_best_loop g cur phs)).
  { induction phs as [|ph phs IH]; intros cur C; cbn [search_best_loop]; [exact C|].
    assert (B : result_of P (fun b => ok (b_matched b)) (search_best1 g [] ph)).
    { unfold search_best1. destruct (search g ph) as [res|m|] eqn:S0; cbn [obind result_of]; [|exact (search_throw _ _ _ S0)|exact I].
      destruct res as [|p0 res]; [constructor|]. destruct (select_best p0 (p0 :: res)) as [[q sc] nr].
      destruct (reclass_tokens ph q) as [[ts c]|m|] eqn:R; cbn [obind result_of]; [|destruct (reclass_throw _ _ _ R)|exact I].
      destruct c; [apply ok_pattern|constructor]. }
    destruct (search_best1 g [] ph) as [b|m|]; cbn [obind result_of] in *; [|exact B|exact I]. apply IH. destruct (f_lt (b_score cur) (b_score b)); assumption. }
  apply G. constructor.
Qed.
Lemma collect_throw : forall x ks v m, collect x v ks = Throw m -> False.
Proof.
  intros x ks. induction ks as [|k ks IH]; intros v m E; cbn [collect] in E; [discriminate E|].
  destruct (standardize_word x k) as [k'|m'|] eqn:S0; cbn [obind] in E; [exact (IH _ _ E)| |discriminate E].
  unfold standardize_word in S0. destruct (lex_find x (t_text k)) as [|l ls]; cbn [obind] in S0; [discriminate S0|]. destruct (t_in k); [discriminate S0|].
  destruct (find _ _); discriminate S0.
Qed.
Lemma std_ok : forall atof address gr lx locale filt, ok address -> ok gr -> ok lx ->
  result_of P (address_of P) (std_standardize e atof address gr lx locale filt).
Proof.
  intros atof address gr lx locale filt A G L. unfold std_standardize. pose proof (grammar_ok atof gr G) as GO.
  destruct (get_grammar e atof gr) as [g|m|]; cbn [obind result_of] in *; [|exact GO|exact I].
  pose proof (lexicon_ok lx L) as X. destruct (get_lexicon e lx) as [x|m|]; cbn [obind result_of] in *; [|exact X|exact I].
  pose proof (ok_fields P pdot pblank e g x locale filt address) as F.
  assert (T : ok (search_text e x (prepared e locale address))) by (unfold search_text, prepared; apply (proj2 kp), (proj1 kp), (proj2 kp), (proj1 kp); exact A).
  unfold standardize_addr in *. destruct (make_phrases e x locale filt address) as [phs|m|] eqn:M; cbn [obind result_of] in *; [|exact (phrases_throw _ _ _ _ _ M)|exact I].
  pose proof (best_ok g phs) as B. destruct (search_best g phs) as [b|m|]; cbn [obind result_of] in *; [|exact B|exact I].
  destruct (f_le f_zero (b_score b)); [|exact I].
  destruct (collect x (repeat [] 16) (b_tokens b)) as [v|m|] eqn:C; cbn [obind result_of] in *; [|destruct (collect_throw _ _ _ _ C)|exact I].
  split; [|exact B]. exact (F _ T (lex_stds _ X) eq_refl).
Qed.
Lemma rows_classes : forall ps i j r, In r (all_rows i j ps) -> ok (pr_class r) /\ ok (pr_att r).
Proof.
  assert (Q : forall ks i j r, In r (fst (phrase_rows i j ks)) -> ok (pr_class r) /\ ok (pr_att r)).
  { induction ks as [|k ks IH]; intros i j r H; [destruct H|]. cbn [phrase_rows] in H. specialize (IH i (j + 1) r). destruct (phrase_rows i (j + 1) ks) as [l q].
    cbn [fst] in *. destruct H as [<-|H]; [split; [apply ok_iset|apply ok_aset]|exact (IH H)]. }
  induction ps as [|p ps IH]; intros i j r H; [destruct H|]. cbn [all_rows] in H. specialize (Q p i j r). destruct (phrase_rows i j p) as [l j'].
  apply in_app_or in H. destruct H as [H|H]; [exact (Q H)|exact (IH _ _ _ H)].
Qed.
Lemma parse_ok : forall address lx locale filt, ok address -> ok lx -> result_of P (rows_of P) (std_parse_address e address lx locale filt).
Proof.
  intros address lx locale filt A L. unfold std_parse_address. pose proof (lexicon_ok lx L) as X.
  destruct (get_lexicon e lx) as [x|m|]; cbn [obind result_of] in *; [|exact X|exact I]. unfold parse_addr.
  assert (T : ok (search_text e x (prepared e locale address))) by (unfold search_text, prepared; apply (proj2 kp), (proj1 kp), (proj2 kp), (proj1 kp); exact A).
  destruct (make_phrases e x locale filt address) as [phs|m|] eqn:M; cbn [obind result_of]; [|exact (phrases_throw _ _ _ _ _ M)|exact I].
  pose proof (ok_rows P phs 0 0 (ok_phrases P pdot pblank _ _ _ _ _ _ T M)) as R. intros r I0. split; [exact (proj1 (Forall_forall _ _) R r I0)|].
  exact (rows_classes _ _ _ _ I0).
Qed.
Lemma omap_ok : forall (A B : Type) (f : A -> outcome B) (Q : B -> Prop) l, (forall x, result_of P Q (f x)) -> result_of P (Forall Q) (omap f l).
Proof.
  intros A B f Q l F. induction l as [|x l IH]; cbn [omap]; [constructor|]. specialize (F x). destruct (f x) as [y|m|]; cbn [obind result_of] in *; [|exact F|exact I].
  destruct (omap f l) as [ys|m|]; cbn [obind result_of] in *; [|exact IH|exact I]. constructor; assumption.
Qed.
Lemma match_ok : forall atof sort address gr lx locale filt, (forall l r, In r (sort l) -> In r l) -> ok address -> ok gr -> ok lx ->
  result_of P (matches_of P) (std_match_address e atof sort address gr lx locale filt).
Proof.
  intros atof sort address gr lx locale filt S0 A G L. unfold std_match_address. pose proof (grammar_ok atof gr G) as GO.
  destruct (get_grammar e atof gr) as [g|m|]; cbn [obind result_of] in *; [|exact GO|exact I].
  pose proof (lexicon_ok lx L) as X. destruct (get_lexicon e lx) as [x|m|]; cbn [obind result_of] in *; [|exact X|exact I]. unfold match_addr.
  destruct (make_phrases e x locale filt address) as [phs|m|] eqn:M; cbn [obind result_of]; [|exact (phrases_throw _ _ _ _ _ M)|exact I].
  assert (R : result_of P (fun rows => Forall (fun r => ok (m_matched r)) rows) (search_all g phs)).
  { unfold search_all. assert (Q : result_of P (Forall (Forall (fun r => ok (m_matched r)))) (omap (all_phrase g) phs)).
    { apply omap_ok. intros ph. unfold all_phrase. destruct (search g ph) as [res|m|] eqn:SE; cbn [obind result_of]; [|exact (search_throw _ _ _ SE)|exact I].
      apply omap_ok. intros p. unfold all_one. destruct (reclass_tokens ph p) as [[ts c]|m|] eqn:RE; cbn [obind result_of]; [|destruct (reclass_throw _ _ _ RE)|exact I].
      apply ok_pattern. }
    destruct (omap (all_phrase g) phs) as [ls|m|]; cbn [obind result_of] in *; [|exact Q|exact I].
    assert (C : Forall (fun r => ok (m_matched r)) (concat ls)) by (clear -Q; induction Q; cbn [concat]; [constructor|apply Forall_app; split; assumption]).
    destruct (concat ls) as [|r rows]; [constructor; [asc|constructor]|exact C]. }
  destruct (search_all g phs) as [rows|m|]; cbn [obind result_of] in *; [|exact R|exact I]. intros r I0. exact (proj1 (Forall_forall _ _) R r (S0 _ _ I0)).
Qed.
End All.

(** ** C strings *)
Lemma c_str_made : forall t, made_of nonzero (c_str t).
Proof.
  unfold made_of. induction t as [|c t IH]; cbn [c_str]; [constructor|]. destruct (N.eqb_spec c 0) as [E|E]; [constructor|]. constructor; [exact E|exact IH].
Qed.
Lemma c_str_id : forall t, made_of nonzero t -> c_str t = t.
Proof.
  intros t. induction 1 as [|c t C T IH]; [reflexivity|]. cbn [c_str]. destruct (N.eqb_spec c 0) as [E|E]; [destruct (C E)|]. rewrite IH. reflexivity.
Qed.
Lemma nonzero_ord : ordinary nonzero.
Proof. intros c C _ E. subst c. exact (N.lt_irrefl _ C). Qed.
Lemma out_same : forall (A : Type) (f : A -> A) (Q : A -> Prop) r, (forall a, Q a -> f a = a) -> result_of nonzero Q r -> out_c f r = r.
Proof. intros A f Q r F R. destruct r as [a|m|]; cbn [out_c result_of] in *; [rewrite (F a R)|rewrite (c_str_id m R)|]; reflexivity. Qed.
Lemma map_id_in : forall (A : Type) (f : A -> A) l, (forall a, In a l -> f a = a) -> map f l = l.
Proof. intros A f l F. rewrite <- (map_id l) at 2. apply map_ext_in. exact F. Qed.
Lemma standardize_same : forall e atof address gr lx locale filt, keeps nonzero e ->
  standardize_c e atof address gr lx locale filt = std_standardize e atof (c_str address) (c_str gr) (c_str lx) (c_str locale) (c_str filt).
Proof.
  intros e atof address gr lx locale filt K. unfold standardize_c. apply (out_same _ _ (address_of nonzero)).
  - intros [a|]; [|reflexivity]. intros [F P0]. cbn [option_map]. f_equal. destruct a as [fs p]. unfold stdaddr_c. cbn [sa_fields sa_pattern] in *. rewrite (c_str_id p P0). f_equal.
    apply map_id_in. intros [t|] T; [|reflexivity]. cbn [option_map]. rewrite (c_str_id t (F t T)). reflexivity.
  - apply std_ok; [apply ordinary_printable; exact nonzero_ord|exact K|exact nonzero_ord|apply c_str_made|apply c_str_made|apply c_str_made].
Qed.
Lemma parse_same : forall e address lx locale filt, keeps nonzero e -> parse_c e address lx locale filt = std_parse_address e (c_str address) (c_str lx) (c_str locale) (c_str filt).
Proof.
  intros e address lx locale filt K. unfold parse_c. apply (out_same _ _ (rows_of nonzero)).
  - intros l R. apply map_id_in. intros r I0. destruct (R r I0) as (A & B & C). destruct r as [p s w c a]. unfold prow_c. cbn [pr_pat pr_seq pr_word pr_class pr_att] in *.
    rewrite (c_str_id w A), (c_str_id c B), (c_str_id a C). reflexivity.
  - apply parse_ok; [apply ordinary_printable; exact nonzero_ord|exact K|apply c_str_made|apply c_str_made].
Qed.
Lemma match_same : forall e atof sort address gr lx locale filt, keeps nonzero e -> (forall l r, In r (sort l) -> In r l) ->
  match_c e atof sort address gr lx locale filt = std_match_address e atof sort (c_str address) (c_str gr) (c_str lx) (c_str locale) (c_str filt).
Proof.
  intros e atof sort address gr lx locale filt K S0. unfold match_c. apply (out_same _ _ (matches_of nonzero)).
  - intros l R. apply map_id_in. intros r I0. pose proof (R r I0) as A. destruct r as [w s n]. unfold mresult_c. cbn [m_matched m_score m_nrules] in *.
    rewrite (c_str_id w A). reflexivity.
  - apply match_ok; [apply ordinary_printable; exact nonzero_ord|exact K|exact nonzero_ord|exact S0|apply c_str_made|apply c_str_made|apply c_str_made].
Qed.
Lemma compile_same : forall e lx, keeps nonzero e -> compile_c e lx = serialize_lexicon e (c_str lx).
Proof.
  intros e lx K. unfold compile_c. apply (out_same _ _ (made_of nonzero)); [exact c_str_id|]. apply compile_ok; [apply ordinary_printable; exact nonzero_ord|exact K|apply c_str_made].
Qed.
Lemma four_same : forall e atof sort address gr lx locale filt, keeps nonzero e -> (forall l r, In r (sort l) -> In r l) ->
  standardize_c e atof address gr lx locale filt = std_standardize e atof (c_str address) (c_str gr) (c_str lx) (c_str locale) (c_str filt) /\
  parse_c e address lx locale filt = std_parse_address e (c_str address) (c_str lx) (c_str locale) (c_str filt) /\
  match_c e atof sort address gr lx locale filt = std_match_address e atof sort (c_str address) (c_str gr) (c_str lx) (c_str locale) (c_str filt) /\
  compile_c e lx = serialize_lexicon e (c_str lx).
Proof.
  intros e atof sort address gr lx locale filt K S0. split; [apply standardize_same; exact K|]. split; [apply parse_same; exact K|].
  split; [apply match_same; assumption|apply compile_same; exact K].
Qed.
Lemma c_str_exact : forall t, (~ In 0 t <-> c_str t = t) /\ ~ In 0 (c_str t) /\ (In 0 t -> exists r, t = c_str t ++ 0 :: r).
Proof.
  intros t. assert (N0 : ~ In 0 (c_str t)) by (intros H; exact (proj1 (Forall_forall _ _) (c_str_made t) 0 H eq_refl)).
  split; [split|split; [exact N0|]].
  - intros H. apply c_str_id. apply Forall_forall. intros c C E. subst c. exact (H C).
  - intros <-. exact N0.
  - clear N0. induction t as [|c t IH]; intros H; [destruct H|]. cbn [c_str]. destruct (N.eqb_spec c 0) as [->|E]; [exists t; reflexivity|].
    destruct H as [H|H]; [destruct (E H)|]. destruct (IH H) as [r R]. exists r. cbn [app]. rewrite <- R. reflexivity.
Qed.
(** The bytes of a character other than NUL are not 0. *)
Lemma high_byte : forall x, N.testbit x 7 = true -> x <> 0.
Proof. intros x H E. subst x. discriminate H. Qed.
Lemma cont_high : forall x, cont_byte x <> 0.
Proof.
  intros x. apply high_byte. unfold cont_byte, byte_of. rewrite !N.land_spec, N.lor_spec. cbn [N.testbit]. change (N.testbit 128 7) with true. rewrite orb_true_r. reflexivity.
Qed.
Lemma lead_high : forall a y, N.testbit a 7 = true -> byte_of (N.lor a y) <> 0.
Proof. intros a y A. apply high_byte. unfold byte_of. rewrite N.land_spec, N.lor_spec, A. reflexivity. Qed.
Lemma same_ok : forall (A : Type) (a b : A), Ok a = Ok b -> a = b.
Proof. intros A a b E. injection E as E. exact E. Qed.
Lemma code_bytes : forall c l, code_point_to_utf8 c = Ok l -> c <> 0 -> made_of nonzero l.
Proof.
  intros c l E C. unfold code_point_to_utf8 in E. destruct (0x110000 <=? c); [discriminate E|]. destruct (N.ltb_spec c 0x80) as [L|L].
  - injection E as <-. constructor; [|constructor]. unfold nonzero, byte_of. change 255 with (N.ones 8). rewrite N.land_ones. rewrite N.mod_small; [exact C|].
    eapply N.lt_trans; [exact L|reflexivity].
  - destruct (c <? 0x800); [|destruct (c <? 0x10000)]; apply same_ok in E; rewrite <- E;
      (constructor; [apply lead_high; reflexivity|]); repeat (constructor; [apply cont_high|]); constructor.
Qed.
Lemma c_str_app : forall a b, made_of nonzero a -> c_str (a ++ b) = a ++ c_str b.
Proof. intros a b. induction 1 as [|c a C A IH]; [reflexivity|]. cbn [app c_str]. destruct (N.eqb_spec c 0) as [E|E]; [destruct (C E)|]. rewrite IH. reflexivity. Qed.
Lemma cut_bytes : forall t b, encode t = Ok b -> encode (c_str t) = Ok (c_str b).
Proof.
  induction t as [|c t IH]; intros b E; cbn [encode] in E; [injection E as <-; reflexivity|].
  destruct (code_point_to_utf8 c) as [a| |] eqn:A; cbn [obind] in E; try discriminate E.
  destruct (encode t) as [d| |] eqn:D; cbn [obind] in E; try discriminate E. injection E as <-. cbn [c_str]. destruct (N.eqb_spec c 0) as [->|C].
  - vm_compute in A. injection A as <-. reflexivity.
  - rewrite (c_str_app _ _ (code_bytes _ _ A C)). cbn [encode]. rewrite A. cbn [obind]. rewrite (IH d eq_refl). reflexivity.
Qed.
Lemma sources : forall e g x locale filt address r, standardize_addr e g x locale filt address = Ok (Some r) ->
  forall t c, In (Some t) (sa_fields r) -> In c t -> source e x locale address c.
Proof.
  intros e g x locale filt address r E t c I0 C.
  assert (F : Forall (source e x locale address) t).
  { apply (ok_fields (source e x locale address)) with (1 := or_intror (or_intror (or_intror eq_refl))) (2 := or_intror (or_intror (or_introl eq_refl))) (5 := E); [| |exact I0].
    - apply Forall_forall. intros d D. left. exact D.
    - intros w les le A B. apply Forall_forall. intros d D. right. left. exists w, les, le. repeat split; assumption. }
  exact (proj1 (Forall_forall _ _) F c C).
Qed.
