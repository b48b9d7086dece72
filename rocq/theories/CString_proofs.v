From Coq Require Import String List NArith ZArith Bool Lia.
From Verif Require Import Base_model Class_model Uni_model Float_model Token_model Rule_model Search_model Grammar_model Regex_model Trie_model
  Utf8_model Md5_model Lexicon_model Tokenizer_model Archive_model Wrapper_model CString_model CString_spec
  Trie_proofs TrieRegex_proofs Archive_proofs.
Import ListNotations.
Local Open Scope N_scope.

Section Made.
Variable P : N -> Prop.
Notation "'ok' t" := (Forall P t) (at level 10).

(** ** Parts of a list *)
Lemma ok_app : forall a b : text, ok a -> ok b -> ok (a ++ b).
Proof. intros a b A B. apply Forall_app. split; assumption. Qed.
Lemma ok_sub : forall a b : text, incl a b -> ok b -> ok a.
Proof. intros a b I B. apply Forall_forall. intros c C. exact (proj1 (Forall_forall _ _) B c (I c C)). Qed.
Lemma ok_concat : forall l : list text, Forall (Forall P) l -> ok (concat l).
Proof. induction 1; cbn [concat]; [constructor|apply ok_app; assumption]. Qed.
Lemma ok_join : forall sep l, ok sep -> Forall (Forall P) l -> ok (join sep l).
Proof.
  intros sep l S0. induction 1 as [|t l T L IH]; [constructor|]. cbn [join]. destruct l; [exact T|].
  apply ok_app; [exact T|]. apply ok_app; assumption.
Qed.
Lemma ok_firstn : forall n (t : text), ok t -> ok (firstn n t).
Proof. intros n t T. eapply ok_sub; [|exact T]. intros c C. rewrite <- (firstn_skipn n t). apply in_or_app. left. exact C. Qed.
Lemma ok_skipn : forall n (t : text), ok t -> ok (skipn n t).
Proof. intros n t T. eapply ok_sub; [|exact T]. intros c C. rewrite <- (firstn_skipn n t). apply in_or_app. right. exact C. Qed.
Lemma ok_rev : forall t : text, ok t -> ok (rev t).
Proof. intros t T. eapply ok_sub; [|exact T]. intros c C. apply in_rev. exact C. Qed.
Lemma ok_removelast : forall t : text, ok t -> ok (removelast t).
Proof.
  intros t T. destruct t as [|c t]; [constructor|]. assert (E : c :: t <> []) by discriminate.
  rewrite (app_removelast_last 0 E) in T. apply Forall_app in T. exact (proj1 T).
Qed.
Lemma ok_span_to : forall d t, ok t -> ok (fst (span_to d t)) /\ match snd (span_to d t) with Some r => ok r | None => True end.
Proof.
  intros d t. induction 1 as [|c t C T IH]; [split; [constructor|exact I]|]. cbn [span_to]. destruct (c =? d).
  - split; [constructor|exact T].
  - destruct (span_to d t) as [a r]. cbn [fst snd] in *. split; [constructor; [exact C|exact (proj1 IH)]|exact (proj2 IH)].
Qed.
Lemma ok_getline : forall d s old, ok (s_rest s) -> ok old -> ok (s_rest (fst (getline d s old))) /\ ok (snd (getline d s old)).
Proof.
  intros d s old S0 O. unfold getline. destruct (s_eof s || s_fail s); [split; assumption|].
  pose proof (ok_span_to d (s_rest s) S0) as [A B]. destruct (span_to d (s_rest s)) as [a [r|]]; cbn [fst snd s_rest] in *; split; auto.
Qed.
Lemma ok_drop_while : forall p t, ok t -> ok (drop_while p t).
Proof. intros p t T. induction T as [|c t C T IH]; [constructor|]. cbn [drop_while]. destruct (p c); [exact IH|constructor; assumption]. Qed.
Lemma ok_drop_ws : forall t, ok t -> ok (drop_ws t).
Proof. intros t T. induction T as [|c t C T IH]; [constructor|]. cbn [drop_ws]. destruct (c_isspace c); [exact IH|constructor; assumption]. Qed.
Lemma ok_drop_space : forall t, ok t -> ok (drop_space t).
Proof. intros t T. induction T as [|c t C T IH]; [constructor|]. cbn [drop_space]. destruct (c_isspace c); [exact IH|constructor; assumption]. Qed.
Lemma ok_span : forall p t, ok t -> ok (fst (span p t)) /\ ok (snd (span p t)).
Proof.
  intros p t T. induction T as [|c t C T IH]; [split; constructor|]. cbn [span]. destruct (p c).
  - destruct (span p t) as [a r]. cbn [fst snd] in *. split; [constructor; [exact C|exact (proj1 IH)]|exact (proj2 IH)].
  - split; [constructor|constructor; assumption].
Qed.
Lemma ok_squeeze : forall t, ok t -> ok (squeeze t).
Proof.
  intros t T. induction T as [|c t C T IH]; [constructor|]. cbn [squeeze]. destruct t as [|d t]; [repeat constructor; exact C|].
  destruct ((c =? SP) && (d =? SP)); [exact IH|constructor; assumption].
Qed.

(** ** The matcher *)
Definition caps_ok (s : mst) : Prop := ok (m_rest s) /\ Forall (fun kt => ok (snd kt)) (m_caps s).
Lemma caps_star : forall f, (forall s s', caps_ok s -> In s' (f s) -> caps_ok s') -> forall n s s', caps_ok s -> In s' (star_of f n s) -> caps_ok s'.
Proof.
  intros f F n. induction n as [|n IH]; intros s s' C I; cbn [star_of] in I.
  - destruct I as [<-|[]]. exact C.
  - apply in_app_or in I. destruct I as [I|[<-|[]]]; [|exact C]. apply in_flat_map in I. destruct I as (m & M & I).
    destruct (Nat.ltb (List.length (m_rest m)) (List.length (m_rest s))); [|destruct I]. eapply IH; [|exact I]. eapply F; eassumption.
Qed.
Lemma caps_mt : forall u ic r s s', caps_ok s -> In s' (mt u ic r s) -> caps_ok s'.
Proof.
  intros u ic r. induction r; intros s s' C I; cbn [mt] in I.
  all: try (unfold guard in I; match type of I with context [if ?b then _ else _] => destruct b end; [destruct I as [<-|[]]; exact C|destruct I]).
  all: try (unfold one_char in I; destruct (m_rest s) as [|c t] eqn:E; [destruct I|]; cbn beta in I;
            match type of I with context [if ?b then _ else _] => destruct b end; [|destruct I]; destruct I as [<-|[]];
            destruct C as [A B]; split; cbn [m_rest m_caps m_step]; [rewrite E in A; inversion A; assumption|exact B]).
  - destruct I as [<-|[]]. exact C.
  - unfold one_char in I. destruct (m_rest s) as [|c t] eqn:E; [destruct I|]. destruct I as [<-|[]]. destruct C as [A B]. split; cbn [m_rest m_caps m_step]; [|exact B].
    rewrite E in A. inversion A. assumption.
  - apply in_flat_map in I. destruct I as (m & M & I). eapply IHr2; [|exact I]. eapply IHr1; eassumption.
  - apply in_app_or in I. destruct I as [I|I]; [eapply IHr1|eapply IHr2]; eassumption.
  - apply in_app_or in I. destruct I as [I|[<-|[]]]; [eapply IHr; eassumption|exact C].
  - eapply caps_star; [exact IHr|exact C|exact I].
  - apply in_flat_map in I. destruct I as (m & M & I). eapply caps_star; [exact IHr| |exact I]. eapply IHr; eassumption.
  - apply in_map_iff in I. destruct I as (m & <- & M). destruct (IHr _ _ C M) as [A B]. split; cbn [m_rest m_caps]; [exact A|].
    constructor; [|exact B]. cbn [snd]. unfold consumed. apply ok_firstn. exact (proj1 C).
Qed.
Lemma caps_cap : forall k s, caps_ok s -> ok (cap k s).
Proof.
  intros k s [_ C]. unfold cap. induction C as [|[j t] l C L IH]; [constructor|]. cbn [cap_find]. destruct (Nat.eqb j k); [exact C|exact IH].
Qed.
Lemma caps_search : forall u ic r t prev a s, ok t -> search_from u ic r prev t = Some (a, s) -> ok a /\ caps_ok s.
Proof.
  intros u ic r t. induction t as [|c t IH]; intros prev a s T E; cbn [search_from] in E.
  - destruct (mt u ic r (mkM prev [] [])) as [|s0 l] eqn:M; [discriminate E|]. injection E as <- <-. split; [constructor|].
    apply (caps_mt u ic r (mkM prev [] [])); [split; constructor|]. rewrite M. left. reflexivity.
  - destruct (mt u ic r (mkM prev (c :: t) [])) as [|s0 l] eqn:M.
    + destruct (search_from u ic r (Some c) t) as [[a' s']|] eqn:F; [|discriminate E]. injection E as <- <-.
      inversion T as [|? ? C T']; subst. destruct (IH _ _ _ T' F) as [A S0]. split; [constructor; assumption|exact S0].
    + injection E as <- <-. split; [constructor|]. apply (caps_mt u ic r (mkM prev (c :: t) [])); [split; [exact T|constructor]|].
      rewrite M. left. reflexivity.
Qed.
Lemma caps_match : forall u ic r t s, ok t -> match_all u ic r t = Some s -> caps_ok s.
Proof.
  intros u ic r t s T E. unfold match_all in E. apply find_some in E. apply (caps_mt u ic r (m_start t)); [split; [exact T|constructor]|exact (proj1 E)].
Qed.

(** ** Tokens *)
Definition tok_ok (k : token) : Prop := ok (t_text k) /\ ok (t_std k).
Lemma ok_token : forall t, ok t -> tok_ok (token_of_text t).
Proof.
  intros t T. unfold token_of_text.
  pose proof (ok_getline TAB (open_stream t) [] T (Forall_nil _)) as A. destruct (getline TAB (open_stream t) []) as [s1 w]. cbn [fst snd] in A.
  assert (B : let q := if teqb w (s2t "TOKEN:") then getline TAB s1 w else (s1, w) in ok (s_rest (fst q)) /\ ok (snd q))
    by (destruct (teqb w (s2t "TOKEN:")); cbn zeta; [apply ok_getline; apply A|exact A]).
  cbn zeta in B. destruct (if teqb w (s2t "TOKEN:") then getline TAB s1 w else (s1, w)) as [s2 word]. cbn [fst snd] in B.
  pose proof (ok_getline TAB s2 [] (proj1 B) (Forall_nil _)) as C. destruct (getline TAB s2 []) as [s3 stdw]. cbn [fst snd] in C.
  destruct (getline TAB s3 []) as [s4 incl0]. destruct (getline TAB s4 []) as [s5 outcl]. destruct (getline TAB s5 []) as [s6 att].
  split; cbn [t_text t_std]; [exact (proj2 B)|exact (proj2 C)].
Qed.
Hypothesis dot : P 46.
Hypothesis blank : P 32.
Lemma ok_comma : forall t, ok t -> ok (comma_to_dot t).
Proof. intros t T. induction T as [|c t C T IH]; [constructor|]. cbn [comma_to_dot]. destruct (c =? 44); constructor; assumption. Qed.
Lemma ok_classify : forall u x k c, tok_ok k -> tok_ok (classify u x k c).
Proof.
  intros u x k c [A B]. unfold classify.
  destruct (t_in (set_in k (fold_left (fun s le => add_all s (le_type le)) (lex_find x (t_text k)) (t_in k)))) as [|i l]; [|split; assumption].
  destruct (rmatch u false "^\d+[,\.]\d+$" (t_text k)); split; cbn [t_text t_std set_text set_in set_inlex]; try assumption. apply ok_comma. exact A.
Qed.
Lemma ok_part : forall u x w, ok w -> tok_ok (part_token u x w).
Proof. intros u x w W. apply ok_classify. apply ok_token. exact W. Qed.
Lemma ok_trim : forall k, tok_ok k -> tok_ok (trim_token k).
Proof.
  intros k [A B]. unfold trim_token. destruct (t_text k) as [|c t] eqn:E; [split; [rewrite E; constructor|exact B]|].
  assert (D : ok (rev (drop_ws (rev (drop_ws (c :: t)))))) by (apply ok_rev, ok_drop_ws, ok_rev, ok_drop_ws; exact A).
  destruct (rev (drop_ws (rev (drop_ws (c :: t))))); split; cbn [t_text t_std set_text]; try assumption. constructor; [exact blank|constructor].
Qed.
Lemma ok_split : forall t, ok t -> Forall (Forall P) (split_blanks t).
Proof.
  intros t T. induction T as [|c t C T IH]; [repeat constructor|]. cbn [split_blanks]. destruct (c =? SP).
  - destruct t as [|d t]; [constructor; [constructor|exact IH]|]. destruct (d =? SP); [exact IH|constructor; [constructor|exact IH]].
  - destruct (split_blanks t) as [|w ws]; [repeat constructor; exact C|]. inversion IH; subst. constructor; [constructor; assumption|assumption].
Qed.
Lemma ok_replace : forall f u r prev t, ok t -> ok (replace_from f u r prev t).
Proof.
  induction f as [|f IH]; intros u r prev t T; [exact T|]. cbn [replace_from].
  destruct (search_from u false r prev t) as [[a s]|] eqn:E; [|exact T]. destruct (caps_search _ _ _ _ _ _ _ T E) as [A S0].
  apply ok_app; [exact A|]. apply ok_app; [apply caps_cap; exact S0|]. apply ok_app; [constructor; [exact blank|constructor]|].
  apply ok_app; [apply caps_cap; exact S0|]. apply IH. exact (proj1 S0).
Qed.
Lemma ok_rreplace : forall u pat t, ok t -> ok (rreplace u pat t).
Proof. intros u pat t T. unfold rreplace. destruct (parse_re (s2t pat)); [apply ok_replace|]; exact T. Qed.
Lemma ok_mixed : forall u t, ok t -> Forall (Forall P) (mixed_words u t).
Proof. intros u t T. apply ok_split. apply ok_rreplace. apply ok_rreplace. exact T. Qed.
Lemma ok_groups : forall u pat t a b, ok t -> two_groups u pat t = Ok (a, b) -> ok a /\ ok b.
Proof.
  intros u pat t a b T E. unfold two_groups in E. destruct (parse_re pat) as [r|]; [|discriminate E].
  destruct (match_all u false r t) as [s|] eqn:M; injection E as <- <-; [|split; constructor].
  pose proof (caps_match _ _ _ _ _ T M) as C. split; apply caps_cap; exact C.
Qed.
Lemma ok_parts : forall u x k ws, ok (t_text k) -> split_parts u x k = Ok ws -> Forall (Forall P) ws.
Proof.
  intros u x k ws T E. unfold split_parts in E. destruct (is_in_class k I_MIXED); [injection E as <-; apply ok_mixed; exact T|].
  destruct (two_groups u (s2t "(" ++ fst (lex_pre x) ++ s2t ")(.+)") (t_text k)) as [[a b]| |] eqn:A; cbn [obind] in E; try discriminate E.
  destruct (two_groups u (s2t "(.+)(" ++ fst (lex_suf x) ++ s2t ")") (t_text k)) as [[c d]| |] eqn:C; cbn [obind] in E; try discriminate E.
  destruct (ok_groups _ _ _ _ _ T A) as [OA OB]. destruct (ok_groups _ _ _ _ _ T C) as [OC OD].
  destruct a as [|a0 a]; [destruct d as [|d0 d]; injection E as <-; repeat (apply Forall_cons; [assumption|]); apply Forall_nil|].
  destruct (Nat.eqb (blen d) 0 || Nat.eqb (blen b) (blen d)); [injection E as <-; repeat (apply Forall_cons; [assumption|]); apply Forall_nil|].
  destruct (Nat.ltb 0 (blen d) && Nat.ltb (blen (a0 :: a) + blen d) (blen (t_text k))).
  - injection E as <-. constructor; [exact OA|]. constructor; [apply ok_firstn; exact (ok_skipn (List.length (a0 :: a)) _ T)|]. apply Forall_cons; [exact OD|apply Forall_nil].
  - destruct (Nat.ltb 0 (blen d) && Nat.ltb (blen (t_text k)) (blen (a0 :: a) + blen d)); injection E as <-; repeat (apply Forall_cons; [assumption|]); apply Forall_nil.
Qed.
Lemma ok_parts_tokens : forall u x ws, Forall (Forall P) ws -> Forall tok_ok (map (part_token u x) ws).
Proof. intros u x ws. induction 1; cbn [map]; constructor; [apply ok_part|]; assumption. Qed.
Lemma ok_word_tokens : forall u x w ks, ok w -> word_tokens u x w = Ok ks -> Forall tok_ok ks.
Proof.
  intros u x w ks W E. unfold word_tokens in E. destruct w as [|c w]; [injection E as <-; constructor|].
  pose proof (ok_classify u x _ I_WORD (ok_token _ W)) as K. cbn zeta in E. set (k := classify u x (token_of_text (c :: w)) I_WORD) in *. clearbody k.
  destruct (t_inlex k); [injection E as <-; constructor; [exact K|constructor]|]. unfold split_token in E.
  destruct (split_parts u x k) as [ws| |] eqn:S0; cbn [obind] in E; try discriminate E. injection E as <-.
  pose proof (ok_parts_tokens u x ws (ok_parts _ _ _ _ (proj1 K) S0)) as F. destruct (map (part_token u x) ws); [constructor; [exact K|constructor]|exact F].
Qed.
Lemma ok_sep_tokens : forall u x w, ok w -> Forall tok_ok (sep_tokens u x w).
Proof. intros u x w W. unfold sep_tokens. destruct w; [constructor|]. constructor; [|constructor]. apply ok_classify, ok_trim, ok_token. exact W. Qed.
Lemma ok_scan : forall u r f t ps, ok t -> scan f u r t = Some ps -> Forall (fun p => ok (pc_tok p) /\ ok (pc_sep p)) ps.
Proof.
  intros u r f. induction f as [|f IH]; intros t ps T E; [discriminate E|]. cbn [scan] in E.
  destruct (regex_search u true r t) as [[a s]|] eqn:R; [|injection E as <-; constructor].
  destruct (caps_search _ _ _ _ _ _ _ T R) as [A C]. cbn zeta in E.
  destruct t as [|c t].
  - injection E as <-. constructor; [|constructor]. cbn [pc_tok pc_sep]. split; apply caps_cap; exact C.
  - destruct (scan f u r (m_rest s)) as [l|] eqn:L; [|discriminate E]. injection E as <-. constructor; [|eapply IH; [exact (proj1 C)|exact L]].
    cbn [pc_tok pc_sep]. split; apply caps_cap; exact C.
Qed.
Lemma ok_piece_tokens : forall u x ps ks, Forall (fun p => ok (pc_tok p) /\ ok (pc_sep p)) ps -> piece_tokens u x ps = Ok ks -> Forall tok_ok ks.
Proof.
  intros u x ps ks F. revert ks. induction F as [|p ps [A B] F IH]; intros ks E; cbn [piece_tokens] in E; [injection E as <-; constructor|].
  destruct (word_tokens u x (pc_tok p)) as [k1| |] eqn:W; cbn [obind] in E; try discriminate E.
  destruct (piece_tokens u x ps) as [k2| |] eqn:R; cbn [obind] in E; try discriminate E. injection E as <-.
  apply Forall_app. split; [eapply ok_word_tokens; [exact A|exact W]|]. apply Forall_app. split; [apply ok_sep_tokens; exact B|apply IH; reflexivity].
Qed.
Lemma ok_tokens : forall e x str ks, ok (search_text e x str) -> all_tokens e x str = Ok ks -> Forall tok_ok ks.
Proof.
  intros e x str ks T E. unfold all_tokens, get_pieces in E. destruct (parse_re (token_pattern (fst (lex_regex x)))) as [r|]; [|discriminate E].
  cbn zeta in E. destruct (scan (S (S (List.length (search_text e x str)))) (e_uni e) r (search_text e x str)) as [ps|] eqn:S0; [|discriminate E].
  cbn [obind] in E. eapply ok_piece_tokens; [|exact E]. eapply ok_scan; eassumption.
Qed.
Lemma ok_filter : forall (A : Type) (Q : A -> Prop) f l, Forall Q l -> Forall Q (filter f l).
Proof. intros A Q f l. induction 1 as [|y l Y L IH]; cbn [filter]; [constructor|]. destruct (f y); [constructor|]; assumption. Qed.
Lemma ok_alt : forall u x i ks n, Forall tok_ok ks -> Forall tok_ok (alt_one u x i n ks).
Proof.
  intros u x i ks n F. revert n. induction F as [|k ks K F IH]; intros n; cbn [alt_one]; [constructor|].
  destruct (is_phrase k); [|constructor; [exact K|apply IH]]. apply Forall_app. split; [|apply IH].
  destruct ((i / 2 ^ n) mod 2 =? 0); [constructor; [exact K|constructor]|]. apply ok_parts_tokens. apply ok_split. exact (proj1 K).
Qed.
Lemma ok_phrases : forall e x locale filt address phs, ok (search_text e x (prepared e locale address)) ->
  make_phrases e x locale filt address = Ok phs -> Forall (Forall tok_ok) phs.
Proof.
  intros e x locale filt address phs T E. unfold make_phrases, get_tokens in E. cbn [z_lex z_filter set_filter] in E.
  destruct (all_tokens e x (prepared e locale address)) as [ks| |] eqn:A; cbn [obind] in E; try discriminate E.
  pose proof (ok_filter _ _ (fun k => negb (is_in_class_set k (as_type filt))) _ (ok_tokens _ _ _ _ T A)) as F.
  fold (apply_filter (as_type filt) ks) in F. set (fs := apply_filter (as_type filt) ks) in *. clearbody fs.
  unfold get_alt_tokens in E. destruct (Tokenizer_model.phrases fs) as [|n].
  - cbn [obind] in E. injection E as <-. repeat constructor. exact F.
  - destruct (Nat.ltb 31 (S n)); [discriminate E|]. cbn [obind] in E. injection E as <-. constructor; [exact F|].
    apply Forall_forall. intros l L. apply in_map_iff in L. destruct L as (i & <- & _). apply ok_alt. exact F.
Qed.

(** ** The fields *)
Definition stds_ok (x : lexicon) : Prop := forall w les le, In (w, les) (x_lex x) -> In le les -> ok (le_std le).
Lemma ok_reclass_rule : forall ins outs ts d rest b, Forall tok_ok ts -> reclass_rule ins outs ts = Ok (d, rest, b) -> Forall tok_ok d /\ Forall tok_ok rest.
Proof.
  induction ins as [|i ins IH]; intros outs ts d rest b F E; cbn [reclass_rule] in E; [injection E as <- <- <-; split; [constructor|exact F]|].
  destruct ts as [|k ts]; [discriminate E|]. destruct (is_in_class k i); [|injection E as <- <- <-; split; [constructor|exact F]].
  destruct outs as [|o outs]; [discriminate E|]. inversion F as [|? ? K F']; subst.
  destruct (reclass_rule ins outs ts) as [[[d' rest'] b']| |] eqn:R; try discriminate E. injection E as <- <- <-.
  destruct (IH _ _ _ _ _ F' R) as [A B]. split; [|exact B]. constructor; [exact K|exact A].
Qed.
Lemma ok_reclass_rules : forall rs ts l b, Forall tok_ok ts -> reclass_rules rs ts = Ok (l, b) -> Forall tok_ok l.
Proof.
  induction rs as [|r rs IH]; intros ts l b F E; cbn [reclass_rules] in E; [injection E as <- <-; exact F|].
  destruct (reclass_rule (r_in r) (r_out r) ts) as [[[d rest] c]| |] eqn:R; try discriminate E.
  destruct (ok_reclass_rule _ _ _ _ _ _ F R) as [A B]. destruct c; [|injection E as <- <-; apply Forall_app; split; assumption].
  destruct (reclass_rules rs rest) as [[l' b']| |] eqn:S0; try discriminate E. injection E as <- <-. apply Forall_app. split; [exact A|eapply IH; eassumption].
Qed.
Lemma ok_reclass : forall ts p l b, Forall tok_ok ts -> reclass_tokens ts p = Ok (l, b) -> Forall tok_ok l.
Proof.
  intros ts p l b F E. unfold reclass_tokens in E. cbn zeta in E. destruct (Nat.eqb _ _); [eapply ok_reclass_rules; eassumption|injection E as <- <-; exact F].
Qed.
Lemma ok_best1 : forall g old ph b, Forall tok_ok ph -> search_best1 g old ph = Ok b -> Forall tok_ok (b_tokens b).
Proof.
  intros g old ph b F E. unfold search_best1 in E. destruct (search g ph) as [res| |]; cbn [obind] in E; try discriminate E.
  destruct res as [|p0 res]; [injection E as <-; constructor|]. destruct (select_best p0 (p0 :: res)) as [[q sc] nr].
  destruct (reclass_tokens ph q) as [[ts c]| |] eqn:R; cbn [obind] in E; try discriminate E. pose proof (ok_reclass _ _ _ _ F R) as T.
  destruct c; injection E as <-; exact T.
Qed.
Lemma ok_best_loop : forall g phs cur b, Forall (Forall tok_ok) phs -> Forall tok_ok (b_tokens cur) -> search_best_loop g cur phs = Ok b -> Forall tok_ok (b_tokens b).
Proof.
  intros g phs. induction phs as [|ph phs IH]; intros cur b F C E; cbn [search_best_loop] in E; [injection E as <-; exact C|].
  inversion F as [|? ? K F']; subst. destruct (search_best1 g [] ph) as [r| |] eqn:R; cbn [obind] in E; try discriminate E.
  eapply IH; [exact F'| |exact E]. destruct (f_lt (b_score cur) (b_score r)); [eapply ok_best1; eassumption|exact C].
Qed.
Lemma map_get_pair : forall (A : Type) k (l : list (text * A)) v, map_get k l = Some v -> exists k', In (k', v) l.
Proof.
  intros A k l v. induction l as [|[k' v'] l IH]; intros E; cbn [map_get] in E; [discriminate E|].
  destruct (teqb k k'); [injection E as <-; exists k'; left; reflexivity|]. destruct (IH E) as [q Q]. exists q. right. exact Q.
Qed.
Lemma ok_standard : forall x k k', stds_ok x -> tok_ok k -> standardize_word x k = Ok k' -> tok_ok k'.
Proof.
  intros x k k' X K E. unfold standardize_word in E.
  assert (R : forall r, (match lex_find x (t_text k), t_in k with
         | [], _ => Ok k
         | _, [] => UB
         | entries, c :: _ => match find (fun le => le_in_class le c) entries with Some le => Ok (set_std k (le_std le)) | None => Ok k end
         end) = Ok r -> tok_ok r).
  { intros r R. destruct (lex_find x (t_text k)) as [|e0 es] eqn:L; [injection R as <-; exact K|].
    destruct (t_in k) as [|c cs]; [discriminate R|]. destruct (find (fun le => le_in_class le c) (e0 :: es)) as [le|] eqn:F; injection R as <-; [|exact K].
    apply find_some in F. split; cbn [t_text t_std set_std]; [exact (proj1 K)|]. unfold lex_find in L.
    destruct (map_get (t_text k) (x_lex x)) as [les|] eqn:G; [|discriminate L]. subst les. destruct (map_get_pair _ _ _ _ G) as [w W].
    eapply X; [exact W|exact (proj1 F)]. }
  match type of E with obind ?a _ = _ => destruct a as [r| |] eqn:A; cbn [obind] in E; try discriminate E end.
  injection E as <-. pose proof (R r eq_refl) as T. destruct (t_std r); [|exact T]. split; cbn [t_text t_std set_std]; exact (proj1 T).
Qed.
Lemma ok_append : forall i w v, ok w -> Forall (Forall P) v -> Forall (Forall P) (append_at i w v).
Proof.
  intros i w v W F. revert i. induction F as [|a v A F IH]; intros i; [destruct i; constructor|]. destruct i; cbn [append_at]; constructor; try assumption.
  - apply ok_app; [exact A|]. apply ok_app; [exact W|constructor; [exact blank|constructor]].
  - apply IH.
Qed.
Lemma ok_collect : forall x ks v v', stds_ok x -> Forall tok_ok ks -> Forall (Forall P) v -> collect x v ks = Ok v' -> Forall (Forall P) v'.
Proof.
  intros x ks v v' X F. revert v. induction F as [|k ks K F IH]; intros v V E; cbn [collect] in E; [injection E as <-; exact V|].
  destruct (standardize_word x k) as [k'| |] eqn:S0; cbn [obind] in E; try discriminate E. eapply IH; [|exact E].
  unfold put_token. destruct (slot (t_out k')); [|exact V]. apply ok_append; [exact (proj2 (ok_standard _ _ _ X K S0))|exact V].
Qed.
Lemma ok_fields : forall e g x locale filt address r, ok (search_text e x (prepared e locale address)) -> stds_ok x ->
  standardize_addr e g x locale filt address = Ok (Some r) -> forall t, In (Some t) (sa_fields r) -> ok t.
Proof.
  intros e g x locale filt address r T X E t I. unfold standardize_addr in E.
  destruct (make_phrases e x locale filt address) as [phs| |] eqn:M; cbn [obind] in E; try discriminate E.
  pose proof (ok_phrases _ _ _ _ _ _ T M) as F.
  destruct (search_best g phs) as [b| |] eqn:B; cbn [obind] in E; try discriminate E.
  pose proof (ok_best_loop g phs (mkBest [] f32_m1 [] f32_m1) b F (Forall_nil _) B) as K. destruct (f_le f_zero (b_score b)); [|discriminate E].
  destruct (collect x (repeat [] 16) (b_tokens b)) as [v| |] eqn:C; cbn [obind] in E; try discriminate E. injection E as <-. cbn [sa_fields] in I.
  assert (V : Forall (Forall P) v) by (eapply ok_collect; [exact X|exact K| |exact C]; apply Forall_forall; intros q Q; apply repeat_spec in Q; subst q; constructor).
  apply in_map_iff in I. destruct I as (q & I & Q). pose proof (proj1 (Forall_forall _ _) V q Q) as W. unfold to_field in I.
  destruct q as [|c q]; [discriminate I|]. injection I as <-. exact (ok_removelast (c :: q) W).
Qed.
Lemma ok_rows : forall ps i j, Forall (Forall tok_ok) ps -> Forall (fun r => ok (pr_word r)) (all_rows i j ps).
Proof.
  intros ps. assert (R : forall ks i j, Forall tok_ok ks -> Forall (fun r => ok (pr_word r)) (fst (phrase_rows i j ks))).
  { intros ks i j F. revert j. induction F as [|k ks K F IH]; intros j; cbn [phrase_rows]; [constructor|].
    specialize (IH (j + 1)). destruct (phrase_rows i (j + 1) ks) as [l j']. cbn [fst] in *. constructor; [exact (proj1 K)|exact IH]. }
  induction ps as [|p ps IH]; intros i j F; cbn [all_rows]; [constructor|]. inversion F as [|? ? K F']; subst.
  specialize (R p i j K). destruct (phrase_rows i j p) as [l j']. apply Forall_app. split; [exact R|apply IH; exact F'].
Qed.
End Made.
