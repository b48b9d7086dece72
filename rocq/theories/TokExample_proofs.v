(** Concrete addresses for the examples of Tokenizer_props. *)
From Coq Require Import String List PeanoNat NArith Bool Lia.
From Verif Require Import Base_model Class_model Uni_model Token_model Regex_model Lexicon_model Tokenizer_model Lexicon_spec Tokenizer_spec
  LexMap_proofs LexLoad_proofs TokScan_proofs TokRead_proofs TokPieces_proofs TokSplit_proofs TokKeep_proofs TokAlt_proofs.
Import ListNotations.
Local Open Scope N_scope.

Lemma built_run : forall h x, built x -> built (run x h).
Proof. unfold run. induction h as [|o h IH]; intros x H; [exact H|]. cbn [fold_left]. apply IH. apply built_step. exact H. Qed.
Lemma ex_built : built ex_lex.
Proof. apply built_run, built_new. Qed.
Lemma listed_keys : forall x w ws, built x -> map fst (x_lex x) = ws -> (listed x w <-> In w ws).
Proof. intros x w ws B <-. apply listed_in. apply built_ok. exact B. Qed.
Lemma ex_listed : forall w, listed ex_lex w <-> In w [s2t "PO BOX"; s2t "ST"].
Proof. intros w. apply listed_keys; [exact ex_built|]. vm_compute. reflexivity. Qed.
Lemma ex_simple : simple_words ex_lex.
Proof.
  intros w c H K. apply ex_listed in H. simpl in H. destruct H as [<-|[<-|[]]]; simpl in K; repeat (destruct K as [<-|K]; [repeat split; discriminate|]); destruct K.
Qed.
Lemma ascii_blank : plain_blank ascii_uni.
Proof. split; [reflexivity|]. split; [reflexivity|]. unfold latin. vm_compute. intros (A & _). apply A. reflexivity. Qed.
Lemma ascii_lines : forall t, ~ In 0x85 t -> ~ In 0x2028 t -> ~ In 0x2029 t -> blank_lines ascii_uni t.
Proof.
  intros t N1 N2 N3 c H L. unfold line_end in L. simpl in L. destruct L as [<-|[<-|[<-|[<-|[<-|[<-|[]]]]]]]; try reflexivity; contradiction.
Qed.
Ltac absent := vm_compute; intros K; repeat (destruct K as [K|K]; [discriminate|]); exact K.

(** A clean address. *)
Definition ex_addr : text := s2t " 12 PO BOX, 500W st 3,5".
Lemma ex_addr_lines : blank_lines ascii_uni (search_text ascii_env ex_lex ex_addr).
Proof. apply ascii_lines; absent. Qed.
Lemma ex_addr_tab : ~ In 9 (search_text ascii_env ex_lex ex_addr).
Proof. absent. Qed.
Lemma ex_addr_pieces : exists ps, get_pieces ascii_env ex_lex ex_addr = Ok ps /\ map pc_tok ps = [s2t "12"; s2t "PO BOX"; s2t "500W"; s2t "ST"; s2t "3,5"] /\
  map pc_sep ps = [s2t " "; s2t ", "; s2t " "; s2t " "; []].
Proof. eexists. split; [vm_compute; reflexivity|]. split; vm_compute; reflexivity. Qed.
Lemma ex_addr_tokens : exists ks, all_tokens ascii_env ex_lex ex_addr = Ok ks /\
  map t_text ks = [s2t "12"; s2t " "; s2t "PO BOX"; s2t ","; s2t "500"; s2t "W"; s2t " "; s2t "ST"; s2t " "; s2t "3.5"].
Proof. eexists. split; vm_compute; reflexivity. Qed.
Lemma ex_addr_clear : clear_text ascii_uni (search_text ascii_env ex_lex (s2t " 12 PO BOX, 500W st/3")).
Proof.
  intros c H. set (u := ascii_uni).
  assert (G : forall d, In d (search_text ascii_env ex_lex (s2t " 12 PO BOX, 500W st/3")) ->
    (u_alpha u d || u_digit u d = true /\ u_space u d || u_punct u d = false /\ u_fold u 45 <> u_fold u d /\ u_fold u 38 <> u_fold u d /\ u_fold u 124 <> u_fold u d /\ u_fold u 0x2014 <> u_fold u d /\ d <> 44) \/
    (u_space u d || u_punct u d = true /\ u_alpha u d || u_digit u d = false)).
  { vm_compute. intros d K. repeat (destruct K as [<-|K]; [first [left; repeat split; discriminate | right; repeat split]|]). destruct K. }
  unfold alnum, sep_char, dash, like. destruct (G c H) as [(A & B & C1 & C2 & C3 & C4 & C5)|(A & B)].
  - left. apply orb_true_iff in A. apply orb_false_iff in B. destruct B as (B1 & B2). split; [exact A|]. split; [|split; [exact C4|exact C5]].
    rewrite B1, B2. intuition discriminate.
  - right. apply orb_true_iff in A. apply orb_false_iff in B. destruct B as (B1 & B2). rewrite B1, B2. split; [tauto|intuition discriminate].
Qed.
Lemma keep_ex : let str := s2t " 12 PO BOX, 500W st/3" in let t := search_text ascii_env ex_lex str in
  built ex_lex /\ simple_words ex_lex /\ plain_blank ascii_uni /\ ~ In 9 t /\ blank_lines ascii_uni t /\ clear_text ascii_uni t /\ starts ascii_uni t /\
  exists ks, all_tokens ascii_env ex_lex str = Ok ks /\ map t_text ks = [s2t "12"; s2t " "; s2t "PO BOX"; s2t ","; s2t "500"; s2t "W"; s2t " "; s2t "ST"; s2t "/"; s2t "3"].
Proof.
  cbv zeta. split; [exact ex_built|]. split; [exact ex_simple|]. split; [exact ascii_blank|]. split; [absent|]. split; [apply ascii_lines; absent|].
  split; [exact ex_addr_clear|]. split.
  - exists [32], 49, (s2t "2 PO BOX, 500W ST/3"). split; [vm_compute; reflexivity|]. split; [constructor; [reflexivity|constructor]|]. right. reflexivity.
  - eexists. split; vm_compute; reflexivity.
Qed.
(** C22: a line that cannot be read is skipped. *)
Lemma skip_witness : exists x str ps, built x /\ get_pieces ascii_env x str = Ok ps /\
  forall left, search_text ascii_env x str <> concat (map pc_all ps) ++ left.
Proof.
  exists one_word, (s2t "#" ++ 10 :: s2t "MAIN"). eexists. split; [apply built_run, built_new|]. split; [vm_compute; reflexivity|].
  intros left. vm_compute. discriminate.
Qed.
(** C23: nothing of the address is kept. *)
Lemma drop_witness : exists x str ks c, built x /\ all_tokens ascii_env x str = Ok ks /\ In c (search_text ascii_env x str) /\ alnum ascii_uni c /\
  forall k, In k ks -> ~ In c (t_text k).
Proof.
  exists ex_lex, (s2t "#12 MAIN"), [], 77. split; [exact ex_built|]. split; [vm_compute; reflexivity|]. split; [vm_compute; tauto|]. split; [left; reflexivity|]. intros k [].
Qed.
(** C55: a tab in a separator empties the token. *)
Lemma tab_witness : exists x str ps ks k, built x /\ get_pieces ascii_env x str = Ok ps /\ all_tokens ascii_env x str = Ok ks /\ In k ks /\ t_text k = [] /\
  Forall (fun p => pc_tok p <> []) ps /\ map pc_sep ps = [[9; 45]; []].
Proof.
  exists ex_lex, (s2t "A" ++ 9 :: s2t "-B"). eexists. eexists. eexists. split; [exact ex_built|]. split; [vm_compute; reflexivity|]. split; [vm_compute; reflexivity|].
  split; [right; left; reflexivity|]. split; [reflexivity|]. split; [repeat constructor; discriminate|reflexivity].
Qed.
(** Two listed words. *)
Definition ex_two : lexicon := run (new_lexicon []) [Ins (mkLE (s2t "PO") [] [I_WORD] []); Ins ex_box; Ins (mkLE (s2t "PO BOXES") [] [I_WORD] [])].
(** C25: listed words in small letters. *)
Definition ex_small : lexicon := run (new_lexicon []) [Ins (mkLE (s2t "po") [] [I_WORD] []); Ins (mkLE (s2t "po box") [] [I_WORD] []); Ins (mkLE (s2t "po boxes") [] [I_WORD] [])].
Lemma small_listed : forall w, listed ex_small w <-> In w [s2t "po"; s2t "po box"; s2t "po boxes"].
Proof. intros w. apply listed_keys; [apply built_run, built_new|]. vm_compute. reflexivity. Qed.
Lemma longest_ex : let str := s2t "7 PO BOX 9" in let t := search_text ascii_env ex_small str in
  built ex_small /\ simple_words ex_small /\ blank_lines ascii_uni t /\ case_clear ascii_uni ex_small (s2t "PO BOX 9") /\
  (exists p ps, get_pieces ascii_env ex_small str = Ok ([p] ++ ps) /\ t = concat (map taken [p]) ++ s2t "PO BOX 9") /\
  longest ascii_uni ex_small [] (s2t "PO BOX") (s2t " 9").
Proof.
  cbv zeta. split; [apply built_run, built_new|]. split.
  { intros w c H K. apply small_listed in H. simpl in H. destruct H as [<-|[<-|[<-|[]]]]; simpl in K; repeat (destruct K as [<-|K]; [repeat split; discriminate|]); destruct K. }
  split; [apply ascii_lines; absent|]. split.
  { intros w w' c c' d H H' K K' _ Q Q'. apply small_listed in H. apply small_listed in H'.
    assert (A : forall v e, In v [s2t "po"; s2t "po box"; s2t "po boxes"] -> In e v -> In e (s2t "po boxes")).
    { intros v e [<-|[<-|[<-|[]]]]; vm_compute; tauto. }
    apply A in K; [|exact H]. apply A in K'; [|exact H']. unfold like in Q, Q'. rewrite <- Q' in Q. clear - K K' Q. vm_compute in K, K'.
    repeat (destruct K as [<-|K]; [repeat (destruct K' as [<-|K']; [vm_compute in Q; congruence|]); destruct K'|]). destruct K. }
  split.
  { eexists. eexists. split; [vm_compute; reflexivity|]. vm_compute. reflexivity. }
  split; [constructor|]. split.
  { exists (s2t "po box"). split; [apply small_listed; simpl; tauto|]. split; [discriminate|]. repeat (constructor; [reflexivity|]). constructor. }
  split; [left; right; right; right; left; reflexivity|].
  split; [vm_compute; discriminate|]. split; [reflexivity|]. intros w' r' E (v & H & _ & F) St. apply small_listed in H.
  destruct (Nat.le_gt_cases (List.length w') (List.length (s2t "PO BOX"))) as [Q|Q]; [exact Q|exfalso]. change (List.length (s2t "PO BOX")) with 6%nat in Q.
  assert (L : List.length v = List.length w') by exact (forall2_len F). rewrite <- L in Q.
  destruct H as [<-|[<-|[<-|[]]]]; try (vm_compute in Q; lia). change (s2t "PO BOX" ++ s2t " 9") with (s2t "PO BOX 9") in E.
  change (s2t "po boxes") with [112; 111; 32; 98; 111; 120; 101; 115] in F.
  do 8 (let K := fresh in inversion F as [|? ? ? ? K F']; subst; clear F; rename F' into F). vm_compute in E.
  injection E as <- <- <- <- <- <- <- <- _. repeat match goal with K : like _ _ _ |- _ => vm_compute in K end. discriminate.
Qed.
(** Words in both cases: the shorter one is found first. *)
Definition ex_both : lexicon := run (new_lexicon []) [Ins (mkLE (s2t "A") [] [I_WORD] []); Ins (mkLE (s2t "AX") [] [I_WORD] []); Ins (mkLE (s2t "a b") [] [I_WORD] [])].
Lemma both_listed : forall w, listed ex_both w <-> In w [s2t "A"; s2t "AX"; s2t "a b"].
Proof. intros w. apply listed_keys; [apply built_run, built_new|]. vm_compute. reflexivity. Qed.
Lemma both_witness : exists x str w p ps, built x /\ simple_words x /\ blank_lines ascii_uni (search_text ascii_env x str) /\ search_text ascii_env x str = w /\
  longest ascii_uni x [] w [] /\ get_pieces ascii_env x str = Ok (p :: ps) /\ pc_tok p <> w.
Proof.
  exists ex_both, (s2t "A B"), (s2t "A B"). eexists. eexists. split; [apply built_run, built_new|]. split.
  { intros w c H K. apply both_listed in H. simpl in H. destruct H as [<-|[<-|[<-|[]]]]; simpl in K; repeat (destruct K as [<-|K]; [repeat split; discriminate|]); destruct K. }
  split; [apply ascii_lines; absent|]. split; [reflexivity|]. split.
  - split; [constructor|]. split; [|split; [exact I|]].
    + exists (s2t "a b"). split; [apply both_listed; simpl; tauto|]. split; [discriminate|]. repeat (constructor; [reflexivity|]). constructor.
    + split; [vm_compute; discriminate|]. split; [reflexivity|]. intros w' r' E _ _. apply (f_equal (@List.length N)) in E. rewrite !app_length in E. simpl in *. lia.
  - split; [vm_compute; reflexivity|]. vm_compute. discriminate.
Qed.
(** C26. *)
Definition ex_att : lexicon := run (new_lexicon []) [Ins (mkLE (s2t "STR") (s2t "STRASSE") [I_TYPE] [ATT_SUF]); Ins (mkLE (s2t "ALT") (s2t "ALT") [I_WORD] [ATT_PRE])].
Lemma split_ex : let k := plain_token (s2t "ALTERSTR") in built ex_att /\ t_text k <> [] /\ ~ In 9 (t_text k) /\ is_in_class k I_MIXED = false /\
  exists ks, split_token ascii_uni ex_att k = Ok ks /\ map t_text ks = [s2t "ALT"; s2t "ER"; s2t "STR"].
Proof.
  cbv zeta. split; [apply built_run, built_new|]. split; [discriminate|]. split; [absent|]. split; [reflexivity|]. eexists. split; vm_compute; reflexivity.
Qed.
(** C15–C18. *)
Definition dash_lex : lexicon := run (new_lexicon []) [Ins (mkLE (s2t "A - B") (s2t "AB") [I_WORD] [])].
Lemma alt_witness : exists z str ks alts a k, built (z_lex z) /\ get_tokens ascii_env z str = Ok ks /\ get_alt_tokens ascii_uni (z_lex z) ks = Ok alts /\
  In a alts /\ In k a /\ caught (z_filter z) k.
Proof.
  exists (mkTz dash_lex [I_DASH]), (s2t "5,A - B"). eexists. eexists. eexists. eexists. split; [apply built_run, built_new|]. split; [vm_compute; reflexivity|].
  split; [vm_compute; reflexivity|]. split; [left; reflexivity|]. split; [right; right; right; left; reflexivity|]. exists I_DASH. split; left; reflexivity.
Qed.
Lemma empty_witness : exists z str ks alts a k, built (z_lex z) /\ get_tokens ascii_env z str = Ok ks /\ get_alt_tokens ascii_uni (z_lex z) ks = Ok alts /\
  In a alts /\ In k a /\ t_text k = [].
Proof.
  exists (mkTz dash_lex []), (s2t "5 X"). eexists. eexists. eexists. eexists. split; [apply built_run, built_new|]. split; [vm_compute; reflexivity|].
  split; [vm_compute; reflexivity|]. split; [left; reflexivity|]. split; [right; left; reflexivity|]. reflexivity.
Qed.
Lemma filter_ex : let z := fold_left edit_filter [Add I_PUNCT; Replace [I_SPACE; I_DASH]; Add I_AMPERS; Remove I_DASH] (mkTz ex_lex []) in
  z_filter z = [I_SPACE; I_AMPERS] \/ z_filter z = [I_AMPERS; I_SPACE].
Proof. vm_compute. auto. Qed.
Lemma filter_ex2 : exists ks, get_tokens ascii_env (mkTz ex_lex [I_SPACE; I_PUNCT]) ex_addr = Ok ks /\
  map t_text ks = [s2t "12"; s2t "PO BOX"; s2t "500"; s2t "W"; s2t "ST"; s2t "3.5"].
Proof. eexists. split; vm_compute; reflexivity. Qed.
Lemma alts_ex : exists ks alts, get_tokens ascii_env (mkTz ex_two [I_SPACE]) (s2t "po box 5 po boxes") = Ok ks /\ phrases ks = 2%nat /\
  get_alt_tokens ascii_uni ex_two ks = Ok alts /\
  map (map t_text) alts = [[s2t "PO"; s2t "BOX"; s2t "5"; s2t "PO BOXES"]; [s2t "PO BOX"; s2t "5"; s2t "PO"; s2t "BOXES"]; [s2t "PO"; s2t "BOX"; s2t "5"; s2t "PO"; s2t "BOXES"]].
Proof. eexists. eexists. split; [vm_compute; reflexivity|]. split; [reflexivity|]. split; vm_compute; reflexivity. Qed.
Lemma clean_ex : let z := mkTz ex_two [I_DASH; I_SPACE] in exists ks, get_tokens ascii_env z (s2t "po box 5") = Ok ks /\
  (forall c, In c (z_filter z) -> separator_class c) /\
  (forall p, In p ks -> t_text p <> [] /\ ~ In 9 (t_text p) /\ hd_error (t_text p) <> Some 32 /\ hd_error (rev (t_text p)) <> Some 32) /\
  forall p ws w, In p ks -> phrase p -> words_of (t_text p) ws -> In w ws ->
     words ascii_uni w /\ ~ In 9 w /\ forall le c, In le (lex_find (z_lex z) w) -> In c (le_type le) -> ~ In c (z_filter z).
Proof.
  cbv zeta. eexists. split; [vm_compute; reflexivity|]. split; [intros c [<-|[<-|[]]]; vm_compute; tauto|]. split.
  { intros p [<-|[<-|[]]]; (split; [discriminate|]); (split; [absent|]); split; discriminate. }
  intros p ws w [<-|[<-|[]]] P W Hw.
  - apply words_unique in W. subst ws. vm_compute in Hw. destruct Hw as [<-|[<-|[]]].
    + split; [split; [discriminate|repeat constructor]|]. split; [absent|]. intros le c K1 K2. vm_compute in K1. destruct K1 as [<-|[]]. destruct K2 as [<-|[]]. vm_compute. intuition discriminate.
    + split; [split; [discriminate|repeat constructor]|]. split; [absent|]. intros le c K1. vm_compute in K1. destruct K1.
  - exfalso. revert P. absent.
Qed.

Lemma tokens_clean : forall e z str ks k, get_tokens e z str = Ok ks -> In k ks -> ~ caught (z_filter z) k.
Proof. intros e z str ks k H. apply tokens_sifted in H. destruct H as (all & _ & H). exact (sifted_clean _ _ _ k H). Qed.
