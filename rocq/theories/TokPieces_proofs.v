(** The pieces of an address. *)
From Coq Require Import String List NArith Bool Lia Arith.
From Verif Require Import Base_model Class_model Uni_model Token_model Regex_model Trie_model Trie_spec Lexicon_model Tokenizer_model
  Lexicon_spec Tokenizer_spec Search_proofs Trie_proofs TrieRegex_proofs TrieWords_proofs TokParse_proofs TokMatch_proofs
  LexMap_proofs TokScan_proofs TokRead_proofs LexLoad_proofs.
Import ListNotations.
Local Open Scope N_scope.

Lemma pieces_any : forall e x str, built x -> get_pieces e x str = Throw regex_error \/
  exists g, no_cap g = true /\ parse_re (token_pattern (fst (lex_regex x))) = Some (token_re g).
Proof. intros e x str B. unfold get_pieces. destruct (lex_pattern x B) as [->|(g & N & ->)]; [left; reflexivity|right]. exists g. auto. Qed.
Lemma pieces_end : forall e x str, built x -> blank_lines (e_uni e) (search_text e x str) ->
  get_pieces e x str = Throw regex_error \/
  exists ps, get_pieces e x str = Ok ps /\ (List.length ps <= S (List.length (search_text e x str)))%nat /\
    forall ps1 p ps2, ps = ps1 ++ p :: ps2 -> ps2 <> [] -> taken p <> [].
Proof.
  intros e x str B BL. destruct (pieces_any e x str B) as [K|(g & N & K)]; [left; exact K|right]. unfold get_pieces. rewrite K.
  destruct (scan_enough (e_uni e) g N (S (S (List.length (search_text e x str)))) (search_text e x str) BL) as (ps & -> & Hl & Hn); [lia|].
  exists ps. auto.
Qed.
Lemma simple_no_throw : forall e x str, built x -> simple_words x -> get_pieces e x str <> Throw regex_error.
Proof.
  intros e x str B SW K. destruct (simple_pattern (e_uni e) x B SW) as (g & _ & Hg & _). unfold get_pieces in K. rewrite Hg in K.
  destruct (scan _ _ _ _); discriminate.
Qed.
(** Left to right, nothing lost; any lexicon. *)
Lemma pieces_order : forall e x str ps, built x -> get_pieces e x str = Ok ps -> exists left,
  search_text e x str = concat (map taken ps) ++ left /\
  Forall (fun p => in_order (e_uni e) p /\ (pc_skip p = [] \/ exists a c, pc_skip p = a ++ [c] /\ line_end c)) ps.
Proof.
  intros e x str ps B H. unfold get_pieces in H. destruct (lex_pattern x B) as [K|(g & N & K)]; rewrite K in H; [discriminate|].
  destruct (scan _ _ _ _) as [qs|] eqn:E; [|discriminate]. injection H as ->.
  destruct (scan_spec _ g N _ _ _ E) as (left & A & F & _). exists left. auto.
Qed.
(** A whole run of separators follows every token; what is left over cannot be read. *)
Lemma pieces_read : forall e x str ps, built x -> simple_words x -> blank_lines (e_uni e) (search_text e x str) -> get_pieces e x str = Ok ps ->
  exists left, search_text e x str = concat (map taken ps) ++ left /\ well_read (e_uni e) x ps left /\
    (left = [] \/ ~ readable (e_uni e) x left).
Proof.
  intros e x str ps B SW BL H. destruct (simple_pattern (e_uni e) x B SW) as (g & N & K & L). unfold get_pieces in H. rewrite K in H.
  destruct (scan _ _ _ _) as [qs|] eqn:E; [|discriminate]. injection H as ->.
  assert (N' : no_cap (RAlt g shape_re) = true). { cbn [no_cap]. rewrite N. reflexivity. }
  destruct (scan_well (e_uni e) x (RAlt g shape_re) N') with (f := S (S (List.length (search_text e x str)))) (t := search_text e x str) (ps := ps)
    as (left & A & W & F); [intros s s2 w H1 H2; eapply part_reads; eassumption|intros t BLt Rt; apply (readable_match (e_uni e) x g None t L BLt eq_refl Rt)|exact BL|exact E|].
  exists left. split; [exact A|]. split; [exact W|]. destruct F as [F|F]; [left; exact F|right]. intros R. apply search_none in F.
  revert F. apply (readable_match (e_uni e) x g None left L); [|reflexivity|exact R]. rewrite A in BL. apply blank_lines_suffix in BL. exact BL.
Qed.
Lemma no_lines_skip : forall u ps left t, (forall c, In c t -> ~ line_end c) -> t = concat (map taken ps) ++ left ->
  Forall (fun p => in_order u p /\ (pc_skip p = [] \/ exists a c, pc_skip p = a ++ [c] /\ line_end c)) ps ->
  Forall (fun p => pc_skip p = [] /\ in_order u p) ps.
Proof.
  intros u ps left t NL E F. rewrite Forall_forall in *. intros p Hp. destruct (F p Hp) as (O & [K|(a & c & K & Hc)]); [auto|]. exfalso.
  apply (NL c); [|exact Hc]. rewrite E. apply in_app_iff. left. apply in_concat. exists (taken p). split; [apply in_map; exact Hp|].
  unfold taken. rewrite K, !in_app_iff. left. right. left. reflexivity.
Qed.
Lemma pieces_one_line : forall e x str ps, built x -> (forall c, In c (search_text e x str) -> ~ line_end c) -> get_pieces e x str = Ok ps ->
  Forall (fun p => pc_skip p = []) ps.
Proof.
  intros e x str ps B NL H. destruct (pieces_order e x str ps B H) as (left & E & F).
  eapply Forall_impl; [|exact (no_lines_skip (e_uni e) ps left _ NL E F)]. intros p (K & _). exact K.
Qed.
(** The longest listed word is the token. *)
Lemma pieces_longest : forall e x str ps1 ps2 rem b w r, built x -> simple_words x -> blank_lines (e_uni e) (search_text e x str) ->
  case_clear (e_uni e) x rem -> get_pieces e x str = Ok (ps1 ++ ps2) -> search_text e x str = concat (map taken ps1) ++ rem ->
  rem = b ++ w ++ r -> longest (e_uni e) x b w r ->
  exists p ps3, ps2 = p :: ps3 /\ pc_skip p = [] /\ pc_tok p = w /\ pc_all p = b ++ w ++ pc_sep p.
Proof.
  intros e x str ps1 ps2 rem b w r B SW BL CE H E Er L. set (u := e_uni e) in *. set (t := search_text e x str) in *.
  destruct (simple_pattern u x B SW) as (g & N & K & LP). unfold get_pieces in H. rewrite K in H. fold t u in H.
  destruct (scan _ _ _ _) as [qs|] eqn:Es; [|discriminate]. injection H as ->.
  assert (N' : no_cap (RAlt g shape_re) = true). { cbn [no_cap]. rewrite N. reflexivity. }
  assert (Nw : w <> []). { destruct L as (_ & (v & _ & Nv & F) & _). intros ->. inversion F. congruence. }
  assert (Nr : rem <> []). { rewrite Er. intros Q. apply app_eq_nil in Q. destruct Q as (_ & Q). apply app_eq_nil in Q. destruct Q as (Q & _). congruence. }
  destruct (scan_split u (RAlt g shape_re) N' ps1 _ t ps2 rem Nr Es E) as (f' & Hf). destruct f' as [|f']; [discriminate|].
  assert (BLr : blank_lines u rem). { rewrite E in BL. apply blank_lines_suffix in BL. exact BL. }
  destruct (longest_match u x g rem b w r LP (proj1 (built_ok x B)) BLr CE Er L) as (s & Hs & C1 & C2).
  cbn [scan] in Hf. rewrite Hs in Hf. destruct rem as [|c rem]; [congruence|].
  destruct (scan f' u _ (m_rest s)) as [qs|]; [|discriminate]. injection Hf as <-. eexists. eexists. split; [reflexivity|].
  cbn [pc_skip pc_tok pc_all pc_sep]. split; [reflexivity|]. split; [exact C1|]. cbn [skipn List.length].
  assert (PA := piece_all [] (b ++ w ++ cap 2 s) (m_rest s)). cbn [app List.length skipn] in PA. rewrite <- !app_assoc in PA.
  replace (b ++ w ++ cap 2 s ++ m_rest s) with (c :: rem) in PA by exact C2. exact PA.
Qed.
(** Examples. *)
Definition one_word : lexicon := run (new_lexicon []) [Ins (mkLE (s2t "MAIN") (s2t "MAIN") [I_WORD] [])].
