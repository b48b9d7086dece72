(** Examples for the documented grammar and lexicon files, and where the documents are wrong. *)
From Coq Require Import String List NArith ZArith Bool Lia Floats.SpecFloat.
From Verif Require Import Base_model Class_model Class_spec Float_model Uni_model Token_model Rule_model Grammar_model Search_model Search_spec Grammar_spec Lexicon_model Lexicon_spec
  Tokenizer_model Tokenizer_spec Wrapper_model Wrapper_spec Sample_model LexText_spec LexFile_spec LexFileExample_proofs GrammarMore_proofs Loaded_proofs TokExample_proofs WrapperEx_proofs LexText_spec LexFile_spec Docs_spec DocsLex_spec.
Import ListNotations.
Local Open Scope N_scope.

(** ** Grammars *)
Lemma ascii_doc : doc_tables ascii_uni.
Proof.
  split; [|split; [reflexivity|]].
  - intros c H. cbn. unfold a_space, c_isspace. repeat (match goal with |- context [?a <=? ?b] => destruct (N.leb_spec a b) | |- context [?a =? ?b] => destruct (N.eqb_spec a b) end; cbn; try lia); try reflexivity.
  - intros c H. cbn. unfold a_word, a_alpha, a_upper, a_lower, a_digit. destruct H as [H|[H|H]];
      repeat (match goal with |- context [?a <=? ?b] => destruct (N.leb_spec a b) end; cbn; try lia); try reflexivity.
Qed.
Lemma spaced_join : forall ws, ws <> [] -> spaced ws (join [32] ws).
Proof.
  induction ws as [|w [|v ws] IH]; intros N; [congruence| |].
  - cbn. rewrite <- (app_nil_r w) at 2. constructor. constructor.
  - cbn [join]. apply (sp_more w [32]); [repeat constructor; left; reflexivity|discriminate|]. apply IH. discriminate.
Qed.
Definition g_refs : list (text * body) :=
  [(ADDRESS, Refs [[s2t "house"; s2t "STREET_NAME"]; [s2t "STREET_NAME"]]);
   (s2t "house", Rules [([I_NUMBER], [O_HOUSE], s2t "0.5"); ([I_NUMBER; I_FRACT], [O_HOUSE; O_HOUSE], s2t "0.6")]);
   (s2t "STREET_NAME", Rules [([I_TYPE; I_WORD], [O_PRETYP; O_STREET], s2t "0.3"); ([I_WORD; I_TYPE], [O_STREET; O_SUFTYP], s2t "0.3")])].
Definition g_lines : list text :=
  map s2t ["# a comment"; "[ADDRESS]"; "@house @STREET_NAME"; "@STREET_NAME"; ""; "[house]"; "NUMBER -> HOUSE -> 0.5"; "NUMBER FRACT -> HOUSE HOUSE -> 0.6";
    "[STREET_NAME]"; "TYPE WORD   -> PRETYP STREET -> 0.3"; "# another"; "WORD TYPE -> STREET SUFTYP -> 0.3"]%string.
Lemma ident_b : forall n, n <> [] -> forallb (fun c => ((48 <=? c) && (c <=? 57)) || ((65 <=? c) && (c <=? 90)) || ((97 <=? c) && (c <=? 122)) || (c =? 95)) n = true -> identifier n.
Proof.
  intros n N H. split; [exact N|]. apply Forall_forall. intros c I. rewrite forallb_forall in H. specialize (H c I).
  rewrite !orb_true_iff, !andb_true_iff, !N.leb_le, N.eqb_eq in H. unfold ascii_word. tauto.
Qed.
Lemma float_b : forall s, s <> [] -> forallb (fun c => ((48 <=? c) && (c <=? 57)) || (c =? 46)) s = true -> float_text s.
Proof.
  intros s N H. split; [exact N|]. apply Forall_forall. intros c I. rewrite forallb_forall in H. specialize (H c I).
  rewrite !orb_true_iff, !andb_true_iff, !N.leb_le, N.eqb_eq in H. exact H.
Qed.
Lemma refs_line : forall ns, ns <> [] -> Forall identifier ns -> refs_text ns (join [32] (map (fun n => 64 :: n) ns)).
Proof. intros ns N F. split; [exact N|]. split; [exact F|]. apply spaced_join. destruct ns; [congruence|discriminate]. Qed.
Lemma rule_line : forall ins outs sc, List.length ins = List.length outs -> float_text sc ->
  rule_text (ins, outs, sc) (join [32] (map in_str ins ++ ARROW :: map out_str outs ++ [ARROW; sc])).
Proof. intros ins outs sc L F. split; [exact L|]. split; [exact F|]. apply spaced_join. destruct (map in_str ins); discriminate. Qed.
Ltac idn := apply ident_b; [discriminate|vm_compute; reflexivity].
Ltac flt_ := apply float_b; [discriminate|vm_compute; reflexivity].
Ltac comment_ := apply ln_skip; [right; eexists; split; [reflexivity|vm_compute; intuition discriminate]|].
Lemma g_spaced : spaced [s2t "TYPE"; s2t "WORD"; ARROW; s2t "PRETYP"; s2t "STREET"; ARROW; s2t "0.3"] (s2t "TYPE WORD   -> PRETYP STREET -> 0.3").
Proof.
  change (s2t "TYPE WORD   -> PRETYP STREET -> 0.3") with (s2t "TYPE" ++ [32] ++ s2t "WORD" ++ [32;32;32] ++ join [32] [ARROW; s2t "PRETYP"; s2t "STREET"; ARROW; s2t "0.3"]).
  apply sp_more; [repeat constructor; left; reflexivity|discriminate|]. apply sp_more; [repeat (constructor; [left; reflexivity|]); constructor|discriminate|].
  apply spaced_join. discriminate.
Qed.
Lemma g_follows : grammar_lines g_refs g_lines.
Proof.
  unfold g_lines, g_refs. cbn [map]. apply gl_skip; [right; eexists; split; [reflexivity|vm_compute; intuition discriminate]|].
  apply (gl_group ADDRESS _ [s2t "@house @STREET_NAME"; s2t "@STREET_NAME"; s2t ""]); [idn| |].
  { split; [discriminate|]. apply ln_line; [apply (refs_line [s2t "house"; s2t "STREET_NAME"]); [discriminate|constructor; [idn|constructor; [idn|constructor]]]|].
    apply ln_line; [apply (refs_line [s2t "STREET_NAME"]); [discriminate|constructor; [idn|constructor]]|]. apply ln_skip; [left; reflexivity|]. constructor. }
  apply (gl_group (s2t "house") _ [s2t "NUMBER -> HOUSE -> 0.5"; s2t "NUMBER FRACT -> HOUSE HOUSE -> 0.6"]); [idn| |].
  { split; [discriminate|]. apply ln_line; [apply (rule_line [I_NUMBER] [O_HOUSE] (s2t "0.5")); [reflexivity|flt_]|].
    apply ln_line; [apply (rule_line [I_NUMBER; I_FRACT] [O_HOUSE; O_HOUSE] (s2t "0.6")); [reflexivity|flt_]|]. constructor. }
  apply (gl_group (s2t "STREET_NAME") _ [s2t "TYPE WORD   -> PRETYP STREET -> 0.3"; s2t "# another"; s2t "WORD TYPE -> STREET SUFTYP -> 0.3"]); [idn| |constructor].
  split; [discriminate|]. apply ln_line; [split; [reflexivity|split; [flt_|exact g_spaced]]|]. comment_.
  apply ln_line; [apply (rule_line [I_WORD; I_TYPE] [O_STREET; O_SUFTYP] (s2t "0.3")); [reflexivity|flt_]|]. constructor.
Qed.
Lemma g_complete : complete g_refs.
Proof.
  split; [left; reflexivity|]. split.
  - cbn [g_refs map fst]. constructor; [vm_compute; intuition discriminate|]. constructor; [vm_compute; intuition discriminate|]. constructor; [intros []|constructor].
  - intros n (m & l & ns & [E|[E|[E|[]]]] & I1 & I2); inversion E; subst. cbn [In] in I1.
    destruct I1 as [<-|[<-|[]]]; cbn [In] in I2; cbn [g_refs map fst In]; intuition.
Qed.
Lemma g_scores : forall s, score_of g_refs s -> not_le_zero (sample_atof s).
Proof.
  assert (A : forall s, In s [s2t "0.5"; s2t "0.6"; s2t "0.3"] -> not_le_zero (sample_atof s)).
  { intros s [<-|[<-|[<-|[]]]]; vm_compute; reflexivity. }
  intros s (m & l & i & o & [E|[E|[E|[]]]] & I); inversion E; subst; apply A; cbn [In] in I;
    (destruct I as [I|[I|[]]]; inversion I; cbn; auto).
Qed.
Lemma doc_ex : uni_ok ascii_uni /\ doc_tables ascii_uni /\ grammar_lines g_refs g_lines /\ complete g_refs /\
  (forall s, score_of g_refs s -> not_le_zero (sample_atof s)).
Proof. exact (conj ascii_uni_ok (conj ascii_doc (conj g_follows (conj g_complete g_scores)))). Qed.
Definition z_refs : list (text * body) := [(ADDRESS, Refs [[s2t "house"]]); (s2t "house", Rules [([I_NUMBER], [O_HOUSE], s2t "0.0")])].
Definition z_lines : list text := map s2t ["[ADDRESS]"; "@house"; "[house]"; "NUMBER -> HOUSE -> 0.0"]%string.
Lemma zero_bad : exists gs ls m, grammar_lines gs ls /\ complete gs /\ (forall s, score_of gs s -> s = s2t "0.0") /\
  load_grammar ascii_uni sample_atof (file_text ls) = Throw m.
Proof.
  exists z_refs, z_lines. eexists. split; [|split; [|split]].
  - apply (gl_group ADDRESS _ [s2t "@house"]); [idn| |].
    { split; [discriminate|]. apply ln_line; [apply (refs_line [s2t "house"]); [discriminate|constructor; [idn|constructor]]|constructor]. }
    apply (gl_group (s2t "house") _ [s2t "NUMBER -> HOUSE -> 0.0"]); [idn| |constructor].
    split; [discriminate|]. apply ln_line; [apply (rule_line [I_NUMBER] [O_HOUSE] (s2t "0.0")); [reflexivity|flt_]|constructor].
  - split; [left; reflexivity|]. split.
    + cbn [z_refs map fst]. constructor; [vm_compute; intuition discriminate|]. constructor; [intros []|constructor].
    + intros n (m & l & ns & [E|[E|[]]] & I1 & I2); inversion E; subst. cbn [In] in I1. destruct I1 as [<-|[]]. cbn [In] in I2. cbn [z_refs map fst In]. intuition.
  - intros s (m & l & i & o & [E|[E|[]]] & I); inversion E; subst. cbn [In] in I. destruct I as [I|[]]; inversion I; reflexivity.
  - vm_compute. reflexivity.
Qed.

(** ** Lexicons and tokens *)
Definition d_head (nm lg loc : string) : text := cols ["LEXICON:"; nm; lg; loc; ""]%string.
Definition d_entry (w cls att : string) : text := cols ["LEXENTRY:"; w; w; cls; att]%string.
Definition d_lex (e : env) (t : text) : lexicon := match load_lexicon e [] t with Ok x => x | _ => new_lexicon [] end.
Lemma d_header : forall nm lg loc, ~ In 9 (s2t nm) -> ~ In 9 (s2t lg) -> ~ In 9 (s2t loc) -> header_of (d_head nm lg loc) (as_lang (s2t lg)) (s2t loc).
Proof.
  intros nm lg loc Z A B. exists [s2t "LEXICON:"; s2t nm; s2t lg; s2t loc; []]. split; [|repeat split; reflexivity]. unfold d_head, cols. cbn [map join].
  repeat (apply col_more; [first [exact Z|exact A|exact B|vm_compute; intuition discriminate]|]). apply col_last. intros [].
Qed.
Lemma header_ex : let h := d_head "us" "ENG" "en_US" in let h' := d_head "other" "FRE" "en_US" in let es := [d_entry "ST" "TYPE" ""] in
  Forall one_line ([] ++ h :: es) /\ one_line h' /\ is_header h /\ is_header h' /\ header_of h L_ENG (s2t "en_US") /\ header_of h' L_FRE (s2t "en_US") /\
  exists x, load_lexicon ascii_env [] (file ([] ++ h :: es) []) = Ok x.
Proof.
  split; [repeat (constructor; [apply one_line_b; vm_compute; reflexivity|]); constructor|]. split; [apply one_line_b; vm_compute; reflexivity|].
  split; [eexists; reflexivity|]. split; [eexists; reflexivity|].
  split; [apply (d_header "us" "ENG" "en_US")%string; vm_compute; intuition discriminate|].
  split; [apply (d_header "other" "FRE" "en_US")%string; vm_compute; intuition discriminate|]. eexists. vm_compute. reflexivity.
Qed.
Lemma att_ex : columns 44 (s2t "DET_SUF, ATT_SUF") [s2t "DET_SUF"; s2t " ATT_SUF"] /\ as_attach (s2t "DET_SUF, ATT_SUF") = [DET_SUF; ATT_SUF] /\
  columns 44 (s2t "DETACHED ") [s2t "DETACHED "] /\ Forall no_attachment [s2t "DETACHED "].
Proof.
  split; [apply (col_more 44 (s2t "DET_SUF") (s2t " ATT_SUF") [s2t " ATT_SUF"]); [vm_compute; intuition discriminate|apply col_last; vm_compute; intuition discriminate]|].
  split; [vm_compute; reflexivity|]. split; [apply col_last; vm_compute; intuition discriminate|].
  constructor; [|constructor]. right. left. exists [], [32]. repeat split; repeat constructor.
Qed.
Lemma locale_bad : exists e h h' es x y address, header_of h L_TUR (s2t "tr_TR") /\ header_of h' L_TUR (s2t "en_US") /\
  load_lexicon e [] (file (h :: es) []) = Ok x /\ load_lexicon e [] (file (h' :: es) []) = Ok y /\
  parse_addr e x (s2t "en_US") [] address <> parse_addr e y (s2t "en_US") [] address.
Proof.
  exists turkish_env, (d_head "n" "TUR" "tr_TR"), (d_head "n" "TUR" "en_US"), [d_entry "izmir" "CITY" ""]. eexists. eexists. exists (s2t "izmir").
  split; [apply (d_header "n" "TUR" "tr_TR")%string; vm_compute; intuition discriminate|]. split; [apply (d_header "n" "TUR" "en_US")%string; vm_compute; intuition discriminate|].
  split; [vm_compute; reflexivity|]. split; [vm_compute; reflexivity|]. vm_compute. intros K. inversion K.
Qed.
Lemma first_bad : exists l h es x, ~ is_header l /\ is_header h /\ load_lexicon ascii_env [] (file (l :: h :: es) []) = Ok x /\ lex_find x (s2t "ST") <> [].
Proof.
  exists (s2t "not a header"), (d_head "n" "ENG" "en_US"), [d_entry "ST" "TYPE" ""]. eexists.
  split; [intros (t & K); discriminate|]. split; [eexists; reflexivity|]. split; [vm_compute; reflexivity|]. vm_compute. discriminate.
Qed.
Lemma crlf_bad : exists ls x m, load_lexicon ascii_env [] (file ls []) = Ok x /\ load_lexicon ascii_env [] (file (map (fun l => l ++ [13]) ls) []) = Throw m.
Proof. exists [d_head "n" "ENG" "en_US"; cols ["LEXENTRY:"; "ST"; "STREET"; "TYPE"]%string]. eexists. eexists. split; vm_compute; reflexivity. Qed.
Lemma ignore_bad : exists m, load_lexicon ascii_env [] (file [d_head "n" "ENG" "en_US"; d_entry "THE" "IGNORE" ""] []) = Throw m.
Proof. eexists. vm_compute. reflexivity. Qed.
Lemma stop_bad : exists x ks, lex_find x (s2t "OF") = [mkLE (s2t "OF") (s2t "OF") [I_STOPWORD] []] /\
  get_tokens ascii_env (mkTz x [I_SPACE]) (s2t "AVENUE OF AMERICAS") = Ok ks /\
  map (fun k => (t_text k, t_in k)) ks = [(s2t "AVENUE", [I_WORD]); (s2t "OF", [I_STOPWORD]); (s2t "AMERICAS", [I_WORD])].
Proof.
  exists (d_lex ascii_env (file [d_head "n" "ENG" "en_US"; d_entry "OF" "STOPWORD" ""] [])). eexists. split; [vm_compute; reflexivity|].
  split; [vm_compute; reflexivity|]. vm_compute. reflexivity.
Qed.
Lemma att_bad : exists x ks, map le_att (lex_find x (s2t "STRASSE")) = [[DET_SUF; ATT_SUF]] /\
  get_tokens ascii_env (mkTz x []) (s2t "HAUPTSTRASSE") = Ok ks /\ map (fun k => (t_text k, t_inlex k, t_att k)) ks = [(s2t "HAUPT", false, []); (s2t "STRASSE", true, [])].
Proof.
  exists (d_lex ascii_env (file [d_head "n" "GER" "de_DE"; d_entry "STRASSE" "TYPE" "DET_SUF,ATT_SUF"] [])). eexists. split; [vm_compute; reflexivity|].
  split; [vm_compute; reflexivity|]. vm_compute. reflexivity.
Qed.
Lemma set_bad : exists x t ks, load_lexicon ascii_env [] t = Ok x /\ get_tokens ascii_env (mkTz x []) (s2t "5 -" ++ 9 :: s2t "- ST") = Ok ks /\
  map (fun k => (t_text k, t_std k)) ks = [(s2t "5", []); (s2t "-", s2t "- "); (s2t "ST", [])].
Proof.
  eexists. exists (file [d_head "n" "ENG" "en_US"; d_entry "ST" "TYPE" ""] []). eexists. split; [vm_compute; reflexivity|]. split; vm_compute; reflexivity.
Qed.
Lemma pct_bad : exists ks, get_tokens ascii_env (mkTz (d_lex ascii_env (file [d_head "n" "ENG" "en_US"] [])) []) (s2t "1AB") = Ok ks /\
  map (fun k => (t_text k, t_in k)) ks = [(s2t "1AB", [I_MIXED; I_PCT])].
Proof. eexists. split; vm_compute; reflexivity. Qed.
(** docs/outclass.md and docs/lexicon.md *)
Definition any_text : text := file [d_head "us" "ENG" "en_US"; d_entry "ST" "TYPE" ""; d_entry "ST" "WORD" ""; d_entry "MA" "PROV" ""; d_entry "USA" "NATION" ""] [].
Definition any_lex : lexicon := d_lex ascii_env any_text.
Lemma any_ex : built any_lex /\ plain_blank ascii_uni /\ ~ In TAB (search_text ascii_env any_lex (s2t "123 MAIN ST ANYTOWN MA 12345 USA")) /\
  blank_lines ascii_uni (search_text ascii_env any_lex (s2t "123 MAIN ST ANYTOWN MA 12345 USA")) /\
  exists ks, get_tokens ascii_env (mkTz any_lex [I_SPACE]) (s2t "123 MAIN ST ANYTOWN MA 12345 USA") = Ok ks /\
  map (fun k => (t_text k, t_in k)) ks =
    [(s2t "123", [I_NUMBER]); (s2t "MAIN", [I_WORD]); (s2t "ST", [I_WORD; I_TYPE]); (s2t "ANYTOWN", [I_WORD]); (s2t "MA", [I_PROV]);
     (s2t "12345", [I_NUMBER; I_QUINT]); (s2t "USA", [I_NATION])].
Proof.
  split; [apply (built_load ascii_env [] any_text); vm_compute; reflexivity|]. split; [exact ascii_blank|]. split; [absent|]. split; [apply ascii_lines; absent|].
  eexists. split; vm_compute; reflexivity.
Qed.
