(** Proofs about the results of the SQL functions by the names of their columns. *)
From Coq Require Import String List NArith ZArith Bool Floats.SpecFloat.
From Verif Require Import Base_model Class_model Float_model Uni_model Token_model Rule_model Search_model Grammar_model Lexicon_model
  Tokenizer_model Archive_model Wrapper_model Wrapper_spec Sample_model Lexicon_spec Wrapper_proofs WrapperTop_proofs WrapperEx_proofs Sql_model Sql_spec.
Import ListNotations.

Lemma strict_none : forall A (null : A) f args, In None args -> strict null f args = null.
Proof.
  intros A null f args H. unfold strict.
  replace (forallb _ args) with false; [reflexivity|]. symmetry.
  apply not_true_is_false. intro T. rewrite forallb_forall in T. specialize (T None H). discriminate T.
Qed.
Lemma strict_nulls : forall e atof sort args, In None args ->
  sql_standardize e atof args = Ok None /\ sql_parse e args = Ok [] /\ sql_match e atof sort args = Ok [].
Proof. intros e atof sort args H. unfold sql_standardize, sql_parse, sql_match. repeat split; apply strict_none; exact H. Qed.

Lemma text_tuple : forall (ns : list text) (vs : list (option text)), List.length ns = List.length vs ->
  form_tuple (map (fun n => (n, T_text)) ns) (map (option_map D_text) vs) = Ok (combine ns (map (option_map D_text) vs)).
Proof.
  induction ns as [|n ns IH]; intros [|v vs] H; try discriminate H; [reflexivity|].
  cbn [map form_tuple combine]. assert (E : of_type T_text (option_map D_text v) = true) by (destruct v; reflexivity). rewrite E.
  rewrite IH by (injection H; auto). reflexivity.
Qed.
Definition titles : list text := map title columns ++ [pattern_title].
Lemma columns_titles : standardize_columns = map (fun n => (n, T_text)) titles.
Proof. vm_compute. reflexivity. Qed.
Lemma tuple_of_words : forall l p, form_tuple standardize_columns (map (option_map D_text) (map (fun c => content c l) columns ++ [Some p])) = Ok (standardized_tuple l p).
Proof. intros l p. rewrite columns_titles, text_tuple by reflexivity. reflexivity. Qed.
Lemma tuple_of_nulls : form_tuple standardize_columns (map (option_map D_text) (repeat None 17)) = Ok null_tuple.
Proof. reflexivity. Qed.

Lemma collect_some : forall x ks ks', Forall2 (fun k k' => standardize_word x k = Ok k') ks ks' -> forall v, exists v', collect x v ks = Ok v'.
Proof. intros x ks ks' F. induction F as [|k k' ks ks' H F IH]; intro v; [eexists; reflexivity|]. cbn [collect]. rewrite H. apply IH. Qed.
Lemma words_same : forall x ks ks1 ks2, Forall2 (fun k k' => standardize_word x k = Ok k') ks ks1 -> Forall2 (fun k k' => standardize_word x k = Ok k') ks ks2 -> ks1 = ks2.
Proof.
  intros x ks ks1 ks2 F. revert ks2. induction F as [|k k' ks ks' H F IH]; intros ks2 G; inversion G; subst; [reflexivity|].
  match goal with A : standardize_word x k = Ok ?y |- _ => rewrite H in A; injection A as <- end. f_equal. apply IH. assumption.
Qed.

Lemma sql_standardize_rows : forall e atof address gr lx locale filt o,
  sql_standardize e atof (map Some [address; gr; lx; locale; filt]) = Ok o <->
  (exists g x phrases b ks, get_grammar e atof gr = Ok g /\ get_lexicon e lx = Ok x /\ make_phrases e x locale filt address = Ok phrases /\
     search_best g phrases = Ok b /\ SFleb (S754_zero false) (b_score b) = true /\ Forall2 (fun k k' => standardize_word x k = Ok k') (b_tokens b) ks /\
     o = Some (standardized_tuple (placed ks) (b_matched b))) \/
  ((std_standardize e atof address gr lx locale filt = Ok None \/ exists m, std_standardize e atof address gr lx locale filt = Throw m) /\ o = Some null_tuple).
Proof.
  intros e atof address gr lx locale filt o. unfold sql_standardize, strict. cbn [map forallb andb flat_map app].
  destruct (std_standardize e atof address gr lx locale filt) as [[r|]|m|] eqn:E.
  - assert (D : exists g x phrases b ks, get_grammar e atof gr = Ok g /\ get_lexicon e lx = Ok x /\ make_phrases e x locale filt address = Ok phrases /\
     search_best g phrases = Ok b /\ SFleb (S754_zero false) (b_score b) = true /\ Forall2 (fun k k' => standardize_word x k = Ok k') (b_tokens b) ks /\
     sa_fields r = map (fun c => content c (placed ks)) columns /\ sa_pattern r = b_matched b).
    { unfold std_standardize in E. destruct (get_grammar e atof gr) as [g| |]; cbn [obind] in E; try discriminate E.
      destruct (get_lexicon e lx) as [x| |]; cbn [obind] in E; try discriminate E. apply address_columns in E.
      destruct E as (ph & b & ks & E). exists g, x, ph, b, ks. repeat (split; [reflexivity|]). exact E. }
    destruct D as (g & x & ph & b & ks & G & X & P & B & S & F & C & T).
    cbn [address_row obind]. rewrite C, T, tuple_of_words. cbn [obind]. split.
    + intro H. left. exists g, x, ph, b, ks. repeat (split; [assumption|]). apply (f_equal (fun o => match o with Ok y => y | _ => None end)) in H. symmetry. exact H.
    + intros [(g' & x' & ph' & b' & ks' & G' & X' & P' & B' & S' & F' & ->)|([H|[m H]] & _)]; try discriminate H.
      rewrite G in G'. injection G' as <-. rewrite X in X'. injection X' as <-. rewrite P in P'. injection P' as <-. rewrite B in B'. injection B' as <-.
      rewrite (words_same _ _ _ _ F F'). reflexivity.
  - cbn [address_row obind]. rewrite tuple_of_nulls. cbn [obind]. split.
    + intro H. right. split; [left; reflexivity|]. apply (f_equal (fun o => match o with Ok y => y | _ => None end)) in H. symmetry. exact H.
    + intros [(g' & x' & ph' & b' & ks' & G' & X' & P' & B' & S' & F' & ->)|(_ & ->)]; [|reflexivity].
      exfalso. unfold std_standardize in E. rewrite G' in E. cbn [obind] in E. rewrite X' in E. cbn [obind] in E. unfold standardize_addr in E. rewrite P' in E. cbn [obind] in E. rewrite B' in E. cbn [obind] in E.
      change (f_le f_zero (b_score b')) with (SFleb (S754_zero false) (b_score b')) in E. rewrite S' in E.
      destruct (collect_some _ _ _ F' (repeat [] 16)) as (v & V). rewrite V in E. discriminate E.
  - cbn [address_row obind]. rewrite tuple_of_nulls. cbn [obind]. split.
    + intro H. right. split; [right; exists m; reflexivity|]. apply (f_equal (fun o => match o with Ok y => y | _ => None end)) in H. symmetry. exact H.
    + intros [(g' & x' & ph' & b' & ks' & G' & X' & P' & B' & S' & F' & ->)|(_ & ->)]; [|reflexivity].
      exfalso. unfold std_standardize in E. rewrite G' in E. cbn [obind] in E. rewrite X' in E. cbn [obind] in E. unfold standardize_addr in E. rewrite P' in E. cbn [obind] in E. rewrite B' in E. cbn [obind] in E.
      change (f_le f_zero (b_score b')) with (SFleb (S754_zero false) (b_score b')) in E. rewrite S' in E.
      destruct (collect_some _ _ _ F' (repeat [] 16)) as (v & V). rewrite V in E. discriminate E.
  - cbn [address_row obind]. split; [intro H; discriminate H|].
    intros [(g' & x' & ph' & b' & ks' & G' & X' & P' & B' & S' & F' & ->)|([H|[m H]] & _)]; try discriminate H.
    exfalso. unfold std_standardize in E. rewrite G' in E. cbn [obind] in E. rewrite X' in E. cbn [obind] in E. unfold standardize_addr in E. rewrite P' in E. cbn [obind] in E. rewrite B' in E. cbn [obind] in E.
    change (f_le f_zero (b_score b')) with (SFleb (S754_zero false) (b_score b')) in E. rewrite S' in E.
    destruct (collect_some _ _ _ F' (repeat [] 16)) as (v & V). rewrite V in E. discriminate E.
Qed.
Lemma sql_standardize_defined : forall e atof address gr lx locale filt,
  (sql_standardize e atof (map Some [address; gr; lx; locale; filt]) = UB <-> std_standardize e atof address gr lx locale filt = UB) /\
  forall m, sql_standardize e atof (map Some [address; gr; lx; locale; filt]) <> Throw m.
Proof.
  intros e atof address gr lx locale filt. unfold sql_standardize, strict. cbn [map forallb andb flat_map app].
  destruct (std_standardize e atof address gr lx locale filt) as [[r|]|m|] eqn:E.
  - unfold std_standardize in E. destruct (get_grammar e atof gr) as [g| |]; cbn [obind] in E; try discriminate E.
    destruct (get_lexicon e lx) as [x| |]; cbn [obind] in E; try discriminate E. apply address_columns in E.
    destruct E as (ph & b & ks & _ & _ & _ & _ & C & T). cbn [address_row obind]. rewrite C, T, tuple_of_words. split; [split|intro m]; intro H; discriminate H.
  - cbn [address_row obind]. rewrite tuple_of_nulls. split; [split|intro m]; intro H; discriminate H.
  - cbn [address_row obind]. rewrite tuple_of_nulls. split; [split|intro m']; intro H; discriminate H.
  - split; [split; reflexivity|]. intros m H. discriminate H.
Qed.

Lemma omap_map : forall A B (f : A -> outcome B) (g : A -> B) l, (forall a, f a = Ok (g a)) -> omap f l = Ok (map g l).
Proof. intros A B f g l H. induction l as [|a l IH]; [reflexivity|]. cbn [omap map]. rewrite H. cbn [obind]. rewrite IH. reflexivity. Qed.
Lemma sql_parse_rows : forall e address lx locale filt, sql_parse e (map Some [address; lx; locale; filt]) =
  match std_parse_address e address lx locale filt with Ok rows => Ok (map parse_tuple rows) | Throw _ => Ok [] | UB => UB end.
Proof.
  intros e address lx locale filt. unfold sql_parse, strict. cbn [map forallb andb flat_map app].
  destruct (std_parse_address e address lx locale filt) as [rows|m|]; [|reflexivity..]. cbn [parse_table obind].
  induction rows as [|r rows IH]; [reflexivity|]. cbn [map omap]. rewrite IH. reflexivity.
Qed.
Lemma sql_match_rows : forall e atof sort address gr lx locale filt, sql_match e atof sort (map Some [address; gr; lx; locale; filt]) =
  match std_match_address e atof sort address gr lx locale filt with Ok rows => Ok (map match_tuple rows) | Throw _ => Ok [] | UB => UB end.
Proof.
  intros e atof sort address gr lx locale filt. unfold sql_match, strict. cbn [map forallb andb flat_map app].
  destruct (std_match_address e atof sort address gr lx locale filt) as [rows|m|]; [|reflexivity..]. cbn [match_table obind].
  apply omap_map. reflexivity.
Qed.

(** Other numbers of arguments. *)
Lemma strict_all : forall A (null : A) f ts, strict null f (map Some ts) = f ts.
Proof.
  intros A null f ts. unfold strict.
  assert (E1 : forallb (fun a : option text => match a with Some _ => true | None => false end) (map Some ts) = true) by (induction ts; [reflexivity|exact IHts]).
  assert (E2 : flat_map (fun a : option text => match a with Some t => [t] | None => [] end) (map Some ts) = ts) by (clear; induction ts as [|t ts IH]; [reflexivity|cbn; rewrite IH; reflexivity]).
  rewrite E1, E2. reflexivity.
Qed.
Lemma other_arguments : forall e atof sort ts,
  (List.length ts <> 5%nat -> sql_standardize e atof (map Some ts) = Throw (s2t "function does not exist") /\ sql_match e atof sort (map Some ts) = Throw (s2t "function does not exist")) /\
  (List.length ts <> 4%nat -> sql_parse e (map Some ts) = Throw (s2t "function does not exist")).
Proof.
  intros e atof sort ts. unfold sql_standardize, sql_match, sql_parse. rewrite !strict_all.
  destruct ts as [|a [|b [|c [|d [|f [|g ts]]]]]]; cbn [List.length]; (split; [intros H; try (split; reflexivity)|intros H; try reflexivity]); destruct (H eq_refl).
Qed.

(** The number of rules of a match is not in the result. *)
Definition q_one : text := s2t "[ADDRESS]
NUMBER WORD -> HOUSE STREET -> 0.5
".
Definition q_two : text := s2t "[ADDRESS]
@house @street
[house]
NUMBER -> HOUSE -> 0.5
[street]
WORD -> STREET -> 0.5
".
Definition q_addr : text := s2t "12 Main".
Definition q_rows (gr : text) : list mresult := match std_match_address ascii_env sample_atof by_score q_addr gr w_lexicon en w_filter with Ok l => l | _ => [] end.
Lemma q_one_rows : std_match_address ascii_env sample_atof by_score q_addr q_one w_lexicon en w_filter = Ok (q_rows q_one).
Proof. vm_compute. reflexivity. Qed.
Lemma q_two_rows : std_match_address ascii_env sample_atof by_score q_addr q_two w_lexicon en w_filter = Ok (q_rows q_two).
Proof. vm_compute. reflexivity. Qed.
Lemma rules_hidden : exists e atof sort address g1 g2 lx locale filt r1 r2,
  std_match_address e atof sort address g1 lx locale filt = Ok [r1] /\ std_match_address e atof sort address g2 lx locale filt = Ok [r2] /\ m_nrules r1 <> m_nrules r2 /\
  sql_match e atof sort (map Some [address; g1; lx; locale; filt]) = sql_match e atof sort (map Some [address; g2; lx; locale; filt]).
Proof.
  exists ascii_env, sample_atof, by_score, q_addr, q_one, q_two, w_lexicon, en, w_filter, (hd (mkMR [] f_zero f_zero) (q_rows q_one)), (hd (mkMR [] f_zero f_zero) (q_rows q_two)).
  split; [vm_compute; reflexivity|]. split; [vm_compute; reflexivity|]. split; [vm_compute; intro H; discriminate H|].
  rewrite !sql_match_rows, q_one_rows, q_two_rows. vm_compute. reflexivity.
Qed.
Lemma sql_example : exists t, sql_standardize ascii_env sample_atof (map Some [w_addr; w_grammar; w_lexicon; en; w_filter]) = Ok (Some t) /\
  In (s2t "house_num", Some (D_text (s2t "12"))) t /\ In (s2t "name", Some (D_text (s2t "MAIN"))) t /\ In (s2t "box", Some (D_text (s2t "PO BOX 7"))) t /\
  In (s2t "city", None) t.
Proof.
  eexists. split.
  - unfold sql_standardize, strict. cbn [map forallb andb flat_map app]. rewrite w_call. cbn [address_row obind sa_fields sa_pattern app map option_map]. reflexivity.
  - unfold some. cbn [In]. repeat split; auto 20.
Qed.
Lemma sql_rows_example : sql_parse ascii_env (map Some [q_addr; w_lexicon; en; w_filter]) =
  Ok [[(s2t "pat", Some (D_int 1)); (s2t "seq", Some (D_int 1)); (s2t "word", Some (D_text (s2t "12"))); (s2t "inclass", Some (D_text (s2t "NUMBER"))); (s2t "attached", Some (D_text []))];
      [(s2t "pat", Some (D_int 1)); (s2t "seq", Some (D_int 2)); (s2t "word", Some (D_text (s2t "MAIN"))); (s2t "inclass", Some (D_text (s2t "WORD"))); (s2t "attached", Some (D_text []))]]%N.
Proof. vm_compute. reflexivity. Qed.

(** ** Tuples *)
Lemma of_type_spec : forall t v, of_type t v = true <-> has_type t v.
Proof. intros t v. split; [|intros []; reflexivity]. destruct t, v as [[]|]; intros H; try discriminate; constructor. Qed.
Lemma tuple_formed : forall cols values t, form_tuple cols values = Ok t <->
  exists used more, values = used ++ more /\ Forall2 (fun c v => has_type (snd c) v) cols used /\ t = combine (map fst cols) used.
Proof.
  induction cols as [|(n, ty) cols IH]; intros values t; split.
  - intros H. injection H as <-. exists [], values. split; [reflexivity|]. split; [constructor|reflexivity].
  - intros (used & more & -> & F & ->). inversion F; subst. reflexivity.
  - destruct values as [|v vs]; cbn [form_tuple]; [discriminate|]. destruct (of_type ty v) eqn:T; [|discriminate]. destruct (form_tuple cols vs) as [r|m|] eqn:R; cbn [obind]; try discriminate. intros H. injection H as <-.
    apply IH in R. destruct R as (used & more & -> & F & ->). exists (v :: used), more. split; [reflexivity|]. split; [constructor; [apply of_type_spec; exact T|exact F]|reflexivity].
  - intros (used & more & -> & F & ->). inversion F as [|c v l u H F']; subst. cbn [form_tuple app]. cbn [snd] in H. rewrite (proj2 (of_type_spec ty v) H). rewrite (proj2 (IH (u ++ more) (combine (map fst cols) u))); [reflexivity|]. exists u, more. auto.
Qed.
Lemma tuple_else : forall cols values, (exists t, form_tuple cols values = Ok t) \/ form_tuple cols values = UB.
Proof.
  induction cols as [|(n, ty) cols IH]; intros values; [left; eexists; reflexivity|]. destruct values as [|v vs]; cbn [form_tuple]; [right; reflexivity|]. destruct (of_type ty v); [|right; reflexivity].
  destruct (IH vs) as [(t & ->)| ->]; cbn [obind]; [left; eexists; reflexivity|right; reflexivity].
Qed.
Lemma tuple_all : forall cols values, (forall t, form_tuple cols values = Ok t <->
    exists used more, values = used ++ more /\ Forall2 (fun c v => has_type (snd c) v) cols used /\ t = combine (map fst cols) used) /\
  ((exists t, form_tuple cols values = Ok t) \/ form_tuple cols values = UB).
Proof. intros cols values. split; [apply tuple_formed|apply tuple_else]. Qed.
