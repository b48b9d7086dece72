From Coq Require Import String List NArith Bool Lia.
From Verif Require Import Base_model LexFile_spec ShippedLex_model ShippedLex_spec ShippedLex_proofs Tools_model Tools_spec.
Import ListNotations.
Local Open Scope N_scope.

(** ** Literals *)
Lemma literal_fun : forall s v r v' r', literal s v r -> literal s v' r' -> v = v' /\ r = r'.
Proof.
  intros s v r v' r' H. revert v' r'. induction H as [rest N0|c s v rest K H IH|s v rest H IH]; intros v' r' H'.
  - inversion H'; subst; [split; reflexivity|congruence|]. exfalso. eapply N0. reflexivity.
  - inversion H'; subst; [congruence| |congruence]. match goal with A : literal s ?a ?b |- _ => destruct (IH _ _ A) as (-> & ->) end. split; reflexivity.
  - inversion H'; subst; [exfalso; match goal with A : forall r, _ <> 39 :: r |- _ => eapply A; reflexivity end|congruence|].
    match goal with A : literal s ?a ?b |- _ => destruct (IH _ _ A) as (-> & ->) end. split; reflexivity.
Qed.
Lemma literal_quote : forall v rest, (forall r, rest <> 39 :: r) -> literal (sql_quote v ++ 39 :: rest) v rest.
Proof.
  intros v rest H. induction v as [|c v IH]; [constructor; exact H|]. unfold sql_quote in *. cbn [flat_map]. destruct (N.eqb_spec c 39) as [->|K].
  - cbn [app]. apply lit_quote. exact IH.
  - cbn [app]. apply lit_char; [exact K|exact IH].
Qed.
Lemma quote_plain : forall v, unquoted v -> sql_quote v = v.
Proof.
  intros v H. induction v as [|c v IH]; [reflexivity|]. unfold sql_quote in *. cbn [flat_map]. destruct (N.eqb_spec c 39) as [->|K]; [destruct H; left; reflexivity|].
  cbn [app]. f_equal. apply IH. intros I. apply H. right. exact I.
Qed.
Lemma row_fun : forall s vs vs', row s vs -> row s vs' -> vs = vs'.
Proof.
  intros s vs vs' H. revert vs'. induction H as [s v L|s v rest vs L R IH]; intros vs' H'; inversion H' as [s' v' L'|s' v' rest' vs'' L' R']; subst;
    destruct (literal_fun _ _ _ _ _ L L') as (-> & E); [reflexivity|discriminate E|discriminate E|]. injection E as <-. f_equal. apply IH. exact R'.
Qed.
(** ** Cutting *)
Definition glue (p : text) (l : list text) : list text := match l with x :: xs => (p ++ x) :: xs | [] => [p] end.
Lemma stm_ne : forall t q, statements q t <> [].
Proof. induction t as [|c t IH]; intros q; cbn [statements]; [discriminate|]. destruct ((c =? 59) && negb q); [discriminate|]. destruct (statements _ t); discriminate. Qed.
Lemma glue_glue : forall a b l, l <> [] -> glue a (glue b l) = glue (a ++ b) l.
Proof. intros a b [|x l] H; [congruence|]. cbn [glue]. rewrite app_assoc. reflexivity. Qed.
Lemma glue_ne : forall p l, glue p l <> [].
Proof. intros p [|x l]; discriminate. Qed.
Lemma stm_noq : forall a b, unquoted a -> statements true (a ++ b) = glue a (statements true b).
Proof.
  induction a as [|c a IH]; intros b H; [cbn [app]; destruct (statements true b) eqn:E; [destruct (stm_ne _ _ E)|reflexivity]|].
  cbn [app statements]. rewrite andb_false_r. destruct (N.eqb_spec c 39) as [->|K]; [destruct H; left; reflexivity|].
  rewrite IH by (intros I; apply H; right; exact I). destruct (statements true b) eqn:E; [destruct (stm_ne _ _ E)|reflexivity].
Qed.
Definition calm (t : text) : bool := forallb (fun c => negb (c =? 39) && negb (c =? 59)) t.
Lemma stm_calm : forall a b q, calm a = true -> statements q (a ++ b) = glue a (statements q b).
Proof.
  induction a as [|c a IH]; intros b q H; [cbn [app]; destruct (statements q b) eqn:E; [destruct (stm_ne _ _ E)|reflexivity]|].
  unfold calm in H. cbn [forallb] in H. apply andb_true_iff in H. destruct H as (H & H2). apply andb_true_iff in H. destruct H as (H & H1). rewrite negb_true_iff in H, H1.
  cbn [app statements]. rewrite H, H1. cbn [andb]. rewrite (IH b q H2). destruct (statements q b) eqn:E; [destruct (stm_ne _ _ E)|reflexivity].
Qed.
Lemma stm_quote : forall b q, statements q (39 :: b) = glue [39] (statements (negb q) b).
Proof. intros b q. cbn [statements]. change (39 =? 59) with false. change (39 =? 39) with true. cbn [andb]. destruct (statements (negb q) b) eqn:E; [destruct (stm_ne _ _ E)|reflexivity]. Qed.
Lemma stm_value : forall v b, statements true (sql_quote v ++ b) = glue (sql_quote v) (statements true b).
Proof.
  induction v as [|c v IH]; intros b; [cbn [sql_quote flat_map app]; destruct (statements true b) eqn:E; [destruct (stm_ne _ _ E)|reflexivity]|].
  unfold sql_quote in *. cbn [flat_map]. rewrite <- app_assoc. destruct (N.eqb_spec c 39) as [->|K].
  - cbn [app]. rewrite !stm_quote. cbn [negb]. rewrite IH, !glue_glue by apply stm_ne || apply glue_ne. cbn [app]. reflexivity.
  - assert (G := stm_noq [c] (flat_map (fun c0 => if c0 =? 39 then [39; 39] else [c0]) v ++ b)). cbn [app] in G |- *. rewrite G by (intros [Z|[]]; congruence).
    rewrite IH. rewrite glue_glue by apply stm_ne. reflexivity.
Qed.
Lemma stm_end : forall b, statements false (59 :: b) = [] :: statements false b.
Proof. intros b. reflexivity. Qed.

(** ** The script *)
Definition insert_stmt (country dataset lex gmr : text) : text :=
  LF :: s2t "insert into as_config (countrycode, countryname, dataset, lexicon, grammar, filter) values ( " ++ 39 :: country_code lex ++ 39 :: 44 :: 32 :: 39 :: country ++
  39 :: 44 :: 32 :: 39 :: dataset ++ 39 :: 44 :: 32 :: 39 :: sql_quote lex ++ 39 :: 44 :: 32 :: 39 :: sql_quote gmr ++ 39 :: 44 :: 32 :: 39 :: s2t "PUNCT,SPACE,DASH" ++ 39 :: s2t " )".
Lemma insert_eq : forall country dataset lex gmr, LF :: insert_text country dataset lex gmr = insert_stmt country dataset lex gmr ++ 59 :: [LF].
Proof.
  intros. unfold insert_text, insert_stmt. cbn [app]. f_equal.
  change (s2t "insert into as_config (countrycode, countryname, dataset, lexicon, grammar, filter) values ( '") with
    (s2t "insert into as_config (countrycode, countryname, dataset, lexicon, grammar, filter) values ( " ++ [39]).
  change (s2t "', '") with [39; 44; 32; 39]. change (s2t "', 'PUNCT,SPACE,DASH' );") with (39 :: 44 :: 32 :: 39 :: s2t "PUNCT,SPACE,DASH" ++ 39 :: s2t " )" ++ [59]).
  repeat (rewrite <- ?app_assoc; cbn [app]). reflexivity.
Qed.
Lemma lit_plain : forall v rest, unquoted v -> (forall r, rest <> 39 :: r) -> literal (v ++ 39 :: rest) v rest.
Proof. intros v rest H K. rewrite <- (quote_plain v H) at 1. apply literal_quote. exact K. Qed.
Lemma stmt_row : forall country dataset lex gmr, unquoted (country_code lex) -> unquoted country -> unquoted dataset ->
  forall vs, inserts (insert_stmt country dataset lex gmr) vs <-> vs = [country_code lex; country; dataset; lex; gmr; s2t "PUNCT,SPACE,DASH"].
Proof.
  intros country dataset lex gmr A B C vs.
  assert (R : row (39 :: country_code lex ++ 39 :: 44 :: 32 :: 39 :: country ++
    39 :: 44 :: 32 :: 39 :: dataset ++ 39 :: 44 :: 32 :: 39 :: sql_quote lex ++ 39 :: 44 :: 32 :: 39 :: sql_quote gmr ++ 39 :: 44 :: 32 :: 39 :: s2t "PUNCT,SPACE,DASH" ++ 39 :: s2t " )")
    [country_code lex; country; dataset; lex; gmr; s2t "PUNCT,SPACE,DASH"]).
  { eapply row_more; [apply lit_plain; [exact A|discriminate]|]. eapply row_more; [apply lit_plain; [exact B|discriminate]|].
    eapply row_more; [apply lit_plain; [exact C|discriminate]|]. eapply row_more; [apply literal_quote; discriminate|].
    eapply row_more; [apply literal_quote; discriminate|]. apply row_last. apply lit_plain; [intros I; vm_compute in I; repeat (destruct I as [I|I]; [discriminate I|]); exact I|discriminate]. }
  split.
  - intros (r & E & R'). unfold insert_stmt in E. injection E as E. rewrite <- E in R'. exact (row_fun _ _ _ R' R).
  - intros ->. eexists. split; [reflexivity|exact R].
Qed.
Lemma stm_insert : forall country dataset lex gmr b, unquoted (country_code lex) -> unquoted country -> unquoted dataset ->
  statements false (insert_stmt country dataset lex gmr ++ 59 :: b) = insert_stmt country dataset lex gmr :: statements false b.
Proof.
  intros country dataset lex gmr b A B C. unfold insert_stmt. set (ins := s2t "insert into as_config (countrycode, countryname, dataset, lexicon, grammar, filter) values ( ").
  change (LF :: ins ++ ?x) with ((LF :: ins) ++ x). assert (I : calm (LF :: ins) = true) by (vm_compute; reflexivity). generalize dependent (LF :: ins). clear ins. intros ins I.
  assert (F : calm (s2t "PUNCT,SPACE,DASH") = true) by reflexivity. generalize dependent (s2t "PUNCT,SPACE,DASH"). intros fl F.
  assert (Z : calm (s2t " )") = true) by reflexivity. generalize dependent (s2t " )"). intros z Z.
  assert (CB : forall x, statements false (44 :: 32 :: x) = glue [44; 32] (statements false x)) by (intros x; apply (stm_calm [44; 32] x false eq_refl)).
  repeat (rewrite <- ?app_assoc; cbn [app]).
  repeat first [rewrite (stm_calm ins) by exact I | rewrite (stm_calm fl) by exact F | rewrite (stm_calm z) by exact Z | rewrite stm_quote; cbn [negb] | rewrite CB
               | rewrite (stm_noq (country_code lex)) by exact A | rewrite (stm_noq country) by exact B | rewrite (stm_noq dataset) by exact C | rewrite stm_value | rewrite stm_end].
  cbn [glue]. rewrite ?app_nil_r. repeat (rewrite <- ?app_assoc; cbn [app]). reflexivity.
Qed.

Lemma flat_inserts : forall dataset fs b, unquoted dataset -> Forall (fun f => unquoted (ff_country f) /\ unquoted (country_code (ff_lex f))) fs ->
  exists ins, Forall2 (fun f st => exists g, ff_gmr f = Some g /\ forall vs, inserts st vs <-> vs = row_of dataset f g) (filter (fun f => match ff_gmr f with Some _ => true | None => false end) fs) ins /\
    statements false (LF :: flat_map (fun f => match ff_gmr f with Some g => insert_text (ff_country f) dataset (ff_lex f) g | None => [] end) fs ++ b) = ins ++ statements false (LF :: b).
Proof.
  intros dataset fs b D H. induction H as [|f fs (A & B) H IH]; [exists []; split; [constructor|reflexivity]|]. destruct IH as (ins & F & E). cbn [flat_map filter].
  destruct (ff_gmr f) as [g|] eqn:G; [|exists ins; split; [exact F|exact E]].
  exists (insert_stmt (ff_country f) dataset (ff_lex f) g :: ins). split.
  - constructor; [|exact F]. exists g. split; [exact G|]. apply stmt_row; assumption.
  - rewrite <- app_assoc. rewrite app_comm_cons. rewrite insert_eq. rewrite <- app_assoc. cbn [app]. rewrite stm_insert by assumption. cbn [app]. f_equal. exact E.
Qed.
Lemma script_split : forall create dataset fs, unquoted dataset -> Forall (fun f => unquoted (ff_country f) /\ unquoted (country_code (ff_lex f))) fs ->
  exists ins, Forall2 (fun f st => exists g, ff_gmr f = Some g /\ forall vs, inserts st vs <-> vs = row_of dataset f g) (filter (fun f => match ff_gmr f with Some _ => true | None => false end) fs) ins /\
    statements false (load_script create dataset fs) = opening create fs ++ ins ++ closing.
Proof.
  intros create dataset fs D H.
  set (tl := s2t "update as_config set clexicon=as_compile_lexicon(lexicon);" ++ [LF] ++
  s2t "create index as_config_countrycode_idx on as_config using btree (countrycode);" ++ [LF] ++
  s2t "commit;" ++ [LF] ++ s2t "analyze as_config;" ++ [LF]).
  destruct (flat_inserts dataset fs tl D H) as (ins & F & E). exists ins. split; [exact F|].
  assert (TL : statements false (LF :: tl) = closing) by (vm_compute; reflexivity). rewrite TL in E.
  unfold load_script. fold tl. change LF with 10 in *. generalize dependent tl. intros tl E _.
  set (mid := flat_map _ fs) in *. clearbody mid. clear F H D.
  assert (P : forall x, statements false (s2t "set client_encoding to 'utf8';" ++ [10] ++ s2t "begin;" ++ x) = s2t "set client_encoding to 'utf8'" :: (10 :: s2t "begin") :: statements false x)
    by (intros x; reflexivity).
  change (s2t "set client_encoding to 'utf8';" ++ [10] ++ s2t "begin;" ++ [10] ++ ?x) with (s2t "set client_encoding to 'utf8';" ++ [10] ++ s2t "begin;" ++ (10 :: x)). rewrite P.
  unfold opening. cbn [app]. do 2 f_equal. destruct fs as [|f fs]; [exact E|]. destruct create; [|exact E].
  change (10 :: create_text ++ mid ++ tl) with ((10 :: create_text) ++ mid ++ tl).
  assert (Q : exists c, 10 :: create_text = c ++ [10] /\ forall x, statements false (c ++ x) = (10 :: s2t "drop table if exists as_config cascade") :: (10 :: table_stmt) :: statements false x).
  { exists (10 :: removelast create_text). split; [vm_compute; reflexivity|]. intros x. reflexivity. }
  destruct Q as (c & Q1 & Q2). rewrite Q1, <- app_assoc, Q2. cbn [app]. do 2 f_equal. exact E.
Qed.

(** ** The codes of the shipped lexicons *)
Lemma codes_computed : map (fun ps => country_code (lex_text ps)) shipped_lexicons = shipped_codes.
Proof. vm_compute. reflexivity. Qed.

Lemma codes_shipped : Forall2 (fun ps code => forall t, text_of ps t -> country_code t = code) shipped_lexicons shipped_codes.
Proof.
  assert (G : forall l, (forall ps, In ps l -> In ps shipped_lexicons) -> Forall2 (fun ps code => forall t, text_of ps t -> country_code t = code) l (map (fun ps => country_code (lex_text ps)) l)).
  { induction l as [|ps l IH]; intros H; [constructor|]. cbn [map]. constructor; [|apply IH; intros q I; apply H; right; exact I].
    intros t T. rewrite (text_unique ps t (lex_text ps) T (shipped_text_of ps (H ps (or_introl eq_refl)))). reflexivity. }
  rewrite <- codes_computed. apply G. auto.
Qed.
Lemma texts_eqb : forall a b, teqb a b = true <-> a = b.
Proof.
  induction a as [|x a IH]; intros [|y b]; cbn [teqb]; try (split; discriminate); [split; reflexivity|]. rewrite andb_true_iff, N.eqb_eq, IH.
  split; [intros (-> & ->); reflexivity|intros E; injection E as -> ->; split; reflexivity].
Qed.
Lemma codes_twice : exists ps ps' t t', In ps shipped_lexicons /\ In ps' shipped_lexicons /\ text_of ps t /\ text_of ps' t' /\ t <> t' /\ country_code t = country_code t'.
Proof.
  assert (I : In slex_italy shipped_lexicons) by (unfold shipped_lexicons; repeat (first [left; reflexivity | right])).
  assert (V : In slex_vatican shipped_lexicons) by (unfold shipped_lexicons; repeat (first [left; reflexivity | right])).
  assert (K : (teqb (firstn 20 (lex_text slex_italy)) (firstn 20 (lex_text slex_vatican)), teqb (country_code (lex_text slex_italy)) (country_code (lex_text slex_vatican))) = (false, true))
    by (vm_compute; reflexivity).
  exists slex_italy, slex_vatican, (lex_text slex_italy), (lex_text slex_vatican). split; [exact I|]. split; [exact V|]. split; [exact (shipped_text_of _ I)|]. split; [exact (shipped_text_of _ V)|].
  apply pair_equal_spec in K. destruct K as (K1 & K2). split.
  - intros E. assert (Z : teqb (firstn 20 (lex_text slex_italy)) (firstn 20 (lex_text slex_vatican)) = true) by (apply texts_eqb; apply f_equal; exact E). rewrite Z in K1. discriminate K1.
  - apply texts_eqb. exact K2.
Qed.
Definition ivory : found_file := mkFound (s2t "cote d'ivoire") (s2t "LEXICON:" ++ [9] ++ s2t "x" ++ [9] ++ s2t "FRE" ++ [9] ++ s2t "fr_CI" ++ [10]) (Some []).
Lemma ivory_refutes : exists dataset f, unquoted dataset /\ unquoted (country_code (ff_lex f)) /\ ff_gmr f <> None /\
  forall st, statements false (load_script false dataset [f]) <> opening false [f] ++ [st] ++ closing.
Proof.
  exists (s2t "sample"), ivory.
  assert (U : forall t, forallb (fun c => negb (c =? 39)) t = true -> unquoted t).
  { intros t F I. rewrite forallb_forall in F. apply F in I. discriminate I. }
  split; [apply U; reflexivity|]. split; [apply U; vm_compute; reflexivity|]. split; [discriminate|].
  intros st E. apply (f_equal (@List.length text)) in E. vm_compute in E. discriminate E.
Qed.

(** ** compare-lexicon *)
Lemma fields_columns : forall d t, columns d t (fields d t).
Proof.
  intros d t. induction t as [|c t IH]; cbn [fields]; [apply col_last; intros []|]. destruct (N.eqb_spec c d) as [->|K].
  - apply (col_more d [] t); [intros []|exact IH].
  - inversion IH as [u U E1 E2|a u cs A C E1 E2].
    + subst u. apply col_last. intros [Z|Z]; [congruence|exact (U Z)].
    + apply (col_more d (c :: a) u cs); [intros [Z|Z]; [congruence|exact (A Z)]|exact C].
Qed.
Lemma columns_fun : forall d t cs cs', columns d t cs -> columns d t cs' -> cs = cs'.
Proof.
  intros d t cs cs' H. revert cs'. induction H as [t H|a t cs A H IH]; intros cs' H'; inversion H' as [u U E1 E2|b u cs2 B C E1 E2]; subst.
  - reflexivity.
  - destruct H. apply in_elt.
  - destruct U. apply in_elt.
  - assert (Z : a = b /\ t = u).
    { clear - A B E1. revert b B E1. induction a as [|x a IH]; intros [|y b] B E1; cbn [app] in E1.
      - injection E1 as E1. split; [reflexivity|symmetry; exact E1 || exact E1].
      - injection E1 as E1 _. destruct B. left. exact E1.
      - injection E1 as E1 _. destruct A. left. symmetry. exact E1.
      - injection E1 as E1 E2. subst. destruct (IH (fun I => A (or_intror I)) b (fun I => B (or_intror I)) E2) as (-> & ->). split; reflexivity. }
    destruct Z as (-> & ->). f_equal. apply IH. exact C.
Qed.
Lemma space_iff : forall c, perl_space c = true <-> c = 32 \/ 9 <= c <= 13.
Proof. intros c. unfold perl_space. rewrite orb_true_iff, andb_true_iff, N.eqb_eq, !N.leb_le. reflexivity. Qed.
Lemma telling_iff : forall l, skipped l = false <-> telling l.
Proof.
  induction l as [|c l IH]; cbn [skipped].
  - split; [discriminate|]. intros (a & c & b & E & _). destruct a; discriminate E.
  - destruct (perl_space c) eqn:P.
    + rewrite IH. split.
      * intros (a & d & b & -> & A & R). exists (c :: a), d, b. split; [reflexivity|]. split; [constructor; [apply space_iff; exact P|exact A]|exact R].
      * intros ([|x a] & d & b & E & A & D1 & D2 & D3); cbn [app] in E; injection E as <- E.
        { apply space_iff in P. destruct P; contradiction. }
        inversion A; subst. exists a, d, b. repeat (split; [assumption||reflexivity|]). assumption.
    + assert (K : ~ (c = 32 \/ 9 <= c <= 13)) by (rewrite <- space_iff; congruence). split.
      * intros E. apply N.eqb_neq in E. exists [], c, l. repeat split; [constructor|exact E| |]; intros Z; apply K; auto.
      * intros ([|x a] & d & b & E & A & D1 & D2 & D3); cbn [app] in E; injection E as <- E.
        { apply N.eqb_neq. exact D1. }
        inversion A; subst. contradiction.
Qed.
Lemma keeps_filter : forall ls, keeps ls (filter (fun l => negb (skipped l)) ls).
Proof.
  induction ls as [|l ls IH]; [constructor|]. cbn [filter]. destruct (skipped l) eqn:E; cbn [negb].
  - apply kp_no; [|exact IH]. rewrite <- telling_iff. congruence.
  - apply kp_yes; [|exact IH]. apply telling_iff. exact E.
Qed.
Lemma keeps_fun : forall ls es es', keeps ls es -> keeps ls es' -> es = es'.
Proof.
  intros ls es es' H. revert es'. induction H as [|l ls es T H IH|l ls es T H IH]; intros es' H'; inversion H'; subst; try contradiction; [reflexivity|f_equal; auto|auto].
Qed.
Lemma last_line : forall ls, filter (fun l => negb (skipped l)) (match rev ls with [] :: r => rev r | _ => ls end) = filter (fun l => negb (skipped l)) ls.
Proof.
  intros ls. destruct (rev ls) as [|[|c l] r] eqn:E; [reflexivity| |reflexivity]. assert (L : ls = rev r ++ [[]]) by (rewrite <- (rev_involutive ls), E; reflexivity).
  rewrite L, filter_app. cbn. rewrite app_nil_r. reflexivity.
Qed.
Lemma begins_iff : forall p t, begins p t = true <-> exists r, t = p ++ r.
Proof.
  induction p as [|a p IH]; intros t; cbn [begins].
  - split; [intros _; exists t; reflexivity|reflexivity].
  - destruct t as [|b t]; [split; [discriminate|intros (r & E); discriminate E]|]. rewrite andb_true_iff, N.eqb_eq, IH. split.
    + intros (-> & r & ->). exists r. reflexivity.
    + intros (r & E). injection E as -> ->. split; [reflexivity|]. exists r. reflexivity.
Qed.
Lemma lines_of : forall t es, entry_lines t es -> lexicon_lines t = Some es.
Proof.
  intros t es (ls & h & C & K & B). unfold lexicon_lines, file_lines. rewrite last_line. change LF with 10. rewrite (columns_fun _ _ _ _ (fields_columns 10 t) C).
  rewrite (keeps_fun _ _ _ (keeps_filter ls) K). apply begins_iff in B. rewrite B. reflexivity.
Qed.
Lemma compare_exactly : forall a b ea eb, entry_lines a ea -> entry_lines b eb ->
  compare_lexicon a b = Some (match ea with [] => concat (map (fun l => l ++ [10]) eb) | _ => [] end).
Proof.
  intros a b ea eb A B. unfold compare_lexicon. rewrite (lines_of a ea A), (lines_of b eb B). destruct ea; [|reflexivity]. rewrite flat_map_concat_map. reflexivity.
Qed.
Definition cmp_a : text := s2t "LEXICON:" ++ 9 :: s2t "a" ++ 10 :: s2t "LEXENTRY:" ++ 9 :: s2t "ST" ++ 9 :: s2t "STREET" ++ 9 :: s2t "TYPE" ++ [10].
Definition cmp_line : text := s2t "LEXENTRY:" ++ 9 :: s2t "RD" ++ 9 :: s2t "ROAD" ++ 9 :: s2t "TYPE".
Definition cmp_b : text := s2t "# roads" ++ 10 :: s2t "LEXICON:" ++ 9 :: s2t "b" ++ 10 :: cmp_line ++ [10].
Lemma entries_by : forall t h es, filter (fun l => negb (skipped l)) (fields 10 t) = h :: es -> begins (s2t "LEXICON:") h = true -> entry_lines t es.
Proof. intros t h es F B. exists (fields 10 t), h. split; [apply fields_columns|]. split; [rewrite <- F; apply keeps_filter|apply begins_iff; exact B]. Qed.
Lemma cmp_a_lines : entry_lines cmp_a [s2t "LEXENTRY:" ++ 9 :: s2t "ST" ++ 9 :: s2t "STREET" ++ 9 :: s2t "TYPE"].
Proof. eapply entries_by; vm_compute; reflexivity. Qed.
Lemma cmp_b_lines : entry_lines cmp_b [cmp_line].
Proof. eapply entries_by; vm_compute; reflexivity. Qed.
Lemma word_by : forall l a w cs, fields 9 l = a :: w :: cs -> a = s2t "LEXENTRY:" -> entry_word l w.
Proof. intros l a w cs E A. exists (fields 9 l). split; [apply fields_columns|]. rewrite E. right. split; [exact A|reflexivity]. Qed.
Lemma compare_wrong : exists a b ea eb, entry_lines a ea /\ entry_lines b eb /\
  forall out, compare_lexicon a b = Some (concat (map (fun l => l ++ [10]) out)) -> ~ compares ea eb out.
Proof.
  exists cmp_a, cmp_b. eexists. eexists. split; [exact cmp_a_lines|]. split; [exact cmp_b_lines|].
  intros out E H. rewrite (compare_exactly _ _ _ _ cmp_a_lines cmp_b_lines) in E. assert (O : out = []).
  { destruct out as [|[|x l] out]; [reflexivity|discriminate E|discriminate E]. }
  subst out. assert (W : entry_word cmp_line (s2t "RD")) by (eapply word_by; vm_compute; reflexivity).
  apply (H cmp_line (s2t "RD") (or_introl eq_refl) W). intros l' [<-|[]] (cs & C & M).
  rewrite (columns_fun _ _ _ _ C (fields_columns 9 _)) in M. vm_compute in M. destruct M as [(_ & M)|(_ & M)]; discriminate M.
Qed.

(** ** The code *)
Lemma contains_iff : forall p t, contains p t = true <-> exists a b, t = a ++ p ++ b.
Proof.
  intros p t. induction t as [|c t IH]; cbn [contains]; rewrite orb_true_iff, begins_iff.
  - split; [intros [(r & E)|Z]; [exists [], r; exact E|discriminate]|]. intros (a & b & E). left. destruct a as [|c a]; [exists b; exact E|discriminate].
  - rewrite IH. split.
    + intros [(r & E)|(a & b & ->)]; [exists [], r; exact E|exists (c :: a), b; reflexivity].
    + intros (a & b & E). destruct a as [|d a]; [left; exists b; exact E|]. injection E as _ ->. right. exists a, b. reflexivity.
Qed.
Lemma marked_filter : forall ls, marked ls (filter (contains (s2t "LEXICON:")) ls).
Proof.
  induction ls as [|l ls IH]; [constructor|]. cbn [filter]. destruct (contains (s2t "LEXICON:") l) eqn:E.
  - apply contains_iff in E. destruct E as (a & b & ->). constructor. exact IH.
  - constructor; [|exact IH]. intros a b ->. assert (contains (s2t "LEXICON:") (a ++ s2t "LEXICON:" ++ b) = true) by (apply contains_iff; exists a, b; reflexivity). congruence.
Qed.
Lemma marked_is : forall ls hs, marked ls hs -> hs = filter (contains (s2t "LEXICON:")) ls.
Proof.
  intros ls hs M. induction M as [|a b ls hs M IH|l ls hs N0 M IH]; cbn [filter]; [reflexivity| |].
  - assert (E : contains (s2t "LEXICON:") (a ++ s2t "LEXICON:" ++ b) = true) by (apply contains_iff; exists a, b; reflexivity). rewrite E, <- IH. reflexivity.
  - destruct (contains (s2t "LEXICON:") l) eqn:E; [|exact IH]. apply contains_iff in E. destruct E as (a & b & E). destruct (N0 a b E).
Qed.
Lemma marked_fun : forall ls hs hs', marked ls hs -> marked ls hs' -> hs = hs'.
Proof. intros ls hs hs' M M'. rewrite (marked_is _ _ M), (marked_is _ _ M'). reflexivity.
Qed.
Lemma join_columns : forall d hs, hs <> [] -> Forall (fun h => ~ In d h) hs -> columns d (join [d] hs) hs.
Proof.
  intros d. induction hs as [|h hs IH]; intros N0 F; [congruence|]. inversion F as [|? ? A B]; subst. destruct hs as [|h2 hs]; [constructor; exact A|].
  change (join [d] (h :: h2 :: hs)) with (h ++ d :: join [d] (h2 :: hs)). constructor; [exact A|]. apply IH; [discriminate|exact B].
Qed.
Lemma columns_free : forall d t cs, columns d t cs -> Forall (fun h => ~ In d h) cs.
Proof. intros d t cs C. induction C; repeat constructor; assumption. Qed.
Lemma columns_text : forall d t t' cs, columns d t cs -> columns d t' cs -> t = t'.
Proof.
  intros d t t' cs C. revert t'. induction C as [t N0|a t cs N0 C IH]; intros t' C'; inversion C'; subst; try reflexivity; try (f_equal; f_equal; apply IH; assumption); exfalso.
  - match goal with A : columns d _ [] |- _ => inversion A end.
  - inversion C.
Qed.
Lemma columns_ne : forall d t, ~ columns d t [].
Proof. intros d t C. inversion C. Qed.
Lemma underscore_some : forall t r, after_underscore t = Some r <-> exists a, ~ In 95 a /\ t = a ++ 95 :: r.
Proof.
  induction t as [|c t IH]; intros r; cbn [after_underscore].
  - split; [discriminate|]. intros (a & _ & E). destruct a; discriminate.
  - destruct (N.eqb_spec c 95) as [->|N0].
    + split; [intros E; injection E as ->; exists []; split; [intros []|reflexivity]|]. intros (a & N1 & E). destruct a as [|d a]; [injection E as ->; reflexivity|]. injection E as <- _. exfalso. apply N1. left. reflexivity.
    + rewrite IH. split; intros (a & N1 & E).
      * exists (c :: a). split; [|rewrite E; reflexivity]. intros [Z|Z]; [exact (N0 Z)|exact (N1 Z)].
      * destruct a as [|d a]; [injection E as Z _; destruct (N0 Z)|]. injection E as <- ->. exists a. split; [|reflexivity]. intros Z. apply N1. right. exact Z.
Qed.
Lemma drop_part : forall f r, drop_language f = r <-> country_part f r.
Proof.
  assert (D : forall f, country_part f (drop_language f)).
  { intros f. unfold drop_language. destruct f as [|c f]; [right; split; [reflexivity|]; intros a b _ _ E; destruct a; discriminate|]. destruct (N.eqb_spec c 95) as [->|N0].
    - right. split; [reflexivity|]. intros a b N1 N2 E. destruct a as [|d a]; [congruence|]. injection E as <- _. apply N2. left. reflexivity.
    - destruct (after_underscore (c :: f)) as [r|] eqn:E.
      + apply underscore_some in E. destruct E as (a & N1 & E). left. exists a. split; [|split; [exact N1|exact E]]. intros ->. injection E as Z _. exact (N0 Z).
      + right. split; [reflexivity|]. intros a b _ N2 Z. assert (after_underscore (c :: f) = Some b) by (apply underscore_some; exists a; split; assumption). congruence. }
  intros f r. split; [intros <-; apply D|]. intros H. specialize (D f). destruct D as [(a & N1 & N2 & E)|(E & K)]; destruct H as [(a' & M1 & M2 & E')|(E' & K')].
  - assert (Q1 : after_underscore f = Some (drop_language f)) by (apply underscore_some; exists a; split; assumption). assert (Q2 : after_underscore f = Some r) by (apply underscore_some; exists a'; split; assumption). congruence.
  - destruct (K' a (drop_language f) N1 N2 E).
  - destruct (K a' r M1 M2 E').
  - congruence.
Qed.
Lemma lc_small : forall r code, perl_lc r = code <-> Forall2 small r code.
Proof.
  intros r. induction r as [|c r IH]; intros code; cbn [perl_lc map].
  - split; [intros <-; constructor|intros H; inversion H; reflexivity].
  - assert (S1 : small c (if (65 <=? c) && (c <=? 90) then c + 32 else c)).
    { unfold small. destruct (N.leb_spec 65 c), (N.leb_spec c 90); cbn [andb]; [left; split; [lia|reflexivity]|right; split; [lia|reflexivity] ..]. }
    split.
    + intros <-. constructor; [exact S1|]. apply IH. reflexivity.
    + intros H. inversion H as [|? b ? code' A B]; subst. apply IH in B. unfold perl_lc in B. rewrite B. f_equal. destruct A as [(A & ->)|(A & ->)]; destruct S1 as [(A' & ->)|(A' & ->)]; try reflexivity; lia.
Qed.
Lemma code_exactly : forall t code, country_code t = code <-> code_of t code.
Proof.
  intros t code. unfold country_code. rewrite lc_small. assert (C := fields_columns 10 t). assert (M := marked_filter (fields 10 t)). unfold header_lines. change LF with 10. change TAB with 9.
  set (ls := fields 10 t) in *. set (hs := filter (contains (s2t "LEXICON:")) ls) in *. assert (J : hs = [] /\ join [10] hs = [] \/ columns 10 (join [10] hs) hs).
  { destruct hs as [|h hs0] eqn:E; [left; split; reflexivity|]. right. rewrite <- E. apply join_columns; [rewrite E; discriminate|]. rewrite E. assert (F := columns_free _ _ _ C). rewrite Forall_forall in *. intros y I. apply F. assert (In y hs) as Q by (rewrite E; exact I). unfold hs in Q. apply filter_In in Q. apply Q. }
  clearbody ls hs. split.
  - intros S1. exists ls, hs, (join [10] hs), (fields 9 (join [10] hs)), (drop_language (nth 3 (fields 9 (join [10] hs)) [])). split; [exact C|]. split; [exact M|]. split; [exact J|]. split; [apply fields_columns|]. split; [apply drop_part; reflexivity|exact S1].
  - intros (ls' & hs' & j & cs & r & C' & M' & J' & C9 & D & S1). rewrite (columns_fun _ _ _ _ C' C) in M'. rewrite (marked_fun _ _ _ M' M) in J'.
    assert (j = join [10] hs) as ->. { destruct J as [(E1 & E2)|J], J' as [(E1' & E2')|J']; [congruence|rewrite E1 in J'; destruct (columns_ne _ _ J')|rewrite E1' in J; destruct (columns_ne _ _ J)|exact (columns_text _ _ _ _ J' J)]. }
    rewrite (columns_fun _ _ _ _ (fields_columns 9 (join [10] hs)) C9). apply drop_part in D. rewrite D. exact S1.
Qed.
