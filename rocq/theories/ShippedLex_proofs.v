(** The shipped lexicons: all load, and what their lines lack. *)
From Coq Require Import String List NArith ZArith Bool Lia.
From Verif Require Import Base_model Class_model Class_spec Uni_model Token_model Lexicon_model Lexicon_spec Utf8_model Utf8_spec LexText_spec LexFile_spec
  Regex_model Class_proofs LexMap_proofs LexLoad_proofs LexFile_proofs Tokenizer_model Tokenizer_spec Archive_model Archive_spec Archive_proofs Search_proofs
  Shipped_model ShippedLex_model ShippedLex_spec.
Import ListNotations.
Local Open Scope N_scope.

(** ** Reading the bytes *)
Fixpoint dec (n : nat) (bs : list N) : text :=
  match n, bs with
  | S n', b :: r => if b <? 128 then b :: dec n' r
                    else match r with c :: r' => ((b - 192) * 64 + (c - 128)) :: dec n' r' | [] => [] end
  | _, _ => []
  end.
Definition dec_piece (s : string) : text := let b := s2t s in dec (List.length b) b.
Fixpoint cols (d : N) (t : text) : list text :=
  match t with
  | [] => [[]]
  | c :: t' => if c =? d then [] :: cols d t' else match cols d t' with p :: ps => (c :: p) :: ps | [] => [[c]] end
  end.
Lemma cols_ok : forall d t, columns d t (cols d t).
Proof.
  intros d. induction t as [|c t IH]; [constructor; intros []|]. cbn [cols]. destruct (N.eqb_spec c d) as [->|Q].
  - exact (col_more d [] t _ (fun x => x) IH).
  - destruct IH as [t A|a t cs A I].
    + constructor. intros [->|K]; [apply Q; reflexivity|exact (A K)].
    + apply (col_more d (c :: a)); [|exact I]. intros [->|K]; [apply Q; reflexivity|exact (A K)].
Qed.
Lemma encode_app : forall a b x y, encode a = Ok x -> encode b = Ok y -> encode (a ++ b) = Ok (x ++ y).
Proof.
  induction a as [|c a IH]; intros b x y A B.
  - injection A as <-. exact B.
  - cbn [encode app] in *. destruct (code_point_to_utf8 c) as [u|m|]; cbn [obind] in *; try discriminate A.
    destruct (encode a) as [v|m|] eqn:E; cbn [obind] in A; try discriminate A. injection A as <-.
    rewrite (IH b v y eq_refl B). cbn [obind]. rewrite app_assoc. reflexivity.
Qed.
Fixpoint enc_is (t bs : list N) : bool :=
  match t, bs with
  | [], [] => true
  | c :: t', b :: bs' => if c <? 128 then (c =? b) && enc_is t' bs'
                         else match code_point_to_utf8 c, bs' with
                              | Ok [x; y], b' :: r => (x =? b) && (y =? b') && enc_is t' r
                              | _, _ => false
                              end
  | _, _ => false
  end.
Lemma enc_is_ok : forall t bs, enc_is t bs = true -> encode t = Ok bs.
Proof.
  induction t as [|c t IH]; intros [|b bs] H; try discriminate H; [reflexivity|]. cbn [enc_is] in H. cbn [encode]. destruct (N.ltb_spec c 128) as [L|L].
  - apply andb_true_iff in H. destruct H as (H & K). apply N.eqb_eq in H. subst b. rewrite (IH _ K). unfold code_point_to_utf8.
    replace (0x110000 <=? c) with false by (symmetry; apply N.leb_gt; lia). replace (c <? 0x80) with true by (symmetry; apply N.ltb_lt; exact L).
    cbn [obind app]. unfold byte_of. change 255 with (N.ones 8). rewrite N.land_ones. rewrite N.mod_small; [reflexivity|]. change (2 ^ 8) with 256. lia.
  - destruct (code_point_to_utf8 c) as [[|x [|y [|]]]|m|]; try discriminate H. destruct bs as [|b' r]; [discriminate H|].
    apply andb_true_iff in H. destruct H as (H & K). apply andb_true_iff in H. destruct H as (H1 & H2). apply N.eqb_eq in H1, H2. subst.
    rewrite (IH _ K). reflexivity.
Qed.
(** A piece: its lines, all complete. *)
Definition piece_lines (s : string) : list text := removelast (cols 10 (dec_piece s)).
Definition piece_ok (s : string) : bool :=
  let t := dec_piece s in
  enc_is t (s2t s) && forallb (fun c => c <? 0x300) t &&
  match last (cols 10 t) [10] with [] => true | _ => false end.
Lemma cols_file : forall t ls l, columns 10 t (ls ++ [l]) -> t = file ls l /\ Forall one_line ls.
Proof.
  intros t ls. revert t. induction ls as [|a ls IH]; intros t l C.
  - cbn [app] in C. inversion C; subst; [split; [reflexivity|constructor]|]. exfalso. match goal with H : columns _ _ [] |- _ => inversion H end.
  - cbn [app] in C. inversion C; subst; [exfalso; match goal with H : [] = _ ++ [_] |- _ => exact (app_cons_not_nil _ _ _ H) end|].
    match goal with H : columns 10 _ (ls ++ [l]) |- _ => destruct (IH _ _ H) as (E & F) end.
    subst. split; [symmetry; apply file_cons|constructor; assumption].
Qed.
Lemma piece_file : forall s, piece_ok s = true -> encode (dec_piece s) = Ok (s2t s) /\ Forall (fun c => c < 0x300) (dec_piece s) /\
  dec_piece s = file (piece_lines s) [] /\ Forall one_line (piece_lines s).
Proof.
  intros s H. unfold piece_ok in H. apply andb_true_iff in H. destruct H as (H & L). apply andb_true_iff in H. destruct H as (E & F).
  split; [|split].
  - apply enc_is_ok. exact E.
  - apply Forall_forall. intros c I. rewrite forallb_forall in F. apply N.ltb_lt. apply F. exact I.
  - apply cols_file. pose proof (cols_ok 10 (dec_piece s)) as C.
    rewrite (app_removelast_last [10] (columns_ne _ _ _ C)) in C. destruct (last _ _); [exact C|discriminate L].
Qed.
Lemma file_app : forall a b, file (a ++ b) [] = file a [] ++ file b [].
Proof. intros a b. unfold file. rewrite !app_nil_r, map_app, concat_app. reflexivity. Qed.
Definition lex_lines (ps : list string) : list text := concat (map piece_lines ps).
Definition lex_text (ps : list string) : text := concat (map dec_piece ps).
Lemma lex_file : forall ps, forallb piece_ok ps = true -> text_of ps (lex_text ps) /\ lex_text ps = file (lex_lines ps) [] /\ Forall one_line (lex_lines ps).
Proof.
  induction ps as [|s ps IH]; intros H; [split; [split; [constructor|reflexivity]|split; [reflexivity|constructor]]|].
  cbn [forallb] in H. apply andb_true_iff in H. destruct H as (H & K). destruct (piece_file s H) as (A & B & C & D). destruct (IH K) as ((I1 & I2) & I3 & I4).
  unfold lex_text, lex_lines in *. cbn [map concat]. split; [split|split].
  - apply Forall_app. split; assumption.
  - cbn [map concat]. apply encode_app; assumption.
  - rewrite file_app, <- C, <- I3. reflexivity.
  - apply Forall_app. split; assumption.
Qed.
Lemma text_unique : forall ps t t', text_of ps t -> text_of ps t' -> t = t'.
Proof.
  intros ps t t' (A & B) (C & D). apply (Utf8_proofs.encode_inj t t' _) with (3 := B) (4 := D);
    (eapply Forall_impl; [|eassumption]); intros c Hc; unfold scalar; cbv beta in Hc; lia.
Qed.

(** ** A line under letterwise upper-casing *)
Section Upper.
Variable up : N -> text.
Hypothesis U1 : forall c, c < 128 -> up c = [a_up c].
Hypothesis U2 : forall c d, 128 <= c -> In d (up c) -> 65 <= d <= 90 \/ 128 <= d.
Lemma up_char : forall c d, In d (up c) -> d < 128 -> (c < 128 /\ d = a_up c) \/ 65 <= d <= 90.
Proof.
  intros c d I H. destruct (N.lt_ge_cases c 128) as [L|L].
  - left. rewrite (U1 c L) in I. destruct I as [<-|[]]. split; [exact L|reflexivity].
  - right. destruct (U2 c d L I) as [K|K]; [exact K|lia].
Qed.
Lemma up_tab : forall t, ~ In 9 t -> ~ In 9 (flat_map up t).
Proof.
  intros t H I. apply in_flat_map in I. destruct I as (c & C & D). destruct (up_char c 9 D ltac:(lia)) as [(_ & E)|E]; [|lia].
  apply H. rewrite <- (proj1 (a_up_tab c) (eq_sym E)). exact C.
Qed.
Lemma up_columns : forall t cs, columns 9 t cs -> columns 9 (flat_map up t) (map (flat_map up) cs).
Proof.
  intros t cs C. induction C as [t A|a t cs A C IH]; cbn [map]; [constructor; apply up_tab; exact A|].
  rewrite flat_map_app. cbn [flat_map]. rewrite (U1 9 ltac:(lia)). change (a_up 9) with 9. cbn [app]. constructor; [apply up_tab; exact A|exact IH].
Qed.
Lemma up_ascii : forall t, forallb (fun c => c <? 128) t = true -> flat_map up t = map a_up t.
Proof.
  induction t as [|c t IH]; intros H; [reflexivity|]. cbn [forallb] in H. apply andb_true_iff in H. destruct H as (H & K). apply N.ltb_lt in H.
  cbn [flat_map map]. rewrite (U1 c H), (IH K). reflexivity.
Qed.
Definition plain_char (c : N) : bool := (128 <=? c) || negb ((a_up c =? 94) || (a_up c =? 123) || (a_up c =? 125)).
Lemma up_plain : forall w, forallb plain_char w = true -> forall d, In d (flat_map up w) -> d <> 94 /\ d <> 123 /\ d <> 125.
Proof.
  intros w H d I. apply in_flat_map in I. destruct I as (c & C & D). rewrite forallb_forall in H. specialize (H c C). unfold plain_char in H.
  destruct (N.lt_ge_cases d 128) as [L|L]; [|lia]. destruct (up_char c d D L) as [(Q & ->)|Q]; [|lia].
  apply orb_true_iff in H. destruct H as [H|H]; [apply N.leb_le in H; lia|]. apply negb_true_iff in H.
  apply orb_false_iff in H. destruct H as (H & H3). apply orb_false_iff in H. destruct H as (H1 & H2). apply N.eqb_neq in H1, H2, H3. tauto.
Qed.
End Upper.

Definition is_bad (c : intype) : bool := match c with I_BADTOKEN => true | _ => false end.
Definition att_names : list text := map s2t ["ATT_PRE"; "ATT_SUF"; "DET_PRE"; "DET_SUF"; "DETACH"; "DETATCH"]%string.
Definition att_ok (l : text) : bool :=
  negb (existsb (N.eqb 13) l) &&
  forallb (fun p => let q := trimboth p in match q with [] => true | _ => existsb (teqb q) att_names end) (comma_pieces (nth 4 (cols 9 l) [])).
Definition line_ok (strict : bool) (l : text) : bool :=
  let s := squeeze l in
  (if strict then att_ok l else true) &&
  forallb (fun c => c <? 0x300) s &&
  match cols 9 s with
  | m :: w :: r => (teqb m (s2t "LEXENTRY:") || teqb m (s2t "LexEntry:")) && forallb plain_char w &&
                   forallb (fun c => c <? 128) (nth 1 r []) && negb (existsb is_bad (as_type (map a_up (nth 1 r []))))
  | _ => false
  end.
Lemma nth_map_nil : forall (f : text -> text) n l, f [] = [] -> nth n (map f l) [] = f (nth n l []).
Proof. intros f n l H. rewrite <- H at 1. apply map_nth. Qed.
Lemma line_good : forall st e loc l, loc <> [] -> latin_letters e loc -> line_ok st l = true ->
  exists le, body_line e loc l le /\ forall d, In d (le_word le) -> d <> 94 /\ d <> 123 /\ d <> 125.
Proof.
  intros st e loc l N0 (up & U1 & U2 & U3) H. unfold line_ok in H. cbv zeta in H. rewrite <- andb_assoc in H. apply andb_true_iff in H. destruct H as (_ & H).
  apply andb_true_iff in H. destruct H as (F & H).
  assert (F' : Forall (fun c => c < 0x300) (squeeze l)).
  { apply Forall_forall. intros c I. rewrite forallb_forall in F. apply N.ltb_lt. apply F. exact I. }
  destruct (U3 _ F') as (E1 & E2). pose proof (cols_ok 9 (squeeze l)) as C. destruct (cols 9 (squeeze l)) as [|m [|w r]]; try discriminate H.
  apply andb_true_iff in H. destruct H as (H & B). apply andb_true_iff in H. destruct H as (H & A). apply andb_true_iff in H. destruct H as (M & P).
  assert (NE : norm e loc (squeeze l) = flat_map up (squeeze l)) by (unfold norm; destruct loc; [destruct (N0 eq_refl)|rewrite E1; exact E2]).
  assert (Mm : m = s2t "LEXENTRY:" \/ m = s2t "LexEntry:") by (apply orb_true_iff in M; destruct M as [M|M]; apply teqb_eq in M; auto).
  assert (Mu : flat_map up m = s2t "LEXENTRY:").
  { destruct Mm as [-> | ->]; rewrite (up_ascii up U1) by (vm_compute; reflexivity); vm_compute; reflexivity. }
  pose proof (up_columns up U1 U2 _ _ C) as C'. cbn [map] in C'. rewrite Mu in C'.
  destruct (line_entry (norm e loc (squeeze l))) as (cs & cs' & D1 & D2 & D3 & _ & D5 & _).
  rewrite NE in D1. assert (cs = s2t "LEXENTRY:" :: flat_map up w :: map (flat_map up) r) by (eapply columns_fun; eassumption). subst cs.
  assert (cs' = flat_map up w :: map (flat_map up) r).
  { destruct D2 as [(Q & _)|(_ & Q)]; [injection Q as <-; reflexivity|]. specialize (Q eq_refl). discriminate Q. }
  subst cs'. cbn [nth] in D3, D5.
  exists (lexentry_of_line (norm e loc (squeeze l))). split.
  - apply body_line_iff. split; [|split; [reflexivity|]].
    + inversion C; subst. destruct Mm as [-> | ->]; [left|right]; eexists; reflexivity.
    + intros K. apply D5 in K. apply type_named in K. rewrite nth_map_nil in K by reflexivity. rewrite (up_ascii up U1 _ A) in K.
      apply negb_true_iff in B. assert (existsb is_bad (as_type (map a_up (nth 1 r []))) = true) by (apply existsb_exists; exists I_BADTOKEN; split; [exact K|reflexivity]).
      congruence.
  - rewrite D3. apply (up_plain up U1 U2). exact P.
Qed.

(** ** A whole lexicon *)
Definition head_ok (h : text) : bool :=
  match cols 9 h with
  | m :: _ :: _ :: loc :: _ => teqb m (s2t "LEXICON:") && existsb (teqb loc) shipped_locales
  | _ => false
  end.
Definition lex_ok (st : bool) (ps : list string) : bool :=
  forallb piece_ok ps &&
  match ps with
  | s :: ps' => match piece_lines s with
                | h :: es => head_ok h && (if st then att_ok h else true) && forallb (line_ok st) es && forallb (fun p => forallb (line_ok st) (piece_lines p)) ps'
                | [] => false
                end
  | [] => false
  end.
Lemma lines_ok : forall st ps, forallb (fun p => forallb (line_ok st) (piece_lines p)) ps = true -> forallb (line_ok st) (lex_lines ps) = true.
Proof.
  intros st. induction ps as [|s ps IH]; intros H; [reflexivity|]. cbn [forallb] in H. apply andb_true_iff in H. destruct H as (H & K).
  unfold lex_lines in *. cbn [map concat]. rewrite forallb_app, H. exact (IH K).
Qed.
Lemma lex_good : forall st ps e name, lex_ok st ps = true -> shipped_locale_env e ->
  exists x, load_lexicon e name (lex_text ps) = Ok x /\ get_lexicon e (lex_text ps) = load_lexicon e query_lex (lex_text ps) /\
    simple_words x /\ In (x_locale x) shipped_locales.
Proof.
  intros st ps e name H E. unfold lex_ok in H. apply andb_true_iff in H. destruct H as (P & H). destruct (lex_file ps P) as (_ & T & O).
  destruct ps as [|s ps]; [discriminate H|]. unfold lex_lines in *. cbn [map concat] in T, O. destruct (piece_lines s) as [|h es]; [discriminate H|].
  apply andb_true_iff in H. destruct H as (H & L2). apply andb_true_iff in H. destruct H as (H & L1). apply andb_true_iff in H. destruct H as (Hd & _). apply lines_ok in L2. unfold lex_lines in L2.
  rewrite T. cbn [app] in *. set (bs := es ++ concat (map piece_lines ps)) in *.
  assert (Lb : forallb (line_ok st) bs = true) by (unfold bs; rewrite forallb_app, L1, L2; reflexivity).
  unfold head_ok in Hd. pose proof (cols_ok 9 h) as C. destruct (cols 9 h) as [|m [|nm [|lg [|loc r]]]]; try discriminate Hd.
  apply andb_true_iff in Hd. destruct Hd as (Hm & Hl). apply teqb_eq in Hm. subst m. apply existsb_exists in Hl. destruct Hl as (loc' & Il & Ql). apply teqb_eq in Ql. subst loc'.
  assert (IH : is_header h) by (inversion C; subst; eexists; reflexivity).
  assert (N0 : loc <> []) by (intros ->; vm_compute in Il; repeat (destruct Il as [Il|Il]; [discriminate Il|]); exact Il).
  assert (BL : forall l, In l bs -> exists le, body_line e loc l le /\ forall d, In d (le_word le) -> d <> 94 /\ d <> 123 /\ d <> 125).
  { intros l I. apply (line_good st); [exact N0|apply E; exact Il|]. rewrite forallb_forall in Lb. apply Lb. exact I. }
  assert (HO : header_of h (as_lang lg) loc) by (exists (s2t "LEXICON:" :: nm :: lg :: loc :: r); repeat split; [exact C|reflexivity..]).
  pose proof (load_iff e name [] h bs O (Forall_nil _) IH ltac:(intros l p K; discriminate K)) as LI. cbn [app] in LI.
  destruct (proj2 LI) as (x & X).
  { split; [constructor|]. exists (as_lang lg), loc. split; [exact HO|]. apply Forall_forall. intros l I. right. destruct (BL l I) as (le & B & _). exists le. exact B. }
  exists x. split; [exact X|]. destruct (load_entries e name [] h bs x O (Forall_nil _) IH ltac:(intros l p K; discriminate K) X) as (_ & (cs & K1 & _ & K3 & _) & _ & LE & _).
  assert (cs = s2t "LEXICON:" :: nm :: lg :: loc :: r) by (eapply columns_fun; eassumption). subst cs. cbn [nth] in K3.
  split; [|split].
  - apply not_archive. destruct IH as (r' & ->). rewrite file_cons. apply first_char; [reflexivity|reflexivity|discriminate].
  - intros w c Lw Ic. unfold listed in Lw. destruct (lex_find x w) as [|le les] eqn:Q; [destruct (Lw eq_refl)|].
    assert (I : In le (lex_find x w)) by (rewrite Q; left; reflexivity). apply LE in I. destruct I as (W & l & Ib & B). rewrite K3 in B.
    destruct (BL l Ib) as (le' & B' & S0). rewrite (body_line_fun _ _ _ _ _ B B') in W. subst w. apply S0. exact Ic.
  - rewrite K3. exact Il.
Qed.
Definition others : list (list string) :=
  [slex_andorra; slex_australia; slex_austria; slex_belgium; slex_canada; slex_denmark; slex_finland; slex_france; slex_greatbritain;
   slex_ireland; slex_italy; slex_liechtenstein; slex_luxembourg; slex_monaco; slex_netherlands; slex_newzealand; slex_norway; slex_portugal;
   slex_san_marino; slex_spain; slex_sweden; slex_switzerland; slex_usa; slex_vatican].
Lemma others_ok : forallb (lex_ok true) others = true.
Proof. vm_compute. reflexivity. Qed.
Lemma germany_ok : lex_ok false slex_germany = true.
Proof. vm_compute. reflexivity. Qed.
Lemma shipped_split : forall ps, In ps shipped_lexicons -> ps = slex_germany \/ In ps others.
Proof. intros ps I. unfold shipped_lexicons in I. unfold others. cbn [In] in I |- *. intuition. Qed.
Lemma others_each : forall ps, In ps others -> lex_ok true ps = true.
Proof. intros ps I. pose proof others_ok as H. rewrite forallb_forall in H. exact (H ps I). Qed.
Lemma pieces_each : forall st ps, lex_ok st ps = true -> forallb piece_ok ps = true.
Proof. intros st ps H. unfold lex_ok in H. apply andb_true_iff in H. exact (proj1 H). Qed.
Lemma shipped_pieces : forall ps, In ps shipped_lexicons -> forallb piece_ok ps = true.
Proof. intros ps I. destruct (shipped_split ps I) as [->|O]; [exact (pieces_each _ _ germany_ok)|exact (pieces_each _ _ (others_each ps O))]. Qed.
Lemma shipped_text : forall ps t, In ps shipped_lexicons -> text_of ps t -> t = lex_text ps.
Proof. intros ps t I T. eapply text_unique; [exact T|]. exact (proj1 (lex_file ps (shipped_pieces ps I))). Qed.
Lemma shipped_load : forall ps, In ps shipped_lexicons -> (exists t, text_of ps t) /\ forall t e name, text_of ps t -> shipped_locale_env e ->
  exists x, load_lexicon e name t = Ok x /\ get_lexicon e t = load_lexicon e query_lex t /\ simple_words x /\ In (x_locale x) shipped_locales.
Proof.
  intros ps I. split; [exists (lex_text ps); exact (proj1 (lex_file ps (shipped_pieces ps I)))|]. intros t e name T E. rewrite (shipped_text ps t I T).
  destruct (shipped_split ps I) as [->|O]; [exact (lex_good false _ e name germany_ok E)|exact (lex_good true _ e name (others_each ps O) E)].
Qed.

(** ** Lines that are as they should be *)
Lemma columns_head : forall a b r s, one_line a -> ~ In 10 b -> a ++ 10 :: r = b ++ 10 :: s -> a = b.
Proof.
  induction a as [|x a IH]; intros [|y b] r s A B E; cbn [app] in E; [reflexivity| | |].
  - injection E as <- _. exfalso. apply B. left. reflexivity.
  - injection E as -> _. exfalso. apply A. left. reflexivity.
  - injection E as <- E. f_equal. apply (IH b r s); [intros K; apply A; right; exact K|intros K; apply B; right; exact K|exact E].
Qed.
Lemma split_first : forall (d : N) x r a s, ~ In d x -> x ++ d :: r = a ++ d :: s -> (a = x /\ r = s) \/ exists a2, a = x ++ d :: a2 /\ r = a2 ++ d :: s.
Proof.
  intros d. induction x as [|c x IH]; intros r a s N0 E; destruct a as [|y a]; cbn [app] in E.
  - injection E as E. left. split; [reflexivity|exact E].
  - injection E as <- E. right. exists a. split; [reflexivity|exact E].
  - injection E as -> _. exfalso. apply N0. left. reflexivity.
  - injection E as <- E. destruct (IH r a s (fun K => N0 (or_intror K)) E) as [(-> & Q)|(a2 & -> & Q)]; [left; split; [reflexivity|exact Q]|right; exists a2; split; [reflexivity|exact Q]].
Qed.
Lemma file_line : forall ls t l, Forall one_line ls -> t = file ls [] -> line_of t l -> In l ls.
Proof.
  induction ls as [|x ls IH]; intros t l O E (N0 & a & b & T & A).
  - subst t. unfold file in T. cbn [map concat app] in T. symmetry in T. apply app_eq_nil in T. destruct T as (_ & T). apply app_eq_nil in T. destruct T as (_ & T). discriminate T.
  - rewrite file_cons in E. inversion O as [|? ? O1 O2]; subst x0 l0. rewrite E in T. clear E. destruct A as [->|(a' & ->)].
    + left. cbn [app] in T. eapply columns_head; [exact O1|exact N0|exact T].
    + right. rewrite <- app_assoc in T. cbn [app] in T.
      destruct (split_first 10 x (file ls []) a' (l ++ 10 :: b) O1 T) as [(-> & T')|(a2 & -> & T')].
      * apply (IH _ l O2 eq_refl). split; [exact N0|]. exists [], b. split; [exact T'|left; reflexivity].
      * apply (IH _ l O2 eq_refl). split; [exact N0|]. exists (a2 ++ [10]), b. split; [|right; exists a2; reflexivity].
        rewrite T'. rewrite <- app_assoc. reflexivity.
Qed.

Lemma strict_lines : forall ps, lex_ok true ps = true -> Forall (fun l => att_ok l = true) (lex_lines ps).
Proof.
  intros ps H. unfold lex_ok in H. apply andb_true_iff in H. destruct H as (_ & H). destruct ps as [|s ps]; [discriminate H|].
  unfold lex_lines. cbn [map concat]. destruct (piece_lines s) as [|h es]; [discriminate H|].
  apply andb_true_iff in H. destruct H as (H & L2). apply andb_true_iff in H. destruct H as (H & L1). apply andb_true_iff in H. destruct H as (_ & Hh).
  assert (K : forall ls, forallb (line_ok true) ls = true -> Forall (fun l => att_ok l = true) ls).
  { intros ls F. rewrite forallb_forall in F. apply Forall_forall. intros l I. specialize (F l I). unfold line_ok in F. cbv zeta in F.
    apply andb_true_iff in F. destruct F as (F & _). apply andb_true_iff in F. exact (proj1 F). }
  cbn [app]. constructor; [exact Hh|]. apply Forall_app. split; [apply K; exact L1|]. apply K. apply lines_ok in L2. exact L2.
Qed.
Lemma in_file : forall ls c, In c (file ls []) -> c <> 10 -> exists l, In l ls /\ In c l.
Proof.
  intros ls c I Q. unfold file in I. rewrite app_nil_r in I. apply in_concat in I. destruct I as (l & L & C). apply in_map_iff in L. destruct L as (l' & <- & L).
  exists l'. split; [exact L|]. apply in_app_or in C. destruct C as [C|[C|[]]]; [exact C|]. exfalso. apply Q. symmetry. exact C.
Qed.
Lemma line_ends_part : forall ps t, In ps shipped_lexicons -> text_of ps t -> ps = slex_germany \/ ~ In 13 t.
Proof.
  intros ps t I T. rewrite (shipped_text ps t I T). destruct (shipped_split ps I) as [->|O]; [left; reflexivity|right].
  destruct (lex_file ps (shipped_pieces ps I)) as (_ & E & _). rewrite E. intros K. destruct (in_file _ _ K ltac:(discriminate)) as (l & L & C).
  pose proof (strict_lines ps (others_each ps O)) as F. rewrite Forall_forall in F. specialize (F l L). unfold att_ok in F.
  apply andb_true_iff in F. destruct F as (F & _). apply negb_true_iff in F.
  assert (existsb (N.eqb 13) l = true) by (apply existsb_exists; exists 13; split; [exact C|apply N.eqb_refl]). congruence.
Qed.
Lemma trim_blank : forall p, trimboth p = [] -> Forall (fun c => c = 32) p.
Proof.
  intros p H. destruct (trim_padded p) as [E|(a & b & E & A & B)]; [rewrite <- E, H; constructor|].
  rewrite H in E. cbn [app] in E. rewrite E. apply Forall_app. split; assumption.
Qed.
Lemma att_part : forall ps t l p, In ps shipped_lexicons -> text_of ps t -> line_of t l -> att_field l p ->
  ps = slex_germany \/ documented_att p \/ padded (s2t "DETATCH") p.
Proof.
  intros ps t l p I T L (cs & qs & C & D & P). destruct (shipped_split ps I) as [->|O]; [left; reflexivity|right].
  destruct (lex_file ps (shipped_pieces ps I)) as (_ & E & F0). rewrite (shipped_text ps t I T) in L. pose proof (file_line _ _ _ F0 E L) as IL.
  pose proof (strict_lines ps (others_each ps O)) as F. rewrite Forall_forall in F. specialize (F l IL). unfold att_ok in F.
  apply andb_true_iff in F. destruct F as (_ & F). rewrite (columns_fun _ _ _ _ (cols_ok 9 l) C) in F.
  rewrite (columns_fun _ _ _ _ (pieces_columns _) D) in F. rewrite forallb_forall in F. specialize (F p P). cbv zeta in F.
  destruct (trimboth p) as [|c q] eqn:Q; [left; left; left; apply trim_blank; exact Q|].
  apply existsb_exists in F. destruct F as (n & In0 & T0). apply teqb_eq in T0. subst n.
  assert (PD : padded (c :: q) p). { destruct (trim_padded p) as [K|K]; rewrite Q in K; [|exact K]. exists [], []. rewrite app_nil_r, K. repeat split; constructor. }
  cbn [att_names map In] in In0. destruct In0 as [K|[K|[K|[K|[K|[K|[]]]]]]]; rewrite <- K in PD; clear K.
  - left. left. right. exists ATT_PRE. exact PD.
  - left. left. right. exists ATT_SUF. exact PD.
  - left. left. right. exists DET_PRE. exact PD.
  - left. left. right. exists DET_SUF. exact PD.
  - left. right. left. exact PD.
  - right. exact PD.
Qed.

(** ** What goes wrong *)
Definition lex_of (t : text) : lexicon := match load_lexicon ascii_env query_lex t with Ok x => x | _ => new_lexicon [] end.
Definition loads (t : text) : bool := match load_lexicon ascii_env query_lex t with Ok _ => true | _ => false end.
Lemma lex_of_ok : forall t, loads t = true -> load_lexicon ascii_env query_lex t = Ok (lex_of t).
Proof. intros t H. unfold loads in H. unfold lex_of. destruct (load_lexicon _ _ _); [reflexivity|discriminate H|discriminate H]. Qed.
Definition pieces_of (r : outcome (list token)) : list (text * inset) := match r with Ok ks => map (fun k => (t_text k, t_in k)) ks | _ => [] end.
Definition cuts (t q : text) : list (text * inset) := pieces_of (get_tokens ascii_env (mkTz (lex_of t) []) q).
Lemma cuts_ok : forall t q l, cuts t q = l -> l <> [] -> exists ks, get_tokens ascii_env (mkTz (lex_of t) []) q = Ok ks /\ map (fun k => (t_text k, t_in k)) ks = l.
Proof.
  intros t q l E H. unfold cuts, pieces_of in E. destruct (get_tokens _ _ _) as [ks|m|]; [exists ks; split; [reflexivity|exact E]|exfalso; apply H; symmetry; exact E..].
Qed.
Lemma in_shipped_germany : In slex_germany shipped_lexicons.
Proof. unfold shipped_lexicons. do 8 right. left. reflexivity. Qed.
Lemma in_shipped_belgium : In slex_belgium shipped_lexicons.
Proof. unfold shipped_lexicons. do 3 right. left. reflexivity. Qed.
Lemma in_shipped_andorra : In slex_andorra shipped_lexicons.
Proof. unfold shipped_lexicons. left. reflexivity. Qed.
Lemma shipped_text_of : forall ps, In ps shipped_lexicons -> text_of ps (lex_text ps).
Proof. intros ps I. exact (proj1 (lex_file ps (shipped_pieces ps I))). Qed.
(** The attachments of the entries of a word, and two ways to cut an address. *)
Lemma germany_atts : (map le_att (lex_find (lex_of (lex_text slex_germany)) (s2t "UFER")), map le_att (lex_find (lex_of (without_cr (lex_text slex_germany))) (s2t "UFER")))
  = ([[]], [[ATT_SUF]]).
Proof. vm_compute. reflexivity. Qed.
Lemma germany_loads : loads (lex_text slex_germany) && loads (without_cr (lex_text slex_germany)) = true.
Proof. vm_compute. reflexivity. Qed.
Lemma germany_cuts : (cuts (lex_text slex_germany) (s2t "ELBUFER 5"), cuts (without_cr (lex_text slex_germany)) (s2t "ELBUFER 5")) =
  ([(s2t "ELBUFER", [I_WORD]); (s2t " ", [I_SPACE]); (s2t "5", [I_NUMBER])],
   [(s2t "ELB", [I_WORD]); (s2t "UFER", [I_TYPE]); (s2t " ", [I_SPACE]); (s2t "5", [I_NUMBER])]).
Proof. vm_compute. reflexivity. Qed.
Lemma line_ends_bad : exists ps t x y, In ps shipped_lexicons /\ text_of ps t /\
  load_lexicon ascii_env query_lex t = Ok x /\ load_lexicon ascii_env query_lex (without_cr t) = Ok y /\
  map le_att (lex_find x (s2t "UFER")) = [[]] /\ map le_att (lex_find y (s2t "UFER")) = [[ATT_SUF]] /\
  exists ks js, get_tokens ascii_env (mkTz x []) (s2t "ELBUFER 5") = Ok ks /\ get_tokens ascii_env (mkTz y []) (s2t "ELBUFER 5") = Ok js /\
    map t_text ks = map s2t ["ELBUFER"; " "; "5"]%string /\ map t_text js = map s2t ["ELB"; "UFER"; " "; "5"]%string.
Proof.
  pose proof germany_loads as L. apply andb_true_iff in L. destruct L as (L1 & L2). pose proof germany_atts as A. pose proof germany_cuts as C.
  apply pair_equal_spec in A. apply pair_equal_spec in C. destruct A as (A1 & A2), C as (C1 & C2).
  exists slex_germany, (lex_text slex_germany), (lex_of (lex_text slex_germany)), (lex_of (without_cr (lex_text slex_germany))).
  split; [exact in_shipped_germany|]. split; [exact (shipped_text_of _ in_shipped_germany)|]. split; [exact (lex_of_ok _ L1)|]. split; [exact (lex_of_ok _ L2)|].
  split; [exact A1|]. split; [exact A2|]. destruct (cuts_ok _ _ _ C1 ltac:(discriminate)) as (ks & K1 & K2). destruct (cuts_ok _ _ _ C2 ltac:(discriminate)) as (js & J1 & J2).
  exists ks, js. split; [exact K1|]. split; [exact J1|]. split.
  - apply (f_equal (map fst)) in K2. rewrite map_map in K2. exact K2.
  - apply (f_equal (map fst)) in J2. rewrite map_map in J2. exact J2.
Qed.
Definition has_line (ps : list string) (l : text) : bool := existsb (teqb l) (lex_lines ps).
Lemma line_in : forall ps l, forallb piece_ok ps = true -> In l (lex_lines ps) -> line_of (lex_text ps) l.
Proof.
  intros ps l H I. destruct (lex_file ps H) as (_ & E & F). rewrite Forall_forall in F. split; [exact (F l I)|]. rewrite E.
  apply in_split in I. destruct I as (l1 & l2 & ->). exists (file l1 []), (file l2 []). split.
  - rewrite file_app, file_cons. reflexivity.
  - destruct l1 as [|x l1] using rev_ind; [left; reflexivity|right]. exists (file l1 x). unfold file. rewrite map_app, concat_app. cbn [map concat]. rewrite !app_nil_r, app_assoc. reflexivity.
Qed.
Lemma line_has : forall ps l, In ps shipped_lexicons -> has_line ps l = true -> line_of (lex_text ps) l.
Proof.
  intros ps l I H. apply line_in; [exact (shipped_pieces ps I)|]. unfold has_line in H. apply existsb_exists in H. destruct H as (l' & I' & T). apply teqb_eq in T. subst l'. exact I'.
Qed.
Definition tabbed (l : list string) : text := join [9] (map s2t l).
Lemma detatch_no : ~ documented_att (s2t "DETATCH").
Proof.
  intros [[K|(a & K)]|[K|K]].
  - inversion K as [|? ? Q]; discriminate Q.
  - apply (solid_trim _ _ (att_solid a)) in K. destruct a; vm_compute in K; discriminate K.
  - apply solid_trim in K; [vm_compute in K; discriminate K|]. split; [discriminate|]. vm_compute. intuition discriminate.
  - apply solid_trim in K; [vm_compute in K; discriminate K|]. split; [discriminate|]. vm_compute. intuition discriminate.
Qed.
Lemma att_bad : exists ps t l p, In ps shipped_lexicons /\ text_of ps t /\ line_of t l /\ att_field l p /\ ~ documented_att p.
Proof.
  exists slex_andorra, (lex_text slex_andorra), (tabbed ["LEXENTRY:"; "BP"; "BP"; "BOXH"; "DETATCH"]%string), (s2t "DETATCH").
  split; [exact in_shipped_andorra|]. split; [exact (shipped_text_of _ in_shipped_andorra)|]. split; [apply (line_has _ _ in_shipped_andorra); vm_compute; reflexivity|]. split; [|exact detatch_no].
  eexists _, _. split; [apply cols_ok|]. split; [apply cols_ok|]. vm_compute. left. reflexivity.
Qed.
Lemma belgium_cuts : (cuts (lex_text slex_belgium) (s2t "SUITE 5"), cuts (lex_text slex_belgium) (s2t "SUITE  5")) =
  ([(s2t "SUITE", [I_WORD]); (s2t " ", [I_SPACE]); (s2t "5", [I_NUMBER])],
   [(s2t "SUITE ", [I_UNITH]); (s2t " ", [I_SPACE]); (s2t "5", [I_NUMBER])]).
Proof. vm_compute. reflexivity. Qed.
Lemma belgium_loads : loads (lex_text slex_belgium) = true.
Proof. vm_compute. reflexivity. Qed.
Lemma blank_bad : exists ps t l x, In ps shipped_lexicons /\ text_of ps t /\ line_of t l /\ word_field l (s2t "SUITE ") /\
  load_lexicon ascii_env query_lex t = Ok x /\
  exists ks js, get_tokens ascii_env (mkTz x []) (s2t "SUITE 5") = Ok ks /\ get_tokens ascii_env (mkTz x []) (s2t "SUITE  5") = Ok js /\
    map (fun k => (t_text k, t_in k)) ks = [(s2t "SUITE", [I_WORD]); (s2t " ", [I_SPACE]); (s2t "5", [I_NUMBER])] /\
    map (fun k => (t_text k, t_in k)) js = [(s2t "SUITE ", [I_UNITH]); (s2t " ", [I_SPACE]); (s2t "5", [I_NUMBER])].
Proof.
  pose proof belgium_cuts as C. apply pair_equal_spec in C. destruct C as (C1 & C2).
  exists slex_belgium, (lex_text slex_belgium), (tabbed ["LEXENTRY:"; "SUITE "; "STE"; "UNITH"; "DETACH"]%string), (lex_of (lex_text slex_belgium)).
  split; [exact in_shipped_belgium|]. split; [exact (shipped_text_of _ in_shipped_belgium)|]. split; [apply (line_has _ _ in_shipped_belgium); vm_compute; reflexivity|].
  split; [eexists _, _; pose proof (cols_ok 9 (tabbed ["LEXENTRY:"; "SUITE "; "STE"; "UNITH"; "DETACH"]%string)) as K; vm_compute in K |- *; exact K|].
  split; [exact (lex_of_ok _ belgium_loads)|].
  destruct (cuts_ok _ _ _ C1 ltac:(discriminate)) as (ks & K1 & K2).
  destruct (cuts_ok _ _ _ C2 ltac:(discriminate)) as (js & J1 & J2).
  exists ks, js. split; [exact K1|]. split; [exact J1|]. split; [exact K2|exact J2].
Qed.
Lemma ascii_shipped : shipped_locale_env ascii_env.
Proof.
  intros loc _. exists (fun c => [a_up c]). split; [reflexivity|]. split.
  - intros c d H [<-|[]]. right. unfold a_up, a_lower. destruct (_ && _) eqn:E; [|exact H]. apply andb_true_iff in E. destruct E as (_ & E). apply N.leb_le in E. lia.
  - intros t _. split; [reflexivity|]. cbn [e_upper ascii_env]. induction t as [|c t IH]; [reflexivity|]. cbn [map flat_map app]. rewrite IH. reflexivity.
Qed.
