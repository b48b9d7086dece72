(** The converted rules of PAGC (C120). *)
From Coq Require Import String List NArith ZArith Bool Lia Permutation Sorted Floats.SpecFloat.
From Verif Require Import Base_model Class_model Float_model Uni_model Rule_model Search_model Search_spec Search_proofs Grammar_model Grammar_spec Sample_model LexFile_spec LexFile_proofs
  LexDiag_spec LexDiag_proofs Docs_spec Docs_proofs DocsEx_proofs Tools_model Tools_proofs Pagc_model Pagc_spec.
Import ListNotations.
Local Open Scope N_scope.

(** ** Words *)
Lemma white_space : forall b, white b -> Forall (fun c => perl_space c = true) b.
Proof. intros b. apply Forall_impl. intros c [->|[->|[->|[->| ->]]]]; reflexivity. Qed.
Definition tight (w : text) : Prop := w <> [] /\ Forall (fun c => perl_space c = false) w.
Lemma pw_ne : forall t, perl_words t <> [].
Proof.
  induction t as [|c t IH]; cbn [perl_words]; [discriminate|]. destruct (perl_space c); [|destruct (perl_words t); discriminate].
  destruct t as [|d t]; [discriminate|]. destruct (perl_space d) eqn:E; [|discriminate]. exact IH.
Qed.
Lemma pw_word : forall w t, Forall (fun c => perl_space c = false) w -> perl_words (w ++ t) = match perl_words t with p :: ps => (w ++ p) :: ps | [] => [] end.
Proof.
  intros w t F. induction F as [|c w H F IH]; cbn [app]; [pose proof (pw_ne t); destruct (perl_words t); [contradiction|reflexivity]|].
  cbn [perl_words]. rewrite H, IH. pose proof (pw_ne t). destruct (perl_words t); [contradiction|reflexivity].
Qed.
Lemma pw_space : forall b t, Forall (fun c => perl_space c = true) b -> b <> [] -> (forall c r, t = c :: r -> perl_space c = false) -> perl_words (b ++ t) = [] :: perl_words t.
Proof.
  intros b t F. induction F as [|c b H F IH]; intros N K; [congruence|]. cbn [app perl_words]. rewrite H. destruct b as [|d b].
  - cbn [app]. destruct t as [|e t]; [reflexivity|]. rewrite (K e t eq_refl). reflexivity.
  - cbn [app] in *. inversion F as [|? ? Hd ?]; subst. rewrite Hd. apply IH; [discriminate|exact K].
Qed.
Lemma apart_head : forall ws l, apart ws l -> Forall tight ws -> forall c r, l = c :: r -> perl_space c = false.
Proof.
  intros ws l H F c r E. destruct H as [w b W|w b ws t W N H]; apply Forall_inv in F; destruct F as (F1 & F2); destruct w as [|d w]; try congruence;
    injection E as -> E; apply Forall_inv in F2; exact F2.
Qed.
Lemma apart_words : forall ws l, apart ws l -> Forall tight ws -> exists e, perl_words l = ws ++ e /\ (e = [] \/ e = [[]]).
Proof.
  intros ws l H. induction H as [w b W|w b ws t W N H IH]; intros F; inversion F as [|? ? (F1 & F2) F']; subst.
  - rewrite (pw_word w b F2). destruct b as [|c b]; [exists []; split; [cbn; rewrite app_nil_r; reflexivity|left; reflexivity]|].
    exists [[]]. split; [|right; reflexivity]. rewrite <- (app_nil_r (c :: b)), (pw_space (c :: b) []); [cbn; rewrite app_nil_r; reflexivity|apply white_space; exact W|discriminate|discriminate].
  - rewrite (pw_word w (b ++ t) F2), (pw_space b t (white_space b W) N (apart_head _ _ H F')). destruct (IH F') as (e & E & Ee). exists e. split; [|exact Ee].
    rewrite app_nil_r, E. reflexivity.
Qed.
(** ** Numbers *)
Lemma digits_perl : forall w, digits w -> Forall (fun c => perl_digit c = true) w.
Proof. intros w. apply Forall_impl. intros c H. unfold perl_digit. apply andb_true_iff. split; apply N.leb_le; lia. Qed.
Lemma leading_all : forall w v, digits w -> leading v w = fold_left (fun v c => 10 * v + (c - 48)) w v.
Proof. intros w v H. apply digits_perl in H. revert v. induction H as [|c w H F IH]; intros v; [reflexivity|]. cbn [leading fold_left]. rewrite H. apply IH. Qed.
Lemma numeral_int : forall n w, numeral n w -> perl_int w = Z.of_N n.
Proof.
  intros n w (N0 & D & ->). unfold perl_int. destruct w as [|c w]; [congruence|]. assert (48 <= c <= 57) by (inversion D; assumption).
  destruct (N.eqb_spec c 45); [lia|]. rewrite leading_all by exact D. reflexivity.
Qed.
Lemma numeral_tight : forall n w, numeral n w -> tight w.
Proof.
  intros n w (N0 & D & _). split; [exact N0|]. revert D. apply Forall_impl. intros c H. unfold perl_space. destruct (N.eqb_spec c 32); [lia|].
  destruct (N.leb_spec c 13); [lia|]. rewrite andb_false_r. reflexivity.
Qed.
Lemma numeral_not : forall n w, numeral n w -> teqb w MINUS_ONE = false.
Proof.
  intros n w (N0 & D & _). destruct (teqb w MINUS_ONE) eqn:E; [|reflexivity]. apply teqb_eq in E. rewrite E in D. inversion D. lia.
Qed.
Lemma numerals : forall ns ws, Forall2 numeral ns ws -> Forall (fun w => exists n, numeral n w) ws.
Proof. intros ns ws H. induction H; constructor; eauto. Qed.
Lemma f2_length : forall A B (R : A -> B -> Prop) l m, Forall2 R l m -> List.length l = List.length m.
Proof. intros A B R l m H. induction H; cbn; congruence. Qed.
(** ** The parts of a line *)
Lemma groups_run : forall a cur rest, Forall (fun w => teqb w MINUS_ONE = false) a -> groups cur (a ++ rest) = groups (cur ++ a) rest.
Proof.
  intros a. induction a as [|w a IH]; intros cur rest F; [rewrite app_nil_r; reflexivity|]. inversion F as [|? ? H F']; subst. cbn [app groups]. rewrite H. cbn [andb].
  rewrite IH by exact F'. rewrite <- app_assoc. reflexivity.
Qed.
Lemma groups_sep : forall cur w rest, cur <> [] -> groups cur (MINUS_ONE :: w :: rest) = cur :: groups [] (w :: rest).
Proof. intros cur w rest H. cbn [groups]. destruct cur; [congruence|]. reflexivity. Qed.
Definition word_of (r : pagc) (l : text) (is os : list text) (ty sc : text) (e : list text) : Prop :=
  Forall2 numeral (p_ins r) is /\ Forall2 numeral (p_outs r) os /\ numeral (p_type r) ty /\ numeral (p_score r) sc /\
  perl_words l = (is ++ MINUS_ONE :: os ++ [MINUS_ONE; ty; sc]) ++ e /\ (e = [] \/ e = [[]]).
Lemma line_words : forall r l, pagc_line r l -> exists is os ty sc e, word_of r l is os ty sc e.
Proof.
  intros r l (N1 & N2 & is & os & ty & sc & H1 & H2 & H3 & H4 & A). assert (T : forall ns ws, Forall2 numeral ns ws -> Forall tight ws).
  { intros ns ws H. induction H; constructor; [eapply numeral_tight; eassumption|assumption]. }
  assert (M : tight MINUS_ONE) by (split; [discriminate|repeat constructor]).
  destruct (apart_words _ _ A) as (e & E & Ee).
  { apply Forall_app. split; [exact (T _ _ H1)|]. constructor; [exact M|]. apply Forall_app. split; [exact (T _ _ H2)|]. constructor; [exact M|].
    constructor; [exact (numeral_tight _ _ H3)|constructor; [exact (numeral_tight _ _ H4)|constructor]]. }
  exists is, os, ty, sc, e. repeat split; try assumption; apply H3 || apply H4.
Qed.
Lemma line_parts : forall r is os ty sc e, p_ins r <> [] -> p_outs r <> [] ->
  Forall2 numeral (p_ins r) is -> Forall2 numeral (p_outs r) os -> numeral (p_type r) ty -> numeral (p_score r) sc -> (e = [] \/ e = [[]]) ->
  rule_like ((is ++ MINUS_ONE :: os ++ [MINUS_ONE; ty; sc]) ++ e) = true /\ pagc_parts ((is ++ MINUS_ONE :: os ++ [MINUS_ONE; ty; sc]) ++ e) = [is; os; [ty; sc]].
Proof.
  intros r is os ty sc e N1 N2 H1 H2 H3 H4 He. assert (Z : forall ns ws, Forall2 numeral ns ws -> Forall (fun w => teqb w MINUS_ONE = false) ws).
  { intros ns ws H. induction H; constructor; [eapply numeral_not; eassumption|assumption]. }
  assert (I0 : is <> []) by (intros ->; inversion H1; congruence). assert (O0 : os <> []) by (intros ->; inversion H2; congruence).
  assert (A : forall n w, numeral n w -> all_chars perl_digit w = true).
  { intros n w (X & D & _). destruct w as [|c w]; [congruence|]. apply forallb_forall. intros x K. apply digits_perl in D. rewrite Forall_forall in D. exact (D x K). }
  assert (A' : forall n w, numeral n w -> all_chars (fun c => perl_digit c || (c =? 45)) w = true).
  { intros n w Hn. pose proof (A n w Hn) as K. destruct w as [|c w]; [discriminate K|]. unfold all_chars in *. rewrite forallb_forall in *. intros x X. rewrite (K x X). reflexivity. }
  split.
  - destruct H1 as [|n w ns ws Hw H1]; [congruence|]. destruct H1 as [|n' w' ns' ws' Hw' H1].
    + destruct os as [|o os]; [congruence|]. cbn. rewrite (A _ _ Hw). reflexivity.
    + cbn. destruct (ws' ++ MINUS_ONE :: os ++ [MINUS_ONE; ty; sc]) eqn:E; [destruct ws'; discriminate E|]. cbn. rewrite (A _ _ Hw), (A' _ _ Hw'). reflexivity.
  - unfold pagc_parts. assert (G : groups [] ((is ++ MINUS_ONE :: os ++ [MINUS_ONE; ty; sc]) ++ e) = [is; os; [ty; sc] ++ e]).
    { rewrite <- app_assoc. cbn [app]. rewrite <- app_assoc. cbn [app]. rewrite (groups_run is [] _ (Z _ _ H1)). cbn [app]. destruct os as [|o os]; [congruence|]. cbn [app].
      rewrite (groups_sep is o _ I0). change (o :: os ++ MINUS_ONE :: ty :: sc :: e) with ((o :: os) ++ MINUS_ONE :: ty :: sc :: e). rewrite (groups_run (o :: os) [] _ (Z _ _ H2)). cbn [app].
      rewrite groups_sep by discriminate. change (ty :: sc :: e) with ([ty; sc] ++ e). rewrite (groups_run [ty; sc] [] e).
      - destruct He as [->| ->]; reflexivity.
      - constructor; [exact (numeral_not _ _ H3)|constructor; [exact (numeral_not _ _ H4)|constructor]]. }
    rewrite G. cbn [rev app]. destruct H3 as (T0 & _), H4 as (S0 & _). destruct ty as [|a ty]; [congruence|]. destruct sc as [|b sc]; [congruence|]. destruct He as [->| ->]; reflexivity.
Qed.
(** ** A line *)
Definition conv (r : pagc) : Z * pagc_rule :=
  (Z.of_N (p_type r), mkPagc (map (fun n => perl_at pagc_in_names (Z.of_N n)) (p_ins r)) (map (fun n => perl_at pagc_out_names (Z.of_N n)) (p_outs r)) (Z.of_N (p_score r))).
Lemma line_conv : forall r l, pagc_line r l -> convert_line l = if Nat.eqb (List.length (p_ins r)) (List.length (p_outs r)) && (p_type r <=? 4) then Some (conv r) else None.
Proof.
  intros r l H. destruct (line_words r l H) as (is & os & ty & sc & e & H1 & H2 & H3 & H4 & E & Ee). destruct H as (N1 & N2 & _).
  destruct (line_parts r is os ty sc e N1 N2 H1 H2 H3 H4 Ee) as (L & P). unfold convert_line. rewrite E, L, P. cbn [negb nth].
  rewrite <- (f2_length _ _ _ _ _ H1), <- (f2_length _ _ _ _ _ H2). destruct (Nat.eqb _ _); [|reflexivity]. cbn [negb andb].
  rewrite (numeral_int _ _ H3), (numeral_int _ _ H4). destruct (Z.ltb_spec (Z.of_N (p_type r)) 0); [lia|]. cbn [orb].
  destruct (Z.ltb_spec 4 (Z.of_N (p_type r))), (N.leb_spec (p_type r) 4); try lia; [reflexivity|]. unfold conv. do 3 f_equal.
  - clear - H1. induction H1 as [|n w ns ws Hn H IH]; [reflexivity|]. cbn [map]. rewrite (numeral_int _ _ Hn), IH. reflexivity.
  - clear - H2. induction H2 as [|n w ns ws Hn H IH]; [reflexivity|]. cbn [map]. rewrite (numeral_int _ _ Hn), IH. reflexivity.
Qed.
Lemma well_iff : forall r, well_formed r <-> Nat.eqb (List.length (p_ins r)) (List.length (p_outs r)) && (p_type r <=? 4) = true.
Proof. intros r. unfold well_formed. rewrite andb_true_iff, Nat.eqb_eq, N.leb_le. reflexivity. Qed.
Lemma no_conv : forall l, no_rule l -> convert_line l = None.
Proof.
  intros l [H|(r & P & W)].
  - unfold convert_line. assert (rule_like (perl_words l) = false) as ->; [|reflexivity]. destruct l as [|c l]; [reflexivity|].
    assert (D : perl_digit c = false). { unfold perl_digit. apply andb_false_iff. specialize (H c l eq_refl). destruct (N.leb_spec 48 c); [right|left; reflexivity]. apply N.leb_gt. lia. }
    assert (G : forall w ws, (w = [] \/ exists w', w = c :: w') -> rule_like (w :: ws) = false).
    { intros w ws K. unfold rule_like. destruct ws as [|w1 [|w2 ws]]; try reflexivity. destruct K as [->|(w' & ->)]; [reflexivity|]. cbn. rewrite D. reflexivity. }
    destruct (perl_space c) eqn:S1.
    + assert (K : forall t d, perl_space d = true -> exists ws, perl_words (d :: t) = [] :: ws).
      { induction t as [|x t IH]; intros d Hd; cbn [perl_words]; rewrite Hd; [eauto|]. destruct (perl_space x) eqn:Ex; [|eauto]. specialize (IH x Ex). cbn [perl_words] in IH. rewrite Ex in IH. exact IH. }
      destruct (K l c S1) as (ws & ->). apply G. left. reflexivity.
    + cbn [perl_words]. rewrite S1. destruct (perl_words l) as [|p ps]; apply G; right; eauto.
  - rewrite (line_conv r l P). destruct (_ && _) eqn:E; [|reflexivity]. exfalso. apply W. apply well_iff. exact E.
Qed.
Definition reads (l : text) : list (Z * pagc_rule) := match convert_line l with Some r => [r] | None => [] end.
Lemma lines_conv : forall rs ls, pagc_lines rs ls -> flat_map reads ls = map conv rs.
Proof.
  intros rs ls H. induction H as [|l rs ls H _ IH|r l rs ls H W _ IH]; [reflexivity| |]; cbn [flat_map map]; rewrite IH; unfold reads.
  - rewrite (no_conv l H). reflexivity.
  - rewrite (line_conv r l H). apply well_iff in W. rewrite W. reflexivity.
Qed.
Lemma last_reads : forall ls, flat_map reads (match rev ls with [] :: r => rev r | _ => ls end) = flat_map reads ls.
Proof.
  intros ls. destruct (rev ls) as [|[|c l] r] eqn:E; [reflexivity| |reflexivity]. assert (L : ls = rev r ++ [[]]) by (rewrite <- (rev_involutive ls), E; reflexivity).
  rewrite L, flat_map_app. cbn. rewrite app_nil_r. reflexivity.
Qed.
Lemma file_conv : forall rs t, pagc_file rs t -> flat_map reads (file_lines t) = map conv rs.
Proof.
  intros rs t (ls & C & H). unfold file_lines. rewrite last_reads. change LF with 10. rewrite (columns_fun _ _ _ _ (fields_columns 10 t) C). apply lines_conv. exact H.
Qed.
Lemma files_conv : forall rss ts, Forall2 pagc_file rss ts -> read_rules ts = map conv (concat rss).
Proof.
  intros rss ts H. unfold read_rules. induction H as [|rs t rss ts H _ IH]; [reflexivity|]. cbn [flat_map concat]. rewrite map_app, IH, <- (file_conv rs t H). reflexivity.
Qed.
(** ** Sorting *)
Definition len (r : pagc) : nat := List.length (p_ins r).
Fixpoint ins_long (r : pagc) (l : list pagc) : list pagc := match l with [] => [r] | x :: l' => if Nat.leb (len x) (len r) then r :: l else x :: ins_long r l' end.
Definition sorted (l : list pagc) : list pagc := fold_right ins_long [] l.
Definition bare (r : pagc) : pagc_rule := snd (conv r).
Lemma bare_len : forall r, List.length (pg_ins (bare r)) = len r.
Proof. intros r. unfold bare, conv. cbn. apply map_length. Qed.
Lemma sort_bare : forall l, sort_rules (map bare l) = map bare (sorted l).
Proof.
  assert (I : forall r l, longer_first (bare r) (map bare l) = map bare (ins_long r l)).
  { intros r l. induction l as [|x l IH]; [reflexivity|]. cbn [map longer_first ins_long]. rewrite !bare_len. destruct (Nat.leb _ _); [reflexivity|]. cbn [map]. rewrite IH. reflexivity. }
  intros l. induction l as [|x l IH]; [reflexivity|]. cbn [map sorted fold_right]. unfold sort_rules in *. cbn [fold_right]. rewrite IH. apply I.
Qed.
Lemma ins_perm : forall r l, Permutation (r :: l) (ins_long r l).
Proof.
  intros r l. induction l as [|x l IH]; [apply Permutation_refl|]. cbn [ins_long]. destruct (Nat.leb _ _); [apply Permutation_refl|].
  eapply Permutation_trans; [apply perm_swap|]. apply perm_skip. exact IH.
Qed.
Lemma sorted_perm : forall l, Permutation l (sorted l).
Proof. intros l. induction l as [|x l IH]; [apply perm_nil|]. cbn. eapply Permutation_trans; [apply perm_skip; exact IH|apply ins_perm]. Qed.
Lemma sorted_long : forall l, StronglySorted (fun a b => (len b <= len a)%nat) (sorted l).
Proof.
  intros l. induction l as [|r l IH]; [constructor|]. cbn [sorted fold_right]. fold (sorted l). revert IH. generalize (sorted l). clear l. intros l H.
  induction H as [|x l H IH F]; [repeat constructor|]. cbn [ins_long]. destruct (Nat.leb_spec (len x) (len r)) as [L|L].
  - constructor; [constructor; assumption|]. constructor; [exact L|]. revert F. apply Forall_impl. intros y Y. lia.
  - constructor; [exact IH|]. rewrite Forall_forall. intros y K. apply (Permutation_in _ (Permutation_sym (ins_perm r l))) in K. destruct K as [<-|K]; [lia|].
    rewrite Forall_forall in F. exact (F y K).
Qed.
Lemma sorted_keep : forall l n, filter (fun r => Nat.eqb (len r) n) (sorted l) = filter (fun r => Nat.eqb (len r) n) l.
Proof.
  assert (I : forall r l n, StronglySorted (fun a b => (len b <= len a)%nat) l ->
    filter (fun r => Nat.eqb (len r) n) (ins_long r l) = filter (fun r => Nat.eqb (len r) n) (r :: l)).
  { intros r l n H. induction H as [|x l H IH F]; [reflexivity|]. cbn [ins_long]. destruct (Nat.leb_spec (len x) (len r)) as [L|L]; [reflexivity|].
    cbn [filter] in *. rewrite IH. destruct (Nat.eqb_spec (len r) n), (Nat.eqb_spec (len x) n); try reflexivity. lia. }
  intros l n. induction l as [|r l IH]; [reflexivity|]. cbn [sorted fold_right]. fold (sorted l). rewrite I by apply sorted_long. cbn [filter]. rewrite IH. reflexivity.
Qed.
Lemma sorted_by : forall l, by_length l (sorted l).
Proof. intros l. split; [apply sorted_perm|]. split; [apply sorted_long|intros n; apply sorted_keep]. Qed.
Lemma section_conv : forall k rs, of_section (Z.of_N k) (map conv rs) = map bare (filter (fun r => p_type r =? k) rs).
Proof.
  intros k rs. unfold of_section. induction rs as [|r rs IH]; [reflexivity|]. cbn [map flat_map filter]. rewrite IH. cbn [conv fst].
  destruct (N.eqb_spec (p_type r) k) as [->|D]; [rewrite Z.eqb_refl; reflexivity|]. destruct (Z.eqb_spec (Z.of_N (p_type r)) (Z.of_N k)); [lia|reflexivity].
Qed.
(** ** Names *)
Definition pin (n : N) : intype := if n =? 5 then I_TYPE else if n =? 4 then I_BADTOKEN else match find (fun c => (in_code c =? Z.of_N n)%Z) all_in with Some c => c | None => I_STOP end.
Definition all_outs : list outtype := [O_BLDNG; O_HOUSE; O_PREDIR; O_QUALIF; O_PRETYP; O_STREET; O_SUFTYP; O_SUFDIR; O_RR; O_EXTRA; O_CITY; O_PROV; O_NATION; O_POSTAL; O_BOXH; O_BOXT; O_UNITH; O_UNITT].
Definition pout (n : N) : outtype := nth (N.to_nat n) all_outs O_STOP.
Lemma small_n : forall m n, n < N.of_nat m -> In n (map N.of_nat (seq 0 m)).
Proof. intros m n H. apply in_map_iff. exists (N.to_nat n). split; [apply N2Nat.id|apply in_seq; lia]. Qed.
Lemma pin_ok : forall n, n <= 33 -> class_in n (pin n) /\ perl_at pagc_in_names (Z.of_N n) = in_str (pin n).
Proof.
  intros n H. assert (K : In n (map N.of_nat (seq 0 34))) by (apply small_n; lia).
  assert (F : Forall (fun n => ((n =? 5) || (n =? 4) || (in_code (pin n) =? Z.of_N n)%Z) && teqb (perl_at pagc_in_names (Z.of_N n)) (in_str (pin n)) = true) (map N.of_nat (seq 0 34))).
  { apply Forall_forall. apply forallb_forall. vm_compute. reflexivity. }
  rewrite Forall_forall in F. specialize (F n K). apply andb_true_iff in F. destruct F as (F1 & F2). apply teqb_eq in F2. split; [|exact F2].
  unfold class_in. destruct (N.eqb_spec n 5) as [->|N5]; [left; split; reflexivity|]. destruct (N.eqb_spec n 4) as [->|N4]; [right; left; split; reflexivity|].
  right. right. split; [exact H|]. apply Z.eqb_eq. exact F1.
Qed.
Lemma pout_ok : forall n, n <= 17 -> class_out n (pout n) /\ perl_at pagc_out_names (Z.of_N n) = out_str (pout n).
Proof.
  intros n H. assert (K : In n (map N.of_nat (seq 0 18))) by (apply small_n; lia).
  assert (F : Forall (fun n => (out_code (pout n) =? Z.of_N n)%Z && teqb (perl_at pagc_out_names (Z.of_N n)) (out_str (pout n)) = true) (map N.of_nat (seq 0 18))).
  { apply Forall_forall. apply forallb_forall. vm_compute. reflexivity. }
  rewrite Forall_forall in F. specialize (F n K). apply andb_true_iff in F. destruct F as (F1 & F2). apply teqb_eq in F2. split; [|exact F2].
  split; [exact H|]. apply Z.eqb_eq. exact F1.
Qed.
(** ** Scores *)
Lemma worth_app : forall b a, worth (a ++ b) = worth a * 10 ^ N.of_nat (List.length b) + worth b.
Proof.
  intros b. induction b as [|c b IH] using rev_ind; intros a; [rewrite app_nil_r; cbn; unfold worth; cbn [fold_left]; lia|].
  assert (S1 : forall t, worth (t ++ [c]) = 10 * worth t + (c - 48)) by (intros t; unfold worth; rewrite fold_left_app; reflexivity).
  rewrite app_assoc, S1, IH, S1, app_length. cbn [List.length]. rewrite Nat.add_1_r, Nat2N.inj_succ, N.pow_succ_r'. lia.
Qed.
Lemma dec_worth : forall n, worth (dec_text n) = n /\ decimal (worth (dec_text n)) (dec_text n).
Proof. intros n. pose proof (dec_decimal n) as D. assert (V : worth (dec_text n) = n) by (destruct D as (_ & _ & V); symmetry; exact V). rewrite V. split; [reflexivity|exact D]. Qed.
Lemma score_text : forall n, twentieth n (perl_twentieth (Z.of_N n)).
Proof.
  intros n. unfold perl_twentieth. destruct (Z.ltb_spec (Z.of_N n) 0); [lia|]. rewrite Zabs2N.id. cbn [app]. destruct (dec_worth (n / 20)) as (V & D).
  pose proof (N.div_mod n 20 ltac:(discriminate)) as E. assert (M : n mod 20 < 20) by (apply N.mod_lt; discriminate).
  revert V D E M. generalize (n / 20), (n mod 20). intros q m. generalize (dec_text q). intros t V D E M. unfold hundredths.
  assert (X : m * 5 = 10 * (m * 5 / 10) + (m * 5) mod 10) by (apply N.div_mod; discriminate).
  assert (X1 : (m * 5) mod 10 < 10) by (apply N.mod_lt; discriminate). revert X X1. generalize (m * 5 / 10), ((m * 5) mod 10). intros x y X X1.
  destruct (N.eqb_spec (m * 5) 0) as [Z|Z]; [|destruct (N.eqb_spec y 0) as [->|Y]].
  - exists t, []. rewrite !app_nil_r. split; [exact D|]. split; [constructor|]. split; [left; split; reflexivity|]. rewrite V. change (10 ^ N.of_nat (List.length (@nil N))) with 1. lia.
  - exists t, [48 + x]. split; [exact D|]. split; [constructor; [lia|constructor]|].
    split; [right; split; [reflexivity|exists [], (48 + x); split; [reflexivity|lia]]|]. rewrite worth_app, V. change (10 ^ N.of_nat (List.length [48 + x])) with 10. unfold worth. cbn [fold_left]. lia.
  - exists t, [48 + x; 48 + y]. split; [exact D|]. split; [constructor; [lia|constructor; [lia|constructor]]|].
    split; [right; split; [reflexivity|exists [48 + x], (48 + y); split; [reflexivity|lia]]|]. rewrite worth_app, V. change (10 ^ N.of_nat (List.length [48 + x; 48 + y])) with 100. unfold worth. cbn [fold_left]. lia.
Qed.
Lemma worth_lt : forall b, digits b -> worth b < 10 ^ N.of_nat (List.length b).
Proof.
  intros b. induction b as [|c b IH] using rev_ind; intros D; [reflexivity|]. apply Forall_app in D. destruct D as (D & Dc). apply Forall_inv in Dc. specialize (IH D).
  rewrite worth_app, app_length. cbn [List.length]. change (10 ^ N.of_nat 1) with 10. rewrite Nat.add_1_r, Nat2N.inj_succ, N.pow_succ_r'. unfold worth at 2. cbn [fold_left].
  revert IH. generalize (10 ^ N.of_nat (List.length b)). intros. lia.
Qed.
Lemma twentieth_is : forall n s, twentieth n s -> s = perl_twentieth (Z.of_N n).
Proof.
  intros n s (a & b & Da & Db & C & E). unfold perl_twentieth. destruct (Z.ltb_spec (Z.of_N n) 0); [lia|]. rewrite Zabs2N.id. cbn [app].
  assert (P0 : 10 ^ N.of_nat (List.length b) <> 0) by (apply N.pow_nonzero; discriminate). pose proof (worth_lt b Db) as L. rewrite worth_app in E.
  assert (Q : n / 20 = worth a).
  { rewrite <- (N.div_mul_cancel_r n 20 (10 ^ N.of_nat (List.length b))) by (discriminate || exact P0). symmetry.
    apply (N.div_unique _ _ _ (20 * worth b)); revert E L; generalize (10 ^ N.of_nat (List.length b)); intros; nia. }
  assert (A : dec_text (n / 20) = a) by (symmetry; apply decimal_iff; rewrite Q; exact Da).
  rewrite A. pose proof (N.div_mod n 20 ltac:(discriminate)) as M. rewrite Q in M. assert (Mb : n mod 20 < 20) by (apply N.mod_lt; discriminate).
  revert M Mb. generalize (n mod 20). intros m M Mb.
  assert (F : 20 * worth b = m * 10 ^ N.of_nat (List.length b)) by (revert E M; generalize (10 ^ N.of_nat (List.length b)); intros; subst; nia).
  destruct C as [(-> & ->)|(-> & b' & c & -> & Nc)].
  - change (10 ^ N.of_nat (List.length (@nil N))) with 1 in F. unfold worth in F. cbn [fold_left] in F. assert (m = 0) as -> by lia. cbn. rewrite app_nil_r. reflexivity.
  - f_equal. apply Forall_app in Db. destruct Db as (Db' & Dc). apply Forall_inv in Dc.
    destruct b' as [|c1 [|c2 b']].
    + cbn [app] in *. change (10 ^ N.of_nat (List.length [c])) with 10 in F. unfold worth in F. cbn [fold_left] in F. unfold hundredths. assert (X : m * 5 = 10 * (c - 48)) by lia. rewrite X.
      destruct (N.eqb_spec (10 * (c - 48)) 0); [lia|]. rewrite (N.mul_comm 10), N.mod_mul, N.div_mul by discriminate. rewrite N.eqb_refl. do 2 f_equal. lia.
    + cbn [app] in *. change (10 ^ N.of_nat (List.length [c1; c])) with 100 in F. unfold worth in F. cbn [fold_left] in F. unfold hundredths.
      apply Forall_inv in Db'. assert (X : m * 5 = 10 * (c1 - 48) + (c - 48)) by lia. rewrite X.
      assert (X1 : (10 * (c1 - 48) + (c - 48)) / 10 = c1 - 48) by (symmetry; apply (N.div_unique _ _ _ (c - 48)); lia).
      assert (X2 : (10 * (c1 - 48) + (c - 48)) mod 10 = c - 48) by (symmetry; apply (N.mod_unique _ _ (c1 - 48)); lia).
      rewrite X1, X2. destruct (N.eqb_spec (10 * (c1 - 48) + (c - 48)) 0); [lia|]. destruct (N.eqb_spec (c - 48) 0); [lia|]. do 2 f_equal; [lia|]. f_equal. lia.
    + exfalso. rewrite worth_app in F. change (10 ^ N.of_nat (List.length [c])) with 10 in F. unfold worth at 2 in F. cbn [fold_left] in F.
      rewrite app_length in F. cbn [List.length] in F. rewrite Nat.add_1_r, !Nat2N.inj_succ, !N.pow_succ_r' in F. revert F. generalize (10 ^ N.of_nat (List.length b')), (worth (c1 :: c2 :: b')). intros p w F.
      assert (G : 10 * w + (c - 48) = 50 * (m * p)) by lia. lia.
Qed.
Lemma twentieth_float : forall n s, twentieth n s -> float_text s.
Proof.
  intros n s (a & b & (Da & Za & _) & Db & E & _). assert (K : forall t, digits t -> Forall (fun c => 48 <= c <= 57 \/ c = 46) t) by (intros t; apply Forall_impl; auto).
  assert (N0 : a <> []) by (destruct Za as [->|(c & r & -> & _)]; discriminate).
  destruct E as [(-> & ->)|(-> & _)]; split; [exact N0|apply K; exact Da|destruct a; discriminate|]. apply Forall_app. split; [apply K; exact Da|]. constructor; [auto|apply K; exact Db].
Qed.
(** ** The file *)
Definition doc (r : pagc) : list intype * list outtype * text := (map pin (p_ins r), map pout (p_outs r), perl_twentieth (Z.of_N (p_score r))).
Lemma spaced_join : forall ws rest l, ws <> [] -> spaced rest l -> spaced (ws ++ rest) (join [SP] ws ++ SP :: l).
Proof.
  intros ws rest l N0 H. destruct ws as [|w ws]; [congruence|]. clear N0. revert w. induction ws as [|x ws IH]; intros w.
  - cbn [app join]. apply (sp_more w [SP] rest l); [constructor; [left; reflexivity|constructor]|discriminate|exact H].
  - cbn [app]. change (join [SP] (w :: x :: ws)) with (w ++ [SP] ++ join [SP] (x :: ws)). rewrite <- !app_assoc. apply (sp_more w [SP] ((x :: ws) ++ rest)); [constructor; [left; reflexivity|constructor]|discriminate|apply IH].
Qed.
Definition line_of (r : pagc) : text :=
  join [SP] (pg_ins (bare r)) ++ s2t " -> " ++ join [SP] (pg_outs (bare r)) ++ s2t " -> " ++ perl_twentieth (pg_score (bare r)).
Lemma line_doc : forall r, p_ins r <> [] -> well_formed r -> in_range r -> rule_text (doc r) (line_of r).
Proof.
  intros r N0 (W & _) (R1 & R2 & _). unfold doc, rule_text. split; [rewrite !map_length; exact W|]. split; [eapply twentieth_float; apply score_text|].
  unfold line_of, bare, conv. cbn [snd pg_ins pg_outs pg_score].
  assert (E1 : map (fun n => perl_at pagc_in_names (Z.of_N n)) (p_ins r) = map in_str (map pin (p_ins r))).
  { rewrite map_map. apply map_ext_in. intros n K. rewrite Forall_forall in R1. apply (pin_ok n (R1 n K)). }
  assert (E2 : map (fun n => perl_at pagc_out_names (Z.of_N n)) (p_outs r) = map out_str (map pout (p_outs r))).
  { rewrite map_map. apply map_ext_in. intros n K. rewrite Forall_forall in R2. apply (pout_ok n (R2 n K)). }
  rewrite E1, E2. assert (O0 : p_outs r <> []) by (intros K; rewrite K in W; destruct (p_ins r); [congruence|discriminate W]).
  change (s2t " -> ") with (SP :: ARROW ++ [SP]). rewrite <- !app_comm_cons. apply spaced_join; [destruct (p_ins r); [congruence|discriminate]|].
  assert (B : gap [SP]) by (constructor; [left; reflexivity|constructor]). rewrite <- !app_assoc. apply (sp_more ARROW [SP]); [exact B|discriminate|].
  change (map out_str (map pout (p_outs r)) ++ [ARROW; perl_twentieth (Z.of_N (p_score r))]) with (map out_str (map pout (p_outs r)) ++ [ARROW; perl_twentieth (Z.of_N (p_score r))]).
  apply spaced_join; [destruct (p_outs r); [congruence|discriminate]|]. apply (sp_more ARROW [SP]); [exact B|discriminate|].
  rewrite <- (app_nil_r (perl_twentieth _)) at 2. apply sp_one. constructor.
Qed.
Definition part (rs : list pagc) (k : N) : list pagc := sorted (filter (fun r => p_type r =? k) rs).
Definition sect_group (rs : list pagc) (k : N * string) : text * body := (s2t (snd k), Rules (map doc (part rs (fst k)))).
Definition sect_lines (rs : list pagc) (k : N * string) : list text := (91 :: s2t (snd k) ++ [93]) :: map line_of (part rs (fst k)) ++ [[]].
Definition all_groups (rs : list pagc) : list (text * body) :=
  (ADDRESS, Refs (map (map s2t) [["MICRO"; "MACRO"]; ["HOUSE"; "ARC"; "MACRO"]; ["BUILDING"; "MICRO"; "MACRO"]; ["BUILDING"; "HOUSE"; "ARC"; "MACRO"]]%string)) ::
  map (sect_group rs) the_sections.
Definition meta_lines : list text := map s2t ["@MICRO @MACRO"; "@HOUSE @ARC @MACRO"; "@BUILDING @MICRO @MACRO"; "@BUILDING @HOUSE @ARC @MACRO"]%string.
Definition all_lines (rs : list pagc) : list text := (91 :: ADDRESS ++ [93]) :: meta_lines ++ [] :: flat_map (sect_lines rs) the_sections.
Lemma rule_line_is : forall r, rule_line (bare r) = line_of r ++ [10].
Proof. intros r. unfold rule_line, line_of. rewrite <- !app_assoc. reflexivity. Qed.
Lemma section_lines : forall rs k nm, nth k pagc_sections [] = s2t nm -> section_text (map conv rs) k = file_text (sect_lines rs (N.of_nat k, nm)).
Proof.
  intros rs k nm E. unfold section_text. rewrite E. rewrite <- (nat_N_Z k), section_conv, sort_bare. unfold sect_lines, file_text, part. cbn [fst snd flat_map].
  rewrite flat_map_app. cbn [flat_map]. change (s2t "[") with [91]. change (s2t "]") with [93]. rewrite <- !app_assoc. cbn [app]. rewrite <- !app_assoc. cbn [app].
  do 4 f_equal. change [LF] with ([] ++ [10] ++ @nil N). f_equal.
  generalize (sorted (filter (fun r => p_type r =? N.of_nat k) rs)). intros l. induction l as [|r l IH]; [reflexivity|]. cbn [map flat_map]. rewrite IH, rule_line_is. reflexivity.
Qed.
Lemma file_app : forall a b, file_text (a ++ b) = file_text a ++ file_text b.
Proof. intros a b. apply flat_map_app. Qed.
Lemma written : forall rss ts, Forall2 pagc_file rss ts -> convert_rules ts = file_text (all_lines (concat rss)).
Proof.
  intros rss ts H. unfold convert_rules. rewrite (files_conv rss ts H). generalize (concat rss). intros rs.
  assert (E : all_lines rs = ((91 :: ADDRESS ++ [93]) :: meta_lines ++ [[]]) ++ flat_map (sect_lines rs) the_sections) by reflexivity.
  rewrite E, file_app. f_equal. unfold the_sections. cbn [flat_map seq]. rewrite !file_app.
  rewrite (section_lines rs 0 "MACRO" eq_refl), (section_lines rs 1 "MICRO" eq_refl), (section_lines rs 2 "ARC" eq_refl), (section_lines rs 3 "HOUSE" eq_refl), (section_lines rs 4 "BUILDING" eq_refl).
  reflexivity.
Qed.
Lemma ident_of : forall s, s2t s <> [] -> forallb (fun c => ((48 <=? c) && (c <=? 57)) || ((65 <=? c) && (c <=? 90))) (s2t s) = true -> identifier (s2t s).
Proof.
  intros s N0 H. split; [exact N0|]. apply Forall_forall. rewrite forallb_forall in H. intros c K. specialize (H c K). left.
  apply orb_true_iff in H. destruct H as [H|H]; apply andb_true_iff in H; destruct H as (H1 & H2); apply N.leb_le in H1, H2; [left|right; left]; split; assumption.
Qed.
Lemma names_ok : Forall (fun k => identifier (s2t (snd k))) the_sections.
Proof. unfold the_sections. repeat (apply Forall_cons; [cbn [snd]; apply ident_of; [discriminate|reflexivity]|]). apply Forall_nil. Qed.
Definition usable (rs : list pagc) : Prop := Forall (fun r => p_ins r <> [] /\ well_formed r /\ in_range r) rs.
Lemma part_in : forall rs k r, In r (part rs k) <-> In r rs /\ p_type r = k.
Proof.
  intros rs k r. unfold part. split.
  - intros K. apply (Permutation_in _ (Permutation_sym (sorted_perm _))) in K. apply filter_In in K. rewrite N.eqb_eq in K. exact K.
  - intros K. apply (Permutation_in _ (sorted_perm _)). apply filter_In. rewrite N.eqb_eq. exact K.
Qed.
Lemma lines_app : forall A (f : A -> text -> Prop) xs ls, lined f xs ls -> lined f xs (ls ++ [[]]).
Proof. intros A f xs ls H. induction H; cbn [app]; [apply ln_skip; [left; reflexivity|constructor]|apply ln_skip; assumption|apply ln_line; assumption]. Qed.
Lemma sections_doc : forall rs ks, usable rs -> Forall (fun k => identifier (s2t (snd k)) /\ exists r, In r rs /\ p_type r = fst k) ks ->
  grammar_lines (map (sect_group rs) ks) (flat_map (sect_lines rs) ks).
Proof.
  intros rs ks U F. induction F as [|k ks (Hi & r & R1 & R2) F IH]; [constructor|]. cbn [map flat_map]. unfold sect_group at 1, sect_lines at 1. cbn [app].
  apply gl_group; [exact Hi| |exact IH]. split.
  - assert (K : In r (part rs (fst k))) by (apply part_in; auto). destruct (part rs (fst k)); [destruct K|discriminate].
  - apply lines_app. assert (P : Forall (fun r => p_ins r <> [] /\ well_formed r /\ in_range r) (part rs (fst k))).
    { apply Forall_forall. intros x K. apply part_in in K. unfold usable in U. rewrite Forall_forall in U. apply U. apply K. }
    induction P as [|x l (P1 & P2 & P3) P IHl]; [constructor|]. cbn [map]. apply ln_line; [apply line_doc; assumption|exact IHl].
Qed.
Lemma all_doc : forall rs, usable rs -> (forall k, k <= 4 -> exists r, In r rs /\ p_type r = k) -> grammar_lines (all_groups rs) (all_lines rs).
Proof.
  intros rs U H. unfold all_groups, all_lines.
  change (meta_lines ++ [] :: flat_map (sect_lines rs) the_sections) with ((meta_lines ++ [[]]) ++ flat_map (sect_lines rs) the_sections).
  assert (B : gap [SP]) by (constructor; [left; reflexivity|constructor]).
  assert (S1 : forall w, spaced [w] w) by (intros w; rewrite <- (app_nil_r w) at 2; apply sp_one; constructor).
  assert (S2 : forall w ws l, spaced ws l -> spaced (w :: ws) (w ++ [SP] ++ l)) by (intros w ws l K; apply sp_more; [exact B|discriminate|exact K]).
  apply gl_group; [apply (ident_of "ADDRESS"); [discriminate|reflexivity]| |].
  - split; [discriminate|]. apply lines_app. cbn [map]. unfold meta_lines. cbn [map].
    repeat (apply ln_line; [split; [discriminate|split; [cbn [map]; repeat (apply Forall_cons; [apply ident_of; [discriminate|reflexivity]|]); apply Forall_nil|]]|]); try apply ln_nil; cbn [map].
    + exact (S2 (s2t "@MICRO") _ _ (S1 (s2t "@MACRO"))).
    + exact (S2 (s2t "@HOUSE") _ _ (S2 (s2t "@ARC") _ _ (S1 (s2t "@MACRO")))).
    + exact (S2 (s2t "@BUILDING") _ _ (S2 (s2t "@MICRO") _ _ (S1 (s2t "@MACRO")))).
    + exact (S2 (s2t "@BUILDING") _ _ (S2 (s2t "@HOUSE") _ _ (S2 (s2t "@ARC") _ _ (S1 (s2t "@MACRO"))))).
  - apply sections_doc; [exact U|]. apply Forall_forall. intros k K. split; [pose proof names_ok as F; rewrite Forall_forall in F; exact (F k K)|].
    apply H. cbn in K. repeat (destruct K as [<-|K]; [cbn; lia|]). destruct K.
Qed.
Lemma group_names : forall rs, map fst (all_groups rs) = map s2t ["ADDRESS"; "MACRO"; "MICRO"; "ARC"; "HOUSE"; "BUILDING"]%string.
Proof. reflexivity. Qed.
Lemma all_referred : forall rs n, In n (map fst (all_groups rs)) -> referred (all_groups rs) n \/ n = ADDRESS.
Proof.
  intros rs n K. rewrite group_names in K. cbn [map In] in K.
  assert (R : In n (map s2t ["BUILDING"; "HOUSE"; "ARC"; "MACRO"]%string) -> referred (all_groups rs) n).
  { intros R. exists ADDRESS. eexists. eexists. split; [left; reflexivity|]. split; [right; right; right; left; reflexivity|exact R]. }
  assert (R' : In n (map s2t ["MICRO"; "MACRO"]%string) -> referred (all_groups rs) n).
  { intros Q. exists ADDRESS. eexists. eexists. split; [left; reflexivity|]. split; [left; reflexivity|exact Q]. }
  destruct K as [<-|[<-|[<-|[<-|[<-|[<-|[]]]]]]]; [right; reflexivity|left..]; [apply R; cbn; tauto|apply R'; cbn; tauto|apply R; cbn; tauto|apply R; cbn; tauto|apply R; cbn; tauto].
Qed.
Lemma refs_in : forall rs n, referred (all_groups rs) n -> In n (map fst (all_groups rs)).
Proof.
  intros rs n (m & l & ns & G & L & K). unfold all_groups in G. cbn [In] in G. destruct G as [G|G].
  - injection G as <- <-. rewrite group_names. cbn [map In] in L. repeat (destruct L as [<-|L]; [cbn [map In] in *; tauto|]). destruct L.
  - apply in_map_iff in G. destruct G as (k & G & _). discriminate G.
Qed.
Lemma all_complete : forall rs, complete (all_groups rs).
Proof.
  intros rs. split; [left; reflexivity|]. split; [|apply refs_in]. rewrite group_names. repeat (constructor; [cbn; intuition discriminate|]). constructor.
Qed.
Lemma becomes_doc : forall atof r, in_range r -> becomes atof r (mkRule (fst (fst (doc r))) (snd (fst (doc r))) (atof (snd (doc r)))).
Proof.
  intros atof r (R1 & R2 & _). unfold becomes, doc. cbn [fst snd r_in r_out r_score]. split; [|split].
  - induction R1 as [|n l H R IH]; constructor; [apply pin_ok; exact H|exact IH].
  - induction R2 as [|n l H R IH]; constructor; [apply pout_ok; exact H|exact IH].
  - eexists. split; [apply score_text|reflexivity].
Qed.
Lemma sections_are : forall atof rs ks, usable rs -> Forall2 (section_is atof rs) ks (rule_groups atof (map (sect_group rs) ks)).
Proof.
  intros atof rs ks U. induction ks as [|k ks IH]; [constructor|]. cbn [map]. unfold rule_groups in *. cbn [flat_map sect_group fst snd app]. constructor; [|exact IH].
  split; [reflexivity|]. exists (part rs (fst k)). split; [apply sorted_by|]. cbn [rs_rules]. rewrite map_map.
  assert (P : Forall in_range (part rs (fst k))).
  { apply Forall_forall. intros x K. apply part_in in K. unfold usable in U. rewrite Forall_forall in U. apply U. apply K. }
  induction P as [|x l H P IHl]; constructor; [apply becomes_doc; exact H|exact IHl].
Qed.
Lemma lines_usable : forall rs ls, pagc_lines rs ls -> Forall (fun r => p_ins r <> [] /\ well_formed r) rs.
Proof. intros rs ls H. induction H as [| |r l rs ls (H & _) W P IH]; [constructor|assumption|constructor; [split; assumption|exact IH]]. Qed.
Lemma converted_loads : forall u atof rss ts, uni_ok u -> doc_tables u -> Forall2 pagc_file rss ts -> Forall in_range (concat rss) ->
  (forall k, k <= 4 -> exists r, In r (concat rss) /\ p_type r = k) ->
  (forall r s, In r (concat rss) -> twentieth (p_score r) s -> not_le_zero (atof s)) ->
  exists L, load_grammar u atof (convert_rules ts) = Ok L /\ gl_status L = CHECK_OK /\ plain (g_metas (gl_grammar L)) = the_metas /\
    Forall2 (section_is atof (concat rss)) the_sections (g_rules (gl_grammar L)).
Proof.
  intros u atof rss ts U D F R K P. rewrite (written rss ts F). assert (W : usable (concat rss)).
  { apply Forall_forall. intros r Hr. rewrite Forall_forall in R. enough (p_ins r <> [] /\ well_formed r) by (split; [apply H|split; [apply H|exact (R r Hr)]]).
    clear - F Hr. induction F as [|rs t rss ts (ls & _ & H) F IH]; [destruct Hr|]. cbn [concat] in Hr. apply in_app_iff in Hr. destruct Hr as [Hr|Hr]; [|exact (IH Hr)].
    apply lines_usable in H. rewrite Forall_forall in H. exact (H r Hr). }
  revert R K P W. generalize (concat rss). intros rs R K P W.
  destruct (documented_loads u atof (all_groups rs) (all_lines rs) U D (all_doc rs W K) (all_complete rs)) as (L & E & M & G & S1).
  - intros s (m & l & i & o & G & Q). unfold all_groups in G. destruct G as [G|G]; [discriminate G|]. apply in_map_iff in G. destruct G as (k & G & _). injection G as _ <-.
    apply in_map_iff in Q. destruct Q as (r & Q & Hr). injection Q as _ _ <-. apply part_in in Hr. apply (P r); [apply Hr|apply score_text].
  - exists L. split; [exact E|]. split; [apply S1; apply all_referred|]. split; [exact M|]. rewrite G. apply (sections_are atof rs the_sections W).
Qed.

(** ** Examples *)
Lemma apart_join : forall ws, ws <> [] -> apart ws (join [32] ws).
Proof.
  intros ws H. destruct ws as [|w ws]; [congruence|]. clear H. revert w. induction ws as [|x ws IH]; intros w.
  - cbn [join]. rewrite <- (app_nil_r w) at 2. apply ap_one. constructor.
  - change (join [32] (w :: x :: ws)) with (w ++ [32] ++ join [32] (x :: ws)). apply ap_more; [constructor; [left; reflexivity|constructor]|discriminate|apply IH].
Qed.
Lemma dec_numeral : forall n, numeral n (dec_text n).
Proof. intros n. destruct (dec_decimal n) as (D & Z & V). split; [destruct Z as [->|(c & r & -> & _)]; discriminate|]. split; [exact D|exact V]. Qed.
Definition print_line (r : pagc) : text := join [32] (map dec_text (p_ins r) ++ s2t "-1" :: map dec_text (p_outs r) ++ [s2t "-1"; dec_text (p_type r); dec_text (p_score r)]).
Lemma printed : forall r, p_ins r <> [] -> p_outs r <> [] -> pagc_line r (print_line r).
Proof.
  intros r I1 O1. split; [exact I1|]. split; [exact O1|]. assert (F : forall l, Forall2 numeral l (map dec_text l)) by (intros l; induction l; constructor; [apply dec_numeral|assumption]).
  exists (map dec_text (p_ins r)), (map dec_text (p_outs r)), (dec_text (p_type r)), (dec_text (p_score r)). split; [apply F|]. split; [apply F|]. split; [apply dec_numeral|].
  split; [apply dec_numeral|]. apply apart_join. destruct (map dec_text (p_ins r)); discriminate.
Qed.
Definition pg_rules : list pagc :=
  [mkP [10; 11; 29] [10; 11; 13] 0 17; mkP [10; 11] [10; 11] 0 8; mkP [0; 1; 5] [1; 5; 6] 1 16; mkP [1; 2] [5; 6] 2 10; mkP [0] [1] 3 20; mkP [24; 0] [0; 0] 4 9; mkP [10] [10] 0 1; mkP [10; 12] [10; 12] 0 4].
Definition pg_text : text := Eval vm_compute in join [10] (map s2t
  ["10 11 29 -1 10 11 13 -1 0 17"; "10 11 -1 10 11 -1 0 8"; "# a rule of the street"; "0 1 5 -1 1 5 6 -1 1 16"; "1 2 -1 5 6 -1 2 10"; "1 2 -1 5 -1 2 10"; "0 -1 1 -1 3 20"; "0 -1 1 -1 7 20";
   "24 0 -1 0 0 -1 4 9"; "10 -1 10 -1 0 1"; "10 12 -1 10 12 -1 0 4"; "-1"; ""]%string).
Lemma skip_head : forall l, match l with c :: _ => negb (perl_digit c) | [] => true end = true -> no_rule l.
Proof.
  intros l H. left. intros c t -> K. unfold perl_digit in H. apply negb_true_iff, andb_false_iff in H. destruct H as [H|H]; apply N.leb_gt in H; lia.
Qed.
Lemma pg_file : pagc_file pg_rules pg_text.
Proof.
  assert (R : forall r rs ls, p_ins r <> [] -> p_outs r <> [] -> well_formed r -> pagc_lines rs ls -> pagc_lines (r :: rs) (print_line r :: ls)).
  { intros r rs ls I1 O1 W H. apply pl_rule; [apply printed; assumption|exact W|exact H]. }
  assert (B : forall r rs ls, p_ins r <> [] -> p_outs r <> [] -> ~ well_formed r -> pagc_lines rs ls -> pagc_lines rs (print_line r :: ls)).
  { intros r rs ls I1 O1 W H. apply pl_skip; [right; exists r; split; [apply printed; assumption|exact W]|exact H]. }
  assert (K : forall l rs ls, match l with c :: _ => negb (perl_digit c) | [] => true end = true -> pagc_lines rs ls -> pagc_lines rs (l :: ls)).
  { intros l rs ls H. apply pl_skip. apply skip_head. exact H. }
  exists (map print_line (firstn 2 pg_rules) ++ [s2t "# a rule of the street"] ++ map print_line (firstn 2 (skipn 2 pg_rules)) ++ [print_line (mkP [1; 2] [5] 2 10)] ++
    map print_line (firstn 1 (skipn 4 pg_rules)) ++ [print_line (mkP [0] [1] 7 20)] ++ map print_line (skipn 5 pg_rules) ++ [s2t "-1"; []]). split.
  - assert (E : fields 10 pg_text = map print_line (firstn 2 pg_rules) ++ [s2t "# a rule of the street"] ++ map print_line (firstn 2 (skipn 2 pg_rules)) ++ [print_line (mkP [1; 2] [5] 2 10)] ++
    map print_line (firstn 1 (skipn 4 pg_rules)) ++ [print_line (mkP [0] [1] 7 20)] ++ map print_line (skipn 5 pg_rules) ++ [s2t "-1"; []]) by (vm_compute; reflexivity).
    rewrite <- E. apply fields_columns.
  - cbn [firstn skipn map app pg_rules].
    assert (W : forall i o t s, List.length i = List.length o -> t <= 4 -> well_formed (mkP i o t s)) by (intros; split; assumption).
    do 2 (apply R; [discriminate|discriminate|apply W; [reflexivity|lia]|]). apply K; [reflexivity|]. do 2 (apply R; [discriminate|discriminate|apply W; [reflexivity|lia]|]).
    apply B; [discriminate|discriminate|intros (W1 & _); discriminate W1|]. apply R; [discriminate|discriminate|apply W; [reflexivity|lia]|].
    apply B; [discriminate|discriminate|intros (_ & W1); cbn in W1; lia|]. do 3 (apply R; [discriminate|discriminate|apply W; [reflexivity|lia]|]).
    do 2 (apply K; [reflexivity|]). constructor.
Qed.
Lemma pg_ex : uni_ok ascii_uni /\ doc_tables ascii_uni /\ Forall2 pagc_file [pg_rules] [pg_text] /\ Forall in_range (concat [pg_rules]) /\
  (forall k, k <= 4 -> exists r, In r (concat [pg_rules]) /\ p_type r = k) /\
  (forall r s, In r (concat [pg_rules]) -> twentieth (p_score r) s -> not_le_zero (sample_atof s)) /\
  convert_rules [pg_text] = s2t "[ADDRESS]
@MICRO @MACRO
@HOUSE @ARC @MACRO
@BUILDING @MICRO @MACRO
@BUILDING @HOUSE @ARC @MACRO

[MACRO]
CITY PROV QUAD -> CITY PROV POSTAL -> 0.85
CITY PROV -> CITY PROV -> 0.4
CITY NATION -> CITY NATION -> 0.2
CITY -> CITY -> 0.05

[MICRO]
NUMBER WORD TYPE -> HOUSE STREET SUFTYP -> 0.8

[ARC]
WORD TYPE -> STREET SUFTYP -> 0.5

[HOUSE]
NUMBER -> HOUSE -> 1

[BUILDING]
BUILDT NUMBER -> BLDNG BLDNG -> 0.45

".
Proof.
  split; [exact (proj1 doc_ex)|]. split; [exact (proj1 (proj2 doc_ex))|]. split; [constructor; [exact pg_file|constructor]|].
  split; [repeat (apply Forall_cons; [split; [repeat constructor; discriminate|split; [repeat constructor; discriminate|reflexivity]]|]); apply Forall_nil|].
  split; [|split].
  - intros k K. assert (C : k = 0 \/ k = 1 \/ k = 2 \/ k = 3 \/ k = 4) by lia. cbn [concat app pg_rules].
    destruct C as [->|[->|[->|[->| ->]]]].
    + eexists; split; [left; reflexivity|reflexivity].
    + eexists; split; [right; right; left; reflexivity|reflexivity].
    + eexists; split; [do 3 right; left; reflexivity|reflexivity].
    + eexists; split; [do 4 right; left; reflexivity|reflexivity].
    + eexists; split; [do 5 right; left; reflexivity|reflexivity].
  - intros r s K T. rewrite (twentieth_is _ _ T). cbn in K. repeat (destruct K as [<-|K]; [vm_compute; reflexivity|]). destruct K.
  - vm_compute. reflexivity.
Qed.
(** Without rules for buildings, or with a score of 0, the grammar written is rejected. *)
Definition small_rules : list pagc := [mkP [10] [10] 0 1; mkP [0; 1; 5] [1; 5; 6] 1 16; mkP [1; 2] [5; 6] 2 10; mkP [0] [1] 3 20].
Lemma one_file : forall rs, Forall (fun r => p_ins r <> [] /\ p_outs r <> [] /\ well_formed r) rs -> fields 10 (join [10] (map print_line rs)) = map print_line rs ->
  pagc_file rs (join [10] (map print_line rs)).
Proof.
  intros rs F E. exists (map print_line rs). split; [rewrite <- E at 2; apply fields_columns|]. clear E.
  induction F as [|r rs (I1 & O1 & W) F IH]; [constructor|]. apply pl_rule; [apply printed; assumption|exact W|exact IH].
Qed.
Lemma no_building : exists rs t m, pagc_file rs t /\ Forall in_range rs /\ (forall k, k <= 3 -> exists r, In r rs /\ p_type r = k) /\
  load_grammar ascii_uni sample_atof (convert_rules [t]) = Throw m.
Proof.
  exists small_rules, (join [10] (map print_line small_rules)). eexists. split; [apply one_file|split; [|split]].
  - repeat (apply Forall_cons; [split; [discriminate|split; [discriminate|split; [reflexivity|cbn [p_type]; lia]]]|]). apply Forall_nil.
  - vm_compute. reflexivity.
  - repeat (apply Forall_cons; [split; [repeat constructor; discriminate|split; [repeat constructor; discriminate|reflexivity]]|]). apply Forall_nil.
  - intros k K. assert (C : k = 0 \/ k = 1 \/ k = 2 \/ k = 3) by lia. destruct C as [->|[->|[->| ->]]].
    + eexists; split; [left; reflexivity|reflexivity].
    + eexists; split; [right; left; reflexivity|reflexivity].
    + eexists; split; [right; right; left; reflexivity|reflexivity].
    + eexists; split; [do 3 right; left; reflexivity|reflexivity].
  - vm_compute. reflexivity.
Qed.
Definition zero_rules : list pagc := small_rules ++ [mkP [24; 0] [0; 0] 4 0].
Lemma zero_score : exists rs t m, pagc_file rs t /\ Forall (fun r => Forall (fun n => n <= 33) (p_ins r) /\ Forall (fun n => n <= 17) (p_outs r)) rs /\
  (forall k, k <= 4 -> exists r, In r rs /\ p_type r = k) /\ load_grammar ascii_uni sample_atof (convert_rules [t]) = Throw m.
Proof.
  exists zero_rules, (join [10] (map print_line zero_rules)). eexists. split; [apply one_file|split; [|split]].
  - repeat (apply Forall_cons; [split; [discriminate|split; [discriminate|split; [reflexivity|cbn [p_type]; lia]]]|]). apply Forall_nil.
  - vm_compute. reflexivity.
  - repeat (apply Forall_cons; [split; repeat constructor; discriminate|]). apply Forall_nil.
  - intros k K. assert (C : k = 0 \/ k = 1 \/ k = 2 \/ k = 3 \/ k = 4) by lia. destruct C as [->|[->|[->|[->| ->]]]].
    + eexists; split; [left; reflexivity|reflexivity].
    + eexists; split; [right; left; reflexivity|reflexivity].
    + eexists; split; [right; right; left; reflexivity|reflexivity].
    + eexists; split; [do 3 right; left; reflexivity|reflexivity].
    + eexists; split; [do 4 right; left; reflexivity|reflexivity].
  - vm_compute. reflexivity.
Qed.
(** A third -1 in a row is read as the code of the last class. *)
Lemma three_minus : exists l, (forall r, ~ pagc_line r l) /\ convert_line l = Some (3%Z, mkPagc [s2t "NUMBER"] [s2t "UNITT"] 20%Z).
Proof.
  exists (s2t "0 -1 -1 -1 3 20"). split; [|vm_compute; reflexivity]. intros r P. destruct (line_words _ _ P) as (is & os & ty & sc & e & H1 & H2 & H3 & H4 & E & Ee).
  destruct P as (N1 & N2 & _). destruct (line_parts r is os ty sc e N1 N2 H1 H2 H3 H4 Ee) as (_ & G). rewrite <- E in G. vm_compute in G. injection G as _ <- _ _.
  inversion H2 as [|n w ns ws (_ & D & _) F]; subst. inversion D. lia.
Qed.
