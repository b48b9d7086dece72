(** Lemmas about blanks around an address. *)
From Coq Require Import String List NArith Bool Lia Arith.
From Verif Require Import Base_model Class_model Uni_model Token_model Lexicon_model Tokenizer_model Archive_model Float_model Rule_model Search_model Grammar_model Wrapper_model
  Sample_model Class_spec Grammar_spec LexText_spec Lexicon_spec Tokenizer_spec Split_spec Read_spec Address_spec Answer_spec End_spec Edges_spec TokAlt_proofs Tab_proofs Split_proofs Address_proofs Wrapper_proofs WrapperTop_proofs TokExample_proofs WrapperEx_proofs AddressEx_proofs End_proofs EndEx_proofs.
Import ListNotations.
Local Open Scope N_scope.

Section Tables.
Variables (u : uni) (x : lexicon).
Hypothesis AP : apart_tables u.
Hypothesis WT : word_tables u.
Hypothesis BK : u_space u 32 = true.
Hypothesis TW : trim_words u x.

Lemma blank_sep : sep_char u 32.
Proof. right; right; right; left. exact BK. Qed.
Lemma blank_not_alnum : ~ alnum u 32.
Proof. intros H. destruct AP as (A & _). destruct (A 32 H) as (K & _). apply K. exact blank_sep. Qed.
Lemma no_nothing : forall t, ~ nothing_at x u t.
Proof. intros t (H & _). destruct TW as (_ & w & L & N). exact (N (H w L)). Qed.
Lemma word_head : forall c w, word_like u x (c :: w) -> c <> 32.
Proof. intros c w H ->. destruct TW as (E & _). specialize (E _ 32 H (or_introl eq_refl)). congruence. Qed.
Lemma word_last : forall w, ~ word_like u x (w ++ [32]).
Proof. intros w H. destruct TW as (E & _). specialize (E _ 32 H). rewrite rev_app_distr in E. specialize (E (or_intror eq_refl)). congruence. Qed.
Lemma word_some : forall w, word_like u x w -> w <> [].
Proof. intros w (v & _ & N & F) ->. inversion F; subst. apply N. reflexivity. Qed.
Lemma number_head : forall c w, number_like u (c :: w) -> u_digit u c = true.
Proof.
  intros c w (a & s & b & E & (NA & FA) & _). destruct a as [|a0 a]; [destruct (NA eq_refl)|]. injection E as -> _. inversion FA; assumption.
Qed.
Lemma number_last : forall w c, number_like u (w ++ [c]) -> u_digit u c = true.
Proof.
  intros w c (a & s & b & E & _ & (NB & FB) & _). destruct (exists_last NB) as (b' & d & ->). assert (w ++ [c] = (a ++ s :: b') ++ [d]) as K by (rewrite E, <- app_assoc; reflexivity).
  apply app_inj_tail in K. destruct K as (_ & ->). rewrite Forall_forall in FB. apply FB. apply in_or_app. right. left. reflexivity.
Qed.
Lemma digit_not_blank : u_digit u 32 <> true.
Proof. intros H. apply blank_not_alnum. right. exact H. Qed.
(** No token begins with a blank. *)
Lemma token_head : forall t w r, ~ token_at u x (32 :: t) w r.
Proof.
  intros t w r H. inversion H as [w0 r0 _ (E & W & _) _|_ N|w0 r0 _ _ _ (E & W & _)|w0 r0 _ _ _ _ (E & W1 & W2 & _)]; subst.
  - assert (N := word_some w W). destruct w as [|c w]; [exact (N eq_refl)|]. injection E as <- _. exact (word_head 32 w W eq_refl).
  - exact (no_nothing _ N).
  - destruct w as [|c w]; [destruct W as (a & s & b & E2 & _); destruct a; discriminate|]. injection E as <- _. exact (digit_not_blank (number_head _ _ W)).
  - destruct w as [|c w]; [exact (W1 eq_refl)|]. injection E as <- _. inversion W2; subst. exact (blank_not_alnum H2).
Qed.
Lemma token_nil : forall w r, ~ token_at u x [] w r.
Proof.
  intros w r H. inversion H as [w0 r0 _ (E & W & _) _|_ N|w0 r0 _ _ _ (E & W & _)|w0 r0 _ _ _ _ (E & W1 & W2 & _)]; subst.
  - symmetry in E. apply app_eq_nil in E. destruct E as (-> & _). exact (word_some [] W eq_refl).
  - exact (no_nothing _ N).
  - symmetry in E. apply app_eq_nil in E. destruct E as (-> & _). destruct W as (a & s & b & E2 & _). destruct a; discriminate.
  - symmetry in E. apply app_eq_nil in E. destruct E as (-> & _). exact (W1 eq_refl).
Qed.

(** ** A blank before the text *)
Lemma unreadable_blank : forall t, unreadable u x (32 :: t) <-> unreadable u x t.
Proof.
  intros t. split; intros H b t' w r E B K.
  - apply (H (32 :: b) t' w r); [rewrite E; reflexivity|constructor; [exact BK|exact B]|exact K].
  - destruct b as [|c b]; cbn [app] in E.
    + subst t'. exact (token_head _ _ _ K).
    + injection E as <- E. inversion B; subst. eapply (H b t' w r); [reflexivity|assumption|exact K].
Qed.
Lemma line_blank : forall a t, line_start (32 :: a) t <-> a <> [] /\ line_start a t.
Proof.
  intros a t. split.
  - intros [H|(a' & c & E & L & N)]; [discriminate|]. destruct a' as [|d a']; cbn [app] in E.
    + injection E as <- ->. exfalso. unfold line_end in L. cbn in L. intuition discriminate.
    + injection E as _ ->. split; [destruct a'; discriminate|]. right. exists a', c. auto.
  - intros (N & [H|(a' & c & -> & L & M)]); [contradiction|]. right. exists (32 :: a'), c. auto.
Qed.
Lemma stop_blank : forall t, (forall a t', t = a ++ t' -> line_start a t' -> unreadable u x t') -> forall a t', 32 :: t = a ++ t' -> line_start a t' -> unreadable u x t'.
Proof.
  intros t H a t' E L. destruct a as [|c a]; cbn [app] in E.
  - subst t'. apply unreadable_blank. apply (H [] t eq_refl). left. reflexivity.
  - injection E as <- E. apply line_blank in L. destruct L as (N & L). exact (H a t' E L).
Qed.
Lemma read_blank : forall t b w r, read_at u x t b w r -> read_at u x (32 :: t) (32 :: b) w r.
Proof.
  intros t b w r (E & B & T & M). split; [rewrite E; reflexivity|]. split; [constructor; [exact BK|exact B]|]. split; [exact T|].
  intros b' t' E' B' L w' r'. destruct b' as [|c b']; [cbn in L; lia|]. injection E' as <- E'. inversion B'; subst. apply (M b' t' E'); [assumption|]. cbn in L. lia.
Qed.
Lemma round_blank : forall t p rest, read_round u x t p rest -> exists p', read_round u x (32 :: t) p' rest /\ pc_tok p' = pc_tok p /\ pc_sep p' = pc_sep p.
Proof.
  intros t p rest (b & t' & E & L & R & S1 & EA & M). destruct (pc_skip p) as [|c s] eqn:Es.
  - exists (mkPiece [] (32 :: b ++ pc_tok p ++ pc_sep p) (pc_tok p) (pc_sep p)). split; [|split; reflexivity]. exists (32 :: b), (32 :: t'). cbn [pc_skip pc_tok pc_sep pc_all app].
    split; [rewrite E; reflexivity|]. split; [left; reflexivity|]. split; [apply read_blank; exact R|]. split; [exact S1|]. split; [reflexivity|]. intros a1 a2 E2 N. symmetry in E2. apply app_eq_nil in E2. destruct E2 as (_ & ->). destruct (N eq_refl).
  - exists (mkPiece (32 :: c :: s) (pc_all p) (pc_tok p) (pc_sep p)). split; [|split; reflexivity]. exists b, t'. cbn [pc_skip pc_tok pc_sep pc_all app].
    split; [rewrite E; reflexivity|]. split; [apply line_blank; split; [discriminate|exact L]|]. split; [exact R|]. split; [exact S1|]. split; [exact EA|].
    intros a1 a2 E2 N L2. destruct a1 as [|d a1]; cbn [app] in E2.
    + subst a2. cbn [app]. apply unreadable_blank. apply (M [] (c :: s) eq_refl ltac:(discriminate)). left. reflexivity.
    + injection E2 as <- E2. apply line_blank in L2. destruct L2 as (_ & L2). exact (M a1 a2 E2 N L2).
Qed.
Definition alike_pieces (p p' : piece) : Prop := pc_tok p = pc_tok p' /\ pc_sep p = pc_sep p'.
Lemma alike_refl : forall ps, Forall2 alike_pieces ps ps.
Proof. induction ps; constructor; [split; reflexivity|assumption]. Qed.
Lemma scanned_front : forall t ps, scanned u x t ps -> exists ps', scanned u x (32 :: t) ps' /\ Forall2 alike_pieces ps ps'.
Proof.
  intros t ps H. destruct H as [t H|p H|t p rest ps N R S1].
  - exists []. split; [apply sc_stop; apply stop_blank; exact H|constructor].
  - exfalso. destruct H as (b & t' & E & _ & (E2 & _ & T & _) & _). symmetry in E. apply app_eq_nil in E. destruct E as (_ & ->). symmetry in E2. apply app_eq_nil in E2. destruct E2 as (_ & E2).
    rewrite E2 in T. exact (token_nil _ _ T).
  - destruct (round_blank t p rest R) as (p' & R' & A1 & A2). exists (p' :: ps). split; [apply (sc_more u x (32 :: t) p' rest ps); [discriminate|exact R'|exact S1]|].
    constructor; [split; congruence|apply alike_refl].
Qed.

(** ** A blank after the text *)
Lemma snoc_app : forall (t a b : text) c, t ++ [c] = a ++ b -> (b = [] /\ a = t ++ [c]) \/ exists b', b = b' ++ [c] /\ t = a ++ b'.
Proof.
  intros t a b c E. destruct b as [|d b] using rev_ind; [left; rewrite app_nil_r in E; auto|]. right. clear IHb. rewrite app_assoc in E. apply app_inj_tail in E. destruct E as (-> & <-). exists b. auto.
Qed.
Lemma stops_blank : forall r, stops u (r ++ [32]) <-> stops u r.
Proof. intros [|c r]; cbn [app stops]; [|reflexivity]. split; [intros _; exact I|intros _; left; exact blank_sep]. Qed.
Lemma dash_blank : forall t, t <> [] -> (begins_dash u (t ++ [32]) <-> begins_dash u t).
Proof. intros [|c t] N; [destruct (N eq_refl)|]. reflexivity. Qed.
Lemma word_back : forall t w r, word_at x u t w r <-> word_at x u (t ++ [32]) w (r ++ [32]).
Proof.
  intros t w r. unfold word_at. rewrite stops_blank, app_assoc. split; intros (E & W & S1); (split; [|split; assumption]); [rewrite E; reflexivity|]. apply app_inj_tail in E. apply E.
Qed.
Lemma word_back_rest : forall t w r, word_at x u (t ++ [32]) w r -> exists r', r = r' ++ [32] /\ word_at x u t w r'.
Proof.
  intros t w r H. assert (K := H). destruct K as (E & W & _). destruct (snoc_app _ _ _ _ E) as [(-> & ->)|(r' & -> & _)]; [destruct (word_last _ W)|]. exists r'. split; [reflexivity|]. apply word_back. exact H.
Qed.
Lemma number_back : forall t w r, number_at u t w r <-> number_at u (t ++ [32]) w (r ++ [32]).
Proof.
  intros t w r. unfold number_at. rewrite stops_blank, app_assoc. split; intros (E & W & S1); (split; [|split; assumption]); [rewrite E; reflexivity|]. apply app_inj_tail in E. apply E.
Qed.
Lemma number_back_rest : forall t w r, number_at u (t ++ [32]) w r -> exists r', r = r' ++ [32] /\ number_at u t w r'.
Proof.
  intros t w r H. assert (K := H). destruct K as (E & W & _). destruct (snoc_app _ _ _ _ E) as [(-> & ->)|(r' & -> & _)]; [destruct (digit_not_blank (number_last _ _ W))|]. exists r'. split; [reflexivity|]. apply number_back. exact H.
Qed.
Lemma run_back : forall t w r, run_at u t w r <-> run_at u (t ++ [32]) w (r ++ [32]).
Proof.
  intros t w r. unfold run_at. rewrite stops_blank, app_assoc. split; intros (E & W & S1); (split; [|split; assumption]); [rewrite E; reflexivity|]. apply app_inj_tail in E. apply E.
Qed.
Lemma run_back_rest : forall t w r, run_at u (t ++ [32]) w r -> exists r', r = r' ++ [32] /\ run_at u t w r'.
Proof.
  intros t w r H. assert (K := H). destruct K as (E & _ & W & _). destruct (snoc_app _ _ _ _ E) as [(-> & ->)|(r' & -> & _)].
  - exfalso. rewrite Forall_forall in W. apply blank_not_alnum. apply W. apply in_or_app. right. left. reflexivity.
  - exists r'. split; [reflexivity|]. apply run_back. exact H.
Qed.
Lemma token_back : forall t w r, token_at u x t w r <-> token_at u x (t ++ [32]) w (r ++ [32]).
Proof.
  intros t w r. destruct t as [|c t].
  { split; intros H; exfalso; [exact (token_nil _ _ H)|exact (token_head _ _ _ H)]. }
  assert (DB := dash_blank (c :: t) ltac:(discriminate)). set (s := c :: t) in *. clearbody s.
  assert (NW : (forall w' r', ~ word_at x u s w' r') <-> (forall w' r', ~ word_at x u (s ++ [32]) w' r')).
  { split; intros H w' r' K; [destruct (word_back_rest _ _ _ K) as (r2 & _ & K2); exact (H _ _ K2)|]. apply word_back in K. exact (H _ _ K). }
  assert (NN : (forall w' r', ~ number_at u s w' r') <-> (forall w' r', ~ number_at u (s ++ [32]) w' r')).
  { split; intros H w' r' K; [destruct (number_back_rest _ _ _ K) as (r2 & _ & K2); exact (H _ _ K2)|]. apply number_back in K. exact (H _ _ K). }
  split; intros H.
  - inversion H as [w0 r0 D W M E1 E2|D N E1 E2|w0 r0 D W N Nu E1 E2|w0 r0 D W N Nu Ru E1 E2]; subst w0 r0 || subst.
    + apply ta_word; [rewrite DB; exact D|apply (proj1 (word_back _ _ _)); exact W|]. intros w' r' K. destruct (word_back_rest _ _ _ K) as (r2 & _ & K2). exact (M _ _ K2).
    + destruct (no_nothing _ N).
    + apply ta_number; [rewrite DB; exact D|apply (proj1 NW); exact W|apply no_nothing|apply (proj1 (number_back _ _ _)); exact Nu].
    + apply ta_run; [rewrite DB; exact D|apply (proj1 NW); exact W|apply no_nothing|apply (proj1 NN); exact Nu|apply (proj1 (run_back _ _ _)); exact Ru].
  - remember (r ++ [32]) as r1 eqn:Er. destruct H as [w0 r0 D W M|D N|w0 r0 D W N Nu|w0 r0 D W N Nu Ru].
    + subst r0. apply ta_word; [rewrite <- DB; exact D|apply (proj2 (word_back _ _ _)); exact W|]. intros w' r' K. apply word_back in K. exact (M _ _ K).
    + destruct (no_nothing _ N).
    + subst r0. apply ta_number; [rewrite <- DB; exact D|apply (proj2 NW); exact W|apply no_nothing|apply (proj2 (number_back _ _ _)); exact Nu].
    + subst r0. apply ta_run; [rewrite <- DB; exact D|apply (proj2 NW); exact W|apply no_nothing|apply (proj2 NN); exact Nu|apply (proj2 (run_back _ _ _)); exact Ru].
Qed.
Lemma token_back_rest : forall t w r, token_at u x (t ++ [32]) w r -> exists r', r = r' ++ [32].
Proof.
  intros t w r H. destruct H as [w0 r0 D W M|D N|w0 r0 D W N Nu|w0 r0 D W N Nu Ru].
  - destruct (word_back_rest _ _ _ W) as (r' & E & _). exists r'. exact E.
  - destruct (no_nothing _ N).
  - destruct (number_back_rest _ _ _ Nu) as (r' & E & _). exists r'. exact E.
  - destruct (run_back_rest _ _ _ Ru) as (r' & E & _). exists r'. exact E.
Qed.
Lemma unreadable_back : forall t, unreadable u x t -> unreadable u x (t ++ [32]).
Proof.
  intros t H b t' w r E B K. destruct (snoc_app _ _ _ _ E) as [(-> & _)|(t2 & -> & E2)]; [exact (token_nil _ _ K)|].
  destruct (token_back_rest _ _ _ K) as (r' & ->). apply token_back in K. exact (H b t2 w r' E2 B K).
Qed.
Lemma unreadable_nil : unreadable u x [].
Proof. intros b t' w r E B K. symmetry in E. apply app_eq_nil in E. destruct E as (_ & ->). exact (token_nil _ _ K). Qed.
Lemma line_back : forall a t, line_start a t <-> line_start a (t ++ [32]).
Proof.
  intros a t. assert (K : hd_error t = Some 10 <-> hd_error (t ++ [32]) = Some 10) by (destruct t; [split; discriminate|reflexivity]).
  split; (intros [H|(a' & c & E & L & N)]; [left; exact H|right; exists a', c; split; [exact E|split; [exact L|]]; intros (N1 & N2); apply N; split; [exact N1|apply K; exact N2]]).
Qed.
Lemma read_back : forall t b w r, read_at u x t b w r -> read_at u x (t ++ [32]) b w (r ++ [32]).
Proof.
  intros t b w r (E & B & T & M). split; [rewrite E, <- !app_assoc; reflexivity|]. split; [exact B|]. split; [rewrite app_assoc; apply (proj1 (token_back (w ++ r) w r)); exact T|].
  intros b' t' E' B' L w' r' K. destruct (snoc_app _ _ _ _ E') as [(-> & _)|(t2 & -> & E2)]; [exact (token_nil _ _ K)|].
  destruct (token_back_rest _ _ _ K) as (r2 & ->). apply token_back in K. exact (M b' t2 E2 B' L w' r2 K).
Qed.
(** What happens to the separator. *)
Definition longer_sep (s s' : text) : Prop := s' = s \/ s' = s ++ [32].
Lemma sep_back : forall s rest, separator u s rest -> exists s' rest', s ++ rest ++ [32] = s' ++ rest' /\ separator u s' rest' /\
  ((rest <> [] /\ s' = s /\ rest' = rest ++ [32]) \/ (rest = [] /\ s' = s ++ [32] /\ rest' = []) \/ (rest = [] /\ s' = s /\ rest' = [32])).
Proof.
  intros s rest S1. destruct rest as [|c rest].
  - destruct S1 as [(-> & _)|[(N & F & _)|(c & -> & D & N)]].
    + exists [32], []. split; [reflexivity|]. split; [|right; left; auto]. right; left. split; [discriminate|]. split; [constructor; [exact blank_sep|constructor]|exact I].
    + exists (s ++ [32]), []. rewrite app_nil_r. split; [reflexivity|]. split; [|right; left; auto]. right; left. split; [destruct s; discriminate|]. split; [apply Forall_app; split; [exact F|constructor; [exact blank_sep|constructor]]|exact I].
    + exists [c], [32]. split; [reflexivity|]. split; [|right; right; auto]. right; right. exists c. auto.
  - exists s, ((c :: rest) ++ [32]). split; [reflexivity|]. split; [|left; split; [discriminate|auto]]. destruct S1 as [(_ & E)|[(N & F & H)|K]]; [discriminate|right; left; auto|right; right; exact K].
Qed.
Lemma round_back : forall t p rest, read_round u x t p rest -> exists p' rest', read_round u x (t ++ [32]) p' rest' /\ pc_tok p' = pc_tok p /\
  ((rest <> [] /\ pc_sep p' = pc_sep p /\ rest' = rest ++ [32]) \/ (rest = [] /\ pc_sep p' = pc_sep p ++ [32] /\ rest' = []) \/ (rest = [] /\ pc_sep p' = pc_sep p /\ rest' = [32])).
Proof.
  intros t p rest (b & t' & E & L & R & S1 & EA & M). destruct (sep_back _ _ S1) as (s' & rest' & E2 & S2 & C).
  exists (mkPiece (pc_skip p) (b ++ pc_tok p ++ s') (pc_tok p) s'), rest'. split; [|split; [reflexivity|exact C]]. exists b, (t' ++ [32]). cbn [pc_skip pc_tok pc_sep pc_all].
  split; [rewrite E, <- app_assoc; reflexivity|]. split; [apply (proj1 (line_back _ _)); exact L|]. split; [rewrite <- E2, app_assoc; apply read_back; exact R|]. split; [exact S2|]. split; [reflexivity|].
  intros a1 a2 E3 N L2. rewrite app_assoc in L2. apply (proj2 (line_back _ _)) in L2. rewrite app_assoc. apply unreadable_back. exact (M a1 a2 E3 N L2).
Qed.
Lemma scanned_nil : forall ps, scanned u x [] ps -> ps = [].
Proof.
  intros ps H. inversion H as [t K|p K|t p rest qs N R S1]; subst; [reflexivity| |destruct (N eq_refl)]. exfalso.
  destruct K as (b & t' & E & _ & (E2 & _ & T & _) & _). symmetry in E. apply app_eq_nil in E. destruct E as (_ & ->). symmetry in E2. apply app_eq_nil in E2. destruct E2 as (_ & E2).
  rewrite E2 in T. exact (token_nil _ _ T).
Qed.
Lemma scanned_stop_blank : scanned u x [32] [].
Proof. apply sc_stop. apply stop_blank. intros a t' E L. symmetry in E. apply app_eq_nil in E. destruct E as (_ & ->). exact unreadable_nil. Qed.
Lemma scanned_stop_nil : scanned u x [] [].
Proof. apply sc_stop. intros a t' E L. symmetry in E. apply app_eq_nil in E. destruct E as (_ & ->). exact unreadable_nil. Qed.
Lemma scanned_back : forall t ps, scanned u x t ps -> exists ps', scanned u x (t ++ [32]) ps' /\
  (Forall2 alike_pieces ps ps' \/ exists l l' p p', ps = l ++ [p] /\ ps' = l' ++ [p'] /\ Forall2 alike_pieces l l' /\ pc_tok p = pc_tok p' /\ pc_sep p' = pc_sep p ++ [32]).
Proof.
  intros t ps H. induction H as [t H|p H|t p rest ps N R S1 IH].
  - exists []. split; [|left; constructor]. apply sc_stop. intros a t' E L. destruct (snoc_app _ _ _ _ E) as [(-> & _)|(t2 & -> & E2)]; [exact unreadable_nil|]. apply unreadable_back. apply (H a t2 E2). apply (proj2 (line_back _ _)). exact L.
  - assert (K := scanned_nil [p] (sc_last u x p H)). discriminate.
  - destruct (round_back t p rest R) as (p' & rest' & R' & T & C). destruct C as [(N2 & Es & ->)|[(-> & Es & ->)|(-> & Es & ->)]].
    + destruct IH as (ps' & S2 & A). exists (p' :: ps'). split; [apply (sc_more u x (t ++ [32]) p' (rest ++ [32])); [destruct t; discriminate|exact R'|exact S2]|].
      destruct A as [A|(l & l' & q & q' & -> & -> & A & B1 & B2)]; [left; constructor; [split; congruence|exact A]|]. right. exists (p :: l), (p' :: l'), q, q'.
      split; [reflexivity|]. split; [reflexivity|]. split; [constructor; [split; congruence|exact A]|]. split; assumption.
    + rewrite (scanned_nil _ S1). exists [p']. split; [apply (sc_more u x (t ++ [32]) p' []); [destruct t; discriminate|exact R'|exact scanned_stop_nil]|].
      right. exists [], [], p, p'. split; [reflexivity|]. split; [reflexivity|]. split; [constructor|]. split; congruence.
    + rewrite (scanned_nil _ S1). exists [p']. split; [apply (sc_more u x (t ++ [32]) p' [32]); [destruct t; discriminate|exact R'|exact scanned_stop_blank]|]. left. constructor; [split; congruence|constructor].
Qed.

(** ** Tokens *)
Definition blank_token : token := mkToken [32] [] [I_SPACE] O_BADTOKEN [] false.
Lemma blank_unlisted : unlisted x (plain_token [32]).
Proof.
  split; [reflexivity|]. intros le I. exfalso. apply (word_last []). exists [32]. cbn [app]. split; [|split; [discriminate|constructor; [reflexivity|constructor]]].
  intros E. cbn [plain_token t_text] in I. rewrite E in I. destruct I.
Qed.
Lemma blank_made : made_from u x I_PUNCT [32] blank_token.
Proof.
  destruct (tables_blank u WT) as (BW & BD & BL).
  assert (ND : forall seps, ~ split_digits u seps [32]).
  { intros seps (a & s & b & E & (NA & FA) & _). destruct a as [|c a]; [destruct (NA eq_refl)|]. injection E as <- _. inversion FA; congruence. }
  assert (NWd : ~ words u [32]) by (intros (_ & F); inversion F; congruence).
  split; [|split; [discriminate|split; [split|auto]]].
  - left. split; [|reflexivity]. intros (_ & H & _). exact (ND _ H).
  - intros H. destruct (H blank_unlisted).
  - intros _. split; [reflexivity|]. exists [I_SPACE]. split; [|reflexivity]. unfold row_applies, shape_rows.
    eexists [_; _; _; _; _; _; _; _; _; _; _; _], _, _. split; [reflexivity|]. split; [|split; [split; [discriminate|constructor; [exact BK|constructor]]|reflexivity]].
    repeat (apply Forall_cons; [cbn [fst]|]); [apply ND| | | |apply ND| | | |exact NWd| | | |constructor].
    + intros (_ & F). inversion F; congruence.
    + discriminate.
    + discriminate.
    + intros (a & b & c & E & FA & _ & _ & L & _). destruct a as [|d a]; [cbn in L; lia|]. injection E as <- _. inversion FA; contradiction.
    + intros (a & b & c & E & _). discriminate.
    + intros (K & _). exact (NWd K).
    + discriminate.
    + intros (_ & F). inversion F. discriminate.
    + discriminate.
Qed.
Lemma trimmed_longer : forall w m, trimmed w m -> trimmed (w ++ [32]) m.
Proof.
  assert (W : Forall white [32]) by (constructor; [unfold white; cbn; tauto|constructor]).
  intros w m (a & b & FA & FB & C). exists a, (b ++ [32]). split; [exact FA|]. split; [apply Forall_app; split; [exact FB|exact W]|].
  destruct C as [(-> & ->)|(-> & K)]; [left; rewrite app_assoc; auto|right]. split; [rewrite <- !app_assoc; reflexivity|exact K].
Qed.
Lemma sep_longer : forall s ks, sep_part u x s ks -> exists ks', sep_part u x (s ++ [32]) ks' /\ (ks' = ks \/ ks' = ks ++ [blank_token]).
Proof.
  intros s ks [(-> & ->)|(m & k & N & T & -> & M)].
  - exists [blank_token]. split; [|right; reflexivity]. right. exists [32], blank_token. split; [discriminate|]. split; [|split; [reflexivity|exact blank_made]].
    exists [32], []. split; [constructor; [unfold white; cbn; tauto|constructor]|]. split; [constructor|]. left. split; reflexivity.
  - exists [k]. split; [|left; reflexivity]. right. exists m, k. split; [destruct s; discriminate|]. split; [apply trimmed_longer; exact T|]. split; [reflexivity|exact M].
Qed.
Lemma groups_alike : forall ps ps', Forall2 alike_pieces ps ps' -> forall gs, Forall2 (exact_tokens u x) ps gs -> Forall2 (exact_tokens u x) ps' gs.
Proof.
  intros ps ps' F. induction F as [|p p' ps ps' (A & B) F IH]; intros gs G; inversion G as [|? g ? gs' H G']; subst; constructor; [|apply IH; exact G'].
  unfold exact_tokens in *. rewrite <- A, <- B. exact H.
Qed.
Lemma tokens_front : forall t ks, tokens_are u x t ks -> tokens_are u x (32 :: t) ks.
Proof.
  intros t ks (ps & gs & S1 & F & E & I). destruct (scanned_front t ps S1) as (ps' & S2 & A). exists ps', gs. split; [exact S2|]. split; [exact (groups_alike _ _ A _ F)|auto].
Qed.
Lemma scanned_seps : forall t ps, scanned u x t ps -> forall p c, In p ps -> In c (pc_sep p) -> In c t.
Proof.
  assert (R : forall t p rest, read_round u x t p rest -> (forall c, In c (pc_sep p) -> In c t) /\ forall c, In c rest -> In c t).
  { intros t p rest (b & t' & E & _ & (E2 & _) & _). rewrite E, E2. split; intros c I; rewrite !in_app_iff; tauto. }
  intros t ps H. induction H as [t H|p H|t p rest ps N H S1 IH]; intros q c I J.
  - destruct I.
  - destruct I as [<-|[]]. exact (proj1 (R _ _ _ H) c J).
  - destruct (R _ _ _ H) as (R1 & R2). destruct I as [<-|I]; [exact (R1 c J)|exact (R2 c (IH q c I J))].
Qed.
Lemma tokens_back : forall t ks, ~ In 9 t -> tokens_are u x t ks -> exists ks', tokens_are u x (t ++ [32]) ks' /\ (ks' = ks \/ ks' = ks ++ [blank_token]).
Proof.
  intros t ks NT (ps & gs & S1 & F & E & I). destruct (scanned_back t ps S1) as (ps' & S2 & [A|(l & l' & p & p' & -> & -> & A & B1 & B2)]).
  - exists ks. split; [|left; reflexivity]. exists ps', gs. split; [exact S2|]. split; [exact (groups_alike _ _ A _ F)|auto].
  - apply Forall2_app_inv_l in F. destruct F as (g1 & g2 & F1 & F2 & ->). inversion F2 as [|? g ? g3 H F3]; subst. inversion F3; subst. destruct H as (k1 & k2 & -> & X & S3).
    assert (NS : no_tab (pc_sep p)) by (intros J; apply NT; apply (scanned_seps _ _ S1 p 9); [apply in_or_app; right; left; reflexivity|exact J]).
    assert (NS' : no_tab (pc_sep p ++ [32])) by (intros J; apply in_app_or in J; destruct J as [J|[J|[]]]; [exact (NS J)|discriminate]).
    apply (sep_plain u x _ _ NS) in S3. destruct (sep_longer _ _ S3) as (k2' & S4 & C). apply (sep_plain u x _ _ NS') in S4. exists (concat (g1 ++ [k1 ++ k2'])).
    split; [|rewrite !concat_app; cbn [concat]; rewrite !app_nil_r; destruct C as [-> | ->]; [left; reflexivity|right; rewrite <- !app_assoc; reflexivity]].
    exists (l' ++ [p']), (g1 ++ [k1 ++ k2']). split; [exact S2|]. split; [|split; [reflexivity|]].
    + apply Forall2_app; [exact (groups_alike _ _ A _ F1)|]. constructor; [|constructor]. exists k1, k2'. split; [reflexivity|]. rewrite <- B1, B2. auto.
    + rewrite concat_app in *. cbn [concat] in *. rewrite app_nil_r in *. destruct C as [-> | ->]; [exact I|]. rewrite !app_assoc in *. apply Forall_app. split; [exact I|]. constructor; [|constructor].
      repeat constructor.
Qed.
Lemma tokens_padded : forall t t', blank_padded t t' -> ~ In 9 t -> forall ks, tokens_are u x t ks -> exists n, tokens_are u x t' (ks ++ repeat blank_token n).
Proof.
  intros t t' (a & b & FA & FB & ->) NT ks H.
  assert (K : exists n, tokens_are u x (t ++ b) (ks ++ repeat blank_token n)).
  { clear FA. induction b as [|c b IH] using rev_ind; [exists 0%nat; cbn [repeat]; rewrite !app_nil_r; exact H|]. apply Forall_app in FB. destruct FB as (FB & FC). inversion FC; subst.
    destruct (IH FB) as (n & T). assert (NB : ~ In 9 (t ++ b)) by (intros J; apply in_app_or in J; destruct J as [J|J]; [exact (NT J)|]; rewrite Forall_forall in FB; specialize (FB 9 J); discriminate).
    destruct (tokens_back _ _ NB T) as (ks' & T2 & C). rewrite app_assoc. destruct C as [-> | ->]; [exists n; exact T2|]. exists (n + 1)%nat. rewrite repeat_app, app_assoc. exact T2. }
  destruct K as (n & T). exists n. clear FB H. induction FA as [|c a <- FA IH]; [exact T|]. cbn [app]. apply tokens_front. exact IH.
Qed.
End Tables.

Lemma sifted_end : forall P ks out, sifted P ks out -> (forall k, t_in k = [I_SPACE] -> P k) -> forall n, sifted P (ks ++ repeat blank_token n) out.
Proof.
  intros P ks out H K n. induction H as [|k a b N H IH|k a b N H IH]; cbn [app]; [|apply sift_keep; assumption|apply sift_drop; assumption].
  induction n as [|n IH]; cbn [repeat]; [constructor|]. apply sift_drop; [apply K; reflexivity|exact IH].
Qed.
(** The tokens are the same. *)
Lemma get_padded : forall e x locale filt address address', built x -> simple_words x -> apart_tables (e_uni e) -> word_tables (e_uni e) -> u_space (e_uni e) 32 = true ->
  trim_words (e_uni e) x -> in_list filt I_SPACE ->
  let t := reading e x locale address in let t' := reading e x locale address' in
  blank_padded t t' -> blank_lines (e_uni e) t' -> case_clear (e_uni e) x t' -> tabs_apart (e_uni e) x -> ~ In 9 t ->
  get_tokens e (mkTz x (as_type filt)) (prepared e locale address') = get_tokens e (mkTz x (as_type filt)) (prepared e locale address).
Proof.
  intros e x locale filt address address' B SW AT WT BK TW IL t t' P BL CC NT NT0.
  assert (SUB : forall c, In c t -> In c t') by (intros c I; destruct P as (a & b & _ & _ & ->); apply in_or_app; right; apply in_or_app; left; exact I).
  assert (BL0 : blank_lines (e_uni e) t) by (intros c I; apply BL, SUB, I).
  assert (CC0 : case_clear (e_uni e) x t) by (intros w w' c c' d H1 H2 H3 H4 H5; apply (CC w w' c c' d H1 H2 H3 H4), SUB, H5).
  destruct (tokens_ok e x (prepared e locale address) B SW BL0) as (all & E).
  assert (T : tokens_are (e_uni e) x t all) by (apply (all_tokens_are e x (prepared e locale address) all B SW AT WT BL0 CC0 NT); exact E).
  destruct (tokens_padded _ _ AT WT BK TW t t' P NT0 all T) as (n & T'). apply (all_tokens_are e x (prepared e locale address') _ B SW AT WT BL CC NT) in T'.
  unfold get_tokens. cbn [z_lex z_filter]. rewrite E, T'. cbn [obind]. f_equal. apply (sifted_unique (caught (as_type filt)) (all ++ repeat blank_token n)); [apply filter_sifted|].
  apply sifted_end; [apply filter_sifted|]. intros k K. apply filter_iff. exists I_SPACE. split; [rewrite K; left; reflexivity|exact IL].
Qed.
(** The answers are the same. *)
Lemma phrases_padded : forall e x locale filt address address', built x -> simple_words x -> apart_tables (e_uni e) -> word_tables (e_uni e) -> u_space (e_uni e) 32 = true ->
  trim_words (e_uni e) x -> in_list filt I_SPACE ->
  let t := reading e x locale address in let t' := reading e x locale address' in
  blank_padded t t' -> blank_lines (e_uni e) t' -> case_clear (e_uni e) x t' -> tabs_apart (e_uni e) x -> ~ In 9 t ->
  make_phrases e x locale filt address' = make_phrases e x locale filt address.
Proof.
  intros e x locale filt address address' B SW AT WT BK TW IL t t' P BL CC NT NT0. unfold make_phrases.
  change (set_filter (mkTz x []) (as_type filt)) with (mkTz x (as_type filt)). rewrite (get_padded e x locale filt address address' B SW AT WT BK TW IL P BL CC NT NT0). reflexivity.
Qed.
Lemma calls_same : forall e atof sort address address' gr lx arg locale filt, given_as e lx arg ->
  (forall x, lexicon_of e lx x -> make_phrases e x locale filt address' = make_phrases e x locale filt address) ->
  std_standardize e atof address' gr arg locale filt = std_standardize e atof address gr arg locale filt /\
  std_parse_address e address' arg locale filt = std_parse_address e address arg locale filt /\
  std_match_address e atof sort address' gr arg locale filt = std_match_address e atof sort address gr arg locale filt.
Proof.
  intros e atof sort address address' gr lx arg locale filt G H. unfold std_standardize, std_parse_address, std_match_address.
  destruct (lexicon_given e lx arg G) as [(x & y & L & E & R)|(m & _ & E)]; rewrite E; cbn [obind]; [|auto]. specialize (H x L).
  assert (R1 := R (mkGrammar [] [] []) locale filt address). assert (R2 := R (mkGrammar [] [] []) locale filt address').
  split; [|split].
  - destruct (get_grammar e atof gr) as [g| |]; cbn [obind]; try reflexivity. rewrite (proj1 (R g locale filt address)), (proj1 (R g locale filt address')). unfold standardize_addr. rewrite H. reflexivity.
  - rewrite (proj1 (proj2 R1)), (proj1 (proj2 R2)). unfold parse_addr. rewrite H. reflexivity.
  - destruct (get_grammar e atof gr) as [g| |]; cbn [obind]; try reflexivity. rewrite (proj2 (proj2 (R g locale filt address)) sort), (proj2 (proj2 (R g locale filt address')) sort). unfold match_addr. rewrite H. reflexivity.
Qed.
Lemma calls_padded : forall e atof sort address address' gr lx arg locale filt, real_tables (e_uni e) -> given_as e lx arg -> in_list filt I_SPACE ->
  (forall x, lexicon_of e lx x -> trim_words (e_uni e) x /\ blank_padded (reading e x locale address) (reading e x locale address') /\ ~ In 9 (reading e x locale address)) -> readable_with e lx locale address' ->
  std_standardize e atof address' gr arg locale filt = std_standardize e atof address gr arg locale filt /\
  std_parse_address e address' arg locale filt = std_parse_address e address arg locale filt /\
  std_match_address e atof sort address' gr arg locale filt = std_match_address e atof sort address gr arg locale filt.
Proof.
  intros e atof sort address address' gr lx arg locale filt (UO & AT & WT & TT) G IL H R. apply (calls_same e atof sort address address' gr lx arg locale filt G).
  intros x L. destruct (H x L) as (TW & P & NT). destruct (R x L) as (SW & BL & CC). exact (phrases_padded e x locale filt address address' (lexicon_built _ _ _ L) SW AT WT (uo_blank _ UO) TW IL P BL CC (conj TT (lexicon_tabs _ _ _ L)) NT).
Qed.
Lemma calls_case : forall e atof sort address address' gr lx locale filt, prepared e locale address' = prepared e locale address ->
  std_standardize e atof address' gr lx locale filt = std_standardize e atof address gr lx locale filt /\
  std_parse_address e address' lx locale filt = std_parse_address e address lx locale filt /\
  std_match_address e atof sort address' gr lx locale filt = std_match_address e atof sort address gr lx locale filt.
Proof.
  intros e atof sort address address' gr lx locale filt H. unfold std_standardize, std_parse_address, std_match_address, standardize_addr, parse_addr, match_addr, make_phrases. rewrite H. auto.
Qed.

(** ** Examples *)
Definition pad_addr : text := s2t "   12 Main st,  PO Box 7  "%string.
Lemma space_named : in_list w_filter I_SPACE.
Proof. apply in_list_iff. vm_compute. tauto. Qed.
Lemma w_trim : trim_words ascii_uni w_x.
Proof.
  assert (K := fun w => listed_keys w_x w [s2t "PO BOX"; s2t "ST"]%string w_x_built eq_refl). split.
  - intros w c (v & L & _ & F). apply K in L.
    assert (S : forall a, In a [80; 79; 83; 84; 66; 88] -> like ascii_uni a c -> u_space ascii_uni c = false).
    { intros a I H. destruct (u_space ascii_uni c) eqn:E; [|reflexivity]. exfalso. assert (C : In c [9; 10; 11; 12; 13; 32]).
      { unfold ascii_uni in E; cbn [u_space] in E. revert E. clear. intros E. apply white_space. exact E. }
      cbn [In] in I, C. repeat (destruct I as [<-|I]; [repeat (destruct C as [<-|C]; [vm_compute in H; discriminate H|]); destruct C|]). destruct I. }
    assert (HD : forall v' w', Forall2 (like ascii_uni) v' w' -> hd_error w' = Some c -> exists a, hd_error v' = Some a /\ like ascii_uni a c).
    { intros v' w' F' E. destruct F' as [|a d v' w' Q F']; [discriminate|]. injection E as ->. exists a. auto. }
    assert (RV : Forall2 (like ascii_uni) (rev v) (rev w)). { clear - F. induction F as [|a d v w Q F IH]; [constructor|]. cbn [rev]. apply Forall2_app; [exact IH|constructor; [exact Q|constructor]]. }
    intros [E|E]; [destruct (HD _ _ F E) as (a & Ea & Q)|destruct (HD _ _ RV E) as (a & Ea & Q)]; apply (S a); try exact Q;
      (destruct L as [<-|[<-|[]]]; vm_compute in Ea; injection Ea as <-; cbn [In]; tauto).
  - exists (s2t "ST"%string). split; [apply K; right; left; reflexivity|discriminate].
Qed.
Lemma pad_setting : real_tables ascii_uni /\ given_as ascii_env w_lexicon w_lexicon /\ in_list w_filter I_SPACE /\
  (forall x, lexicon_of ascii_env w_lexicon x -> trim_words ascii_uni x /\ blank_padded (reading ascii_env x en w_addr) (reading ascii_env x en pad_addr) /\ ~ In 9 (reading ascii_env x en w_addr)) /\
  readable_with ascii_env w_lexicon en pad_addr /\ pad_addr <> w_addr.
Proof.
  split; [exact ascii_real|]. split; [exact w_given|]. split; [exact space_named|]. split.
  - intros x L. rewrite (w_only x L). split; [exact w_trim|]. split; [|absent]. exists [32; 32; 32], [32; 32]. split; [repeat constructor|]. split; [repeat constructor|]. vm_compute. reflexivity.
  - split; [|discriminate]. intros x H. rewrite (w_only x H). split; [exact w_x_simple|]. split; [apply ascii_lines; absent|].
    apply (upper_clear w_x _ [s2t "PO BOX"%string; s2t "ST"%string] w_x_built); vm_compute; reflexivity.
Qed.
(** Blanks inside the address. *)
Definition inner_a : text := s2t "12 Main st PO Box 7"%string.
Definition inner_b : text := s2t "12 Main st PO  Box 7"%string.
Lemma inner_differs : exists a b, inner_a = (a ++ [32] ++ b)%list /\ inner_b = (a ++ [32; 32] ++ b)%list /\
  std_standardize ascii_env sample_atof inner_a w_grammar w_lexicon en w_filter <> std_standardize ascii_env sample_atof inner_b w_grammar w_lexicon en w_filter.
Proof. exists (s2t "12 Main st PO"%string), (s2t "Box 7"%string). split; [reflexivity|]. split; [reflexivity|]. vm_compute. discriminate. Qed.
(** A listed word that ends with a blank. *)
Definition imm_lexicon : text := file (w_lines ++ [s2t "LEXENTRY:"%string ++ wt ++ s2t "IMM "%string ++ wt ++ s2t "IMMEUBLE"%string ++ wt ++ s2t "UNITH"%string ++ wt ++ wt]%list) [].
Lemma imm_differs : exists rows rows', parse_table (std_parse_address ascii_env (s2t "IMM"%string) imm_lexicon en w_filter) = Ok rows /\
  parse_table (std_parse_address ascii_env (s2t "IMM "%string) imm_lexicon en w_filter) = Ok rows' /\
  map pr_class rows = [s2t "WORD"%string] /\ hd_error (map pr_class rows') = Some (s2t "UNITH"%string).
Proof. eexists _, _. split; [vm_compute; reflexivity|]. split; [vm_compute; reflexivity|]. split; vm_compute; reflexivity. Qed.
Lemma imm_missed : exists rows rows', parse_table (std_parse_address ascii_env (s2t "IMM 5"%string) imm_lexicon en w_filter) = Ok rows /\
  parse_table (std_parse_address ascii_env (s2t "IMM  5"%string) imm_lexicon en w_filter) = Ok rows' /\
  map pr_class rows = [s2t "WORD"%string; s2t "NUMBER"%string] /\ firstn 2 (map pr_class rows') = [s2t "UNITH"%string; s2t "NUMBER"%string].
Proof. eexists _, _. split; [vm_compute; reflexivity|]. split; [vm_compute; reflexivity|]. split; vm_compute; reflexivity. Qed.
(** A filter that keeps blanks. *)
Lemma kept_blank_differs : exists rows rows', parse_table (std_parse_address ascii_env (s2t "12"%string) w_lexicon en (s2t "PUNCT"%string)) = Ok rows /\
  parse_table (std_parse_address ascii_env (s2t "12 "%string) w_lexicon en (s2t "PUNCT"%string)) = Ok rows' /\
  map pr_class rows = [s2t "NUMBER"%string] /\ firstn 2 (map pr_class rows') = [s2t "NUMBER"%string; s2t "SPACE"%string].
Proof. eexists _, _. split; [vm_compute; reflexivity|]. split; [vm_compute; reflexivity|]. split; vm_compute; reflexivity. Qed.
Lemma case_setting : prepared ascii_env en (s2t "12 main st"%string) = prepared ascii_env en (s2t "12 MAIN St"%string).
Proof. vm_compute. reflexivity. Qed.
