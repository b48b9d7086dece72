(** Lemmas about the part of a lexicon that matters for a text. *)
From Coq Require Import String List NArith Bool Lia Arith.
From Verif Require Import Base_model Class_model Uni_model Token_model Lexicon_model Tokenizer_model Archive_model Float_model Rule_model Search_model Grammar_model Wrapper_model
  Sample_model Class_spec Search_spec Grammar_spec Loaded_spec LexText_spec LexDiag_spec Lexicon_spec Tokenizer_spec Split_spec Read_spec Address_spec Answer_spec End_spec Local_spec
  Search_proofs SearchTop_proofs Loaded_proofs LexMap_proofs LexSame_proofs LexDiag_proofs TokScan_proofs TokAlt_proofs Split_proofs Address_proofs Wrapper_proofs WrapperTop_proofs End_proofs.
Import ListNotations.
Local Open Scope N_scope.

Lemma forall2_weaken : forall A B (R S : A -> B -> Prop) l l', (forall a b, R a b -> S a b) -> Forall2 R l l' -> Forall2 S l l'.
Proof. intros A B R S l l' H F. induction F; constructor; auto. Qed.
Lemma part_self : forall t, part t t.
Proof. intros t. exists [], []. cbn. rewrite app_nil_r. reflexivity. Qed.
Lemma part_trans : forall t v w, part t v -> part v w -> part t w.
Proof. intros t v w (a & b & ->) (c & d & ->). exists (a ++ c), (d ++ b). rewrite <- !app_assoc. reflexivity. Qed.
Lemma part_front : forall a b, part (a ++ b) a.
Proof. intros a b. exists [], b. reflexivity. Qed.
Lemma part_back : forall a b, part (a ++ b) b.
Proof. intros a b. exists a, []. rewrite app_nil_r. reflexivity. Qed.
Lemma part_mid : forall a m b, part (a ++ m ++ b) m.
Proof. intros a m b. exists a, b. reflexivity. Qed.

Section Text.
Variables (u : uni) (t : text).

(** Parts of the text with full stops for commas. *)
Definition dotted (w : text) : Prop := (exists v, part t v /\ Forall2 (fun a b => a = b \/ (a = 46 /\ b = 44)) w v) \/ w = [32] \/ w = [].
Lemma same_self : forall v, Forall2 (fun a b : N => a = b \/ (a = 46 /\ b = 44)) v v.
Proof. induction v; constructor; auto. Qed.
Lemma part_dotted : forall w, part t w -> dotted w.
Proof. intros w P. left. exists w. split; [exact P|apply same_self]. Qed.
Lemma dotted_concerns : forall w, dotted w -> concerns u t w.
Proof.
  intros w [(v & P & F)|[-> | ->]]; [|right; reflexivity|].
  - left. exists v. split; [exact P|]. eapply forall2_weaken; [|exact F]. intros a b [-> |H]; [left; reflexivity|right; exact H].
  - left. exists []. split; [exists t, []; rewrite app_nil_r; reflexivity|constructor].
Qed.
Lemma like_concerns : forall v w, part t v -> Forall2 (like u) w v -> concerns u t w.
Proof. intros v w P F. left. exists v. split; [exact P|]. eapply forall2_weaken; [|exact F]. intros a b H. left. exact H. Qed.
Lemma dotted_part : forall w v, dotted w -> part w v -> dotted v.
Proof.
  intros w v [(s & P & F)|[-> | ->]] (a & b & E).
  - subst w. apply Forall2_app_inv_l in F. destruct F as (s1 & s2 & F1 & F2 & ->). apply Forall2_app_inv_l in F2. destruct F2 as (s3 & s4 & F3 & F4 & ->).
    left. exists s3. split; [|exact F3]. apply (part_trans _ _ _ P). apply part_mid.
  - destruct a as [|c a].
    + destruct v as [|d v]; [right; right; reflexivity|]. injection E as <- E. symmetry in E. apply app_eq_nil in E. destruct E as (-> & _). right; left; reflexivity.
    + injection E as _ E. symmetry in E. apply app_eq_nil in E. destruct E as (_ & E). apply app_eq_nil in E. destruct E as (-> & _). right; right; reflexivity.
  - symmetry in E. apply app_eq_nil in E. destruct E as (_ & E). apply app_eq_nil in E. destruct E as (-> & _). right; right; reflexivity.
Qed.
Lemma dotted_comma : forall a b, dotted (a ++ 44 :: b) -> dotted (a ++ 46 :: b).
Proof.
  intros a b [(s & P & F)|[E|E]].
  - apply Forall2_app_inv_l in F. destruct F as (s1 & s2 & F1 & F2 & ->). inversion F2 as [|c d l l' H F3]; subst. left. exists (s1 ++ d :: l'). split; [exact P|].
    apply Forall2_app; [exact F1|]. constructor; [|exact F3]. destruct H as [<-|(H & _)]; [right; auto|discriminate].
  - destruct a as [|c a]; [discriminate|]. injection E as _ E. destruct a; discriminate.
  - destruct a; discriminate.
Qed.
Lemma dotted_carries : forall x w v, carries u x w v -> dotted w -> dotted v.
Proof. intros x w v [(_ & ->)|(_ & a & b & -> & _ & ->)] D; [exact D|apply dotted_comma; exact D]. Qed.

(** ** Two lexicons *)
Definition agree (x x' : lexicon) : Prop := (some_words x <-> some_words x') /\ forall w, concerns u t w -> lex_find x w = lex_find x' w.
Lemma agree_sym : forall x x', agree x x' -> agree x' x.
Proof. intros x x' (A & B). split; [symmetry; exact A|]. intros w C. symmetry. exact (B w C). Qed.

Lemma agree_like : forall x x' w, agree x x' -> part t w -> word_like u x w -> word_like u x' w.
Proof. intros x x' w (_ & A) P (v & L & N & F). exists v. split; [|auto]. unfold listed in *. rewrite <- (A v (like_concerns w v P F)). exact L. Qed.
Lemma agree_nothing : forall x x' s, agree x x' -> nothing_at x u s -> nothing_at x' u s.
Proof.
  intros x x' s (A & _) (H & S1). split; [|exact S1]. intros w L. destruct w as [|c w]; [reflexivity|]. destruct (proj2 A) as (v & V & N); [exists (c :: w); split; [exact L|discriminate]|]. destruct (N (H v V)).
Qed.
Lemma agree_word : forall x x' s w r, agree x x' -> part t s -> word_at x u s w r -> word_at x' u s w r.
Proof. intros x x' s w r A P (-> & W & S1). split; [reflexivity|]. split; [|exact S1]. apply (agree_like x x' w A); [|exact W]. apply (part_trans _ _ _ P), part_front. Qed.
Lemma agree_token : forall x x' s w r, agree x x' -> part t s -> token_at u x s w r -> token_at u x' s w r.
Proof.
  intros x x' s w r A P H. assert (B := agree_sym _ _ A). destruct H as [w r D W M|D N|w r D W N Nu|w r D W N Nu Ru].
  - apply ta_word; [exact D|exact (agree_word _ _ _ _ _ A P W)|]. intros w' r' K. exact (M w' r' (agree_word _ _ _ _ _ B P K)).
  - apply ta_nothing; [exact D|exact (agree_nothing _ _ _ A N)].
  - apply ta_number; [exact D| |intros K; exact (N (agree_nothing _ _ _ B K))|exact Nu]. intros w' r' K. exact (W w' r' (agree_word _ _ _ _ _ B P K)).
  - apply ta_run; [exact D| |intros K; exact (N (agree_nothing _ _ _ B K))|exact Nu|exact Ru]. intros w' r' K. exact (W w' r' (agree_word _ _ _ _ _ B P K)).
Qed.
Lemma agree_unreadable : forall x x' s, agree x x' -> part t s -> unreadable u x s -> unreadable u x' s.
Proof.
  intros x x' s A P H b t' w r E B K. apply (H b t' w r E B). apply (agree_token x' x t' w r (agree_sym _ _ A)); [|exact K]. subst s. apply (part_trans _ _ _ P), part_back.
Qed.
Lemma agree_read : forall x x' s b w r, agree x x' -> part t s -> read_at u x s b w r -> read_at u x' s b w r.
Proof.
  intros x x' s b w r A P (E & B & T & M). split; [exact E|]. split; [exact B|]. split.
  - apply (agree_token x x' _ w r A); [|exact T]. subst s. apply (part_trans _ _ _ P), part_back.
  - intros b' t' E' B' L w' r' K. apply (M b' t' E' B' L w' r'). apply (agree_token x' x _ w' r' (agree_sym _ _ A)); [|exact K]. subst s. rewrite E' in P. apply (part_trans _ _ _ P), part_back.
Qed.
Lemma agree_round : forall x x' s p rest, agree x x' -> part t s -> read_round u x s p rest -> read_round u x' s p rest.
Proof.
  intros x x' s p rest A P (b & t' & E & L & R & S1 & EA & M). assert (Pt : part t t') by (rewrite E in P; apply (part_trans _ _ _ P), part_back).
  exists b, t'. split; [exact E|]. split; [exact L|]. split; [exact (agree_read _ _ _ _ _ _ A Pt R)|]. split; [exact S1|]. split; [exact EA|].
  intros a1 a2 E2 N L2. apply (agree_unreadable x x' _ A); [|exact (M a1 a2 E2 N L2)]. rewrite E, E2, <- app_assoc in P. apply (part_trans _ _ _ P), part_back.
Qed.
Definition in_text (p : piece) : Prop := part t (pc_tok p) /\ part t (pc_sep p).
Lemma round_parts : forall x s p rest, part t s -> read_round u x s p rest -> in_text p /\ part t rest.
Proof.
  intros x s p rest P (b & t' & E & _ & (E2 & _) & _). rewrite E, E2 in P. split; [split|]; apply (part_trans _ _ _ P); apply (part_trans _ _ _ (part_back _ _)); apply (part_trans _ _ _ (part_back _ _)).
  - apply part_front.
  - apply (part_trans _ _ _ (part_back _ _)), part_front.
  - apply (part_trans _ _ _ (part_back _ _)), part_back.
Qed.
Lemma agree_scanned : forall x x' s ps, agree x x' -> part t s -> scanned u x s ps -> scanned u x' s ps /\ Forall in_text ps.
Proof.
  intros x x' s ps A P H. induction H as [s H|p H|s p rest ps N R S1 IH].
  - split; [|constructor]. apply sc_stop. intros a t' E L. apply (agree_unreadable x x' _ A); [|exact (H a t' E L)]. rewrite E in P. apply (part_trans _ _ _ P), part_back.
  - split; [apply sc_last; exact (agree_round _ _ _ _ _ A P H)|]. constructor; [|constructor]. exact (proj1 (round_parts _ _ _ _ P H)).
  - destruct (round_parts _ _ _ _ P R) as (Q & Pr). destruct (IH Pr) as (S2 & F). split; [|constructor; assumption]. apply (sc_more u x' s p rest ps N); [exact (agree_round _ _ _ _ _ A P R)|exact S2].
Qed.

(** ** Classes *)
Lemma agree_find : forall x x' w, agree x x' -> dotted w -> lex_find x w = lex_find x' w.
Proof. intros x x' w (_ & A) D. apply A, dotted_concerns, D. Qed.
Lemma agree_unlisted : forall x x' w, agree x x' -> dotted w -> unlisted x (plain_token w) -> unlisted x' (plain_token w).
Proof. intros x x' w A D (E & H). split; [exact E|]. cbn [plain_token t_text] in *. rewrite <- (agree_find x x' w A D). exact H. Qed.
Lemma agree_comma : forall x x' w, agree x x' -> dotted w -> comma_number u x w -> comma_number u x' w.
Proof. intros x x' w A D (H & K). split; [exact (agree_unlisted _ _ _ A D H)|exact K]. Qed.
Lemma agree_carries : forall x x' w v, agree x x' -> dotted w -> carries u x w v -> carries u x' w v.
Proof.
  intros x x' w v A D [(N & E)|(C & E)]; [left|right]; (split; [|exact E]); [intros K; apply N; exact (agree_comma _ _ _ (agree_sym _ _ A) D K)|exact (agree_comma _ _ _ A D C)].
Qed.
Lemma agree_made : forall x x' d w k, agree x x' -> dotted w -> made_from u x d w k -> made_from u x' d w k.
Proof.
  intros x x' d w k A D (C & N & (K1 & K2) & R). split; [exact (agree_carries _ _ _ _ A D C)|]. split; [exact N|]. split; [|exact R]. assert (B := agree_sym _ _ A). split.
  - intros H. rewrite <- (agree_find x x' w A D). apply K1. intros L. apply H. exact (agree_unlisted _ _ _ A D L).
  - intros H. apply K2. exact (agree_unlisted _ _ _ B D H).
Qed.
Lemma made_dotted : forall x d w k, dotted w -> made_from u x d w k -> dotted (t_text k).
Proof. intros x d w k D (C & _). exact (dotted_carries _ _ _ C D). Qed.
Lemma agree_all : forall x x' d ws ks, agree x x' -> Forall dotted ws -> Forall2 (made_from u x d) ws ks -> Forall2 (made_from u x' d) ws ks /\ Forall (fun k => dotted (t_text k)) ks.
Proof.
  intros x x' d ws ks A D F. induction F as [|w k ws ks M F IH]; [split; constructor|]. inversion D as [|? ? D1 D2]; subst. destruct (IH D2) as (F1 & F2). split; constructor; try assumption; [exact (agree_made _ _ _ _ _ A D1 M)|exact (made_dotted _ _ _ _ D1 M)].
Qed.
Lemma agree_front_word : forall x x' w, agree x x' -> dotted w -> front_word x w -> front_word x' w.
Proof. intros x x' w A D (N & H). split; [exact N|]. rewrite <- (agree_find x x' w A D). exact H. Qed.
Lemma agree_back_word : forall x x' w, agree x x' -> dotted w -> back_word x w -> back_word x' w.
Proof. intros x x' w A D (N & H). split; [exact N|]. rewrite <- (agree_find x x' w A D). exact H. Qed.
Lemma agree_front : forall x x' s a b, agree x x' -> dotted s -> front u x s a b -> front u x' s a b.
Proof.
  intros x x' s a b A D (E & W & I & M). split; [exact E|]. split; [apply (agree_front_word x x' a A); [|exact W]; apply (dotted_part s); [exact D|rewrite E; apply part_front]|]. split; [exact I|].
  intros a' b' E' W' I'. apply (M a' b' E'); [|exact I']. apply (agree_front_word x' x a' (agree_sym _ _ A)); [|exact W']. apply (dotted_part s); [exact D|rewrite E'; apply part_front].
Qed.
Lemma agree_back : forall x x' s c d, agree x x' -> dotted s -> back x s c d -> back x' s c d.
Proof.
  intros x x' s c d A D (E & N & W & M). split; [exact E|]. split; [exact N|]. split; [apply (agree_back_word x x' d A); [|exact W]; apply (dotted_part s); [exact D|rewrite E; apply part_back]|].
  intros c' d' E' N' W'. apply (M c' d' E' N'). apply (agree_back_word x' x d' (agree_sym _ _ A)); [|exact W']. apply (dotted_part s); [exact D|rewrite E'; apply part_back].
Qed.
Lemma agree_attached : forall x x' s ws, agree x x' -> dotted s -> attached u x s ws -> attached u x' s ws.
Proof.
  intros x x' s ws A D H. assert (B := agree_sym _ _ A). assert (NF : (forall a b, ~ front u x s a b) -> forall a b, ~ front u x' s a b) by (intros K a b F; exact (K a b (agree_front _ _ _ _ _ B D F))).
  assert (NB : (forall c d, ~ back x s c d) -> forall c d, ~ back x' s c d) by (intros K c d F; exact (K c d (agree_back _ _ _ _ _ B D F))).
  destruct H.
  - apply at_none; auto.
  - apply at_front; [apply (agree_front x x'); assumption|auto].
  - apply at_back; [auto|apply (agree_back x x'); assumption].
  - apply at_touch; [apply (agree_front x x'); assumption|apply (agree_back x x'); assumption].
  - apply at_apart; [assumption|apply (agree_front x x'); assumption|apply (agree_back x x'); assumption].
  - eapply at_overlap; [apply (agree_front x x'); eassumption|apply (agree_back x x'); eassumption|assumption].
Qed.
Lemma attached_parts : forall x s ws, attached u x s ws -> Forall (part s) ws.
Proof.
  intros x s ws H. destruct H as [_ _|a b (-> & _) _|c d _ (-> & _)|a b (-> & _) _|a m d _ (-> & _) _|a b c d _ (-> & _) _]; repeat apply Forall_cons; try apply Forall_nil;
    try apply part_self; try apply part_front; try apply part_back; try apply part_mid. apply (part_trans _ _ _ (part_back _ _)), part_back.
Qed.
Lemma mixed_parts : forall s ws, mixed u s ws -> Forall (part s) ws.
Proof.
  intros s ws H. destruct H as [a c (-> & _)|c a (-> & _)|_ _]; repeat apply Forall_cons; try apply Forall_nil; try apply part_self; try apply part_front; try apply part_back.
  - exists [], a. reflexivity.
  - exists [c], []. rewrite app_nil_r. reflexivity.
Qed.
Lemma parts_dotted : forall s ws, dotted s -> Forall (part s) ws -> Forall dotted ws.
Proof. intros s ws D F. eapply Forall_impl; [|exact F]. intros w P. exact (dotted_part _ _ D P). Qed.
Definition texts (ks : list token) : Prop := Forall (fun k => dotted (t_text k)) ks.
Lemma agree_exact : forall x x' w ks, agree x x' -> dotted w -> exact_word u x w ks -> exact_word u x' w ks /\ texts ks.
Proof.
  intros x x' w ks A D [(-> & ->)|[(N & L & k & -> & M)|(N & L & cls & w' & ws & R & C & K & F)]].
  - split; [left; auto|constructor].
  - split; [|constructor; [exact (made_dotted _ _ _ _ D M)|constructor]]. right; left. split; [exact N|]. split; [intros Q; apply L; exact (agree_unlisted _ _ _ (agree_sym _ _ A) D Q)|].
    exists k. split; [reflexivity|exact (agree_made _ _ _ _ _ A D M)].
  - assert (D' := dotted_carries _ _ _ C D). assert (PW : Forall dotted ws). { apply (parts_dotted w'); [exact D'|]. destruct K as [(_ & K)|(_ & K)]; [exact (mixed_parts _ _ K)|exact (attached_parts _ _ _ K)]. }
    assert (X : (exists k, ks = [k] /\ made_from u x I_WORD w k) -> (exists k, ks = [k] /\ made_from u x' I_WORD w k) /\ texts ks).
    { intros (k & -> & M). split; [exists k; split; [reflexivity|exact (agree_made _ _ _ _ _ A D M)]|constructor; [exact (made_dotted _ _ _ _ D M)|constructor]]. }
    assert (Y : Forall2 (made_from u x I_WORD) ws ks -> Forall2 (made_from u x' I_WORD) ws ks /\ texts ks) by (intros G; exact (agree_all _ _ _ _ _ A PW G)).
    assert (Z : ((ws = [w'] /\ exists k, ks = [k] /\ made_from u x' I_WORD w k) \/ (ws <> [w'] /\ Forall2 (made_from u x' I_WORD) ws ks)) /\ texts ks).
    { destruct F as [(E & G)|(E & G)]; [destruct (X G); auto|destruct (Y G); auto]. }
    destruct Z as (Z & T). split; [|exact T]. right; right. split; [exact N|]. split; [exact (agree_unlisted _ _ _ A D L)|]. exists cls, w', ws. split; [exact R|]. split; [exact (agree_carries _ _ _ _ A D C)|].
    split; [|exact Z]. destruct K as [K|(K1 & K2)]; [left; exact K|right; split; [exact K1|exact (agree_attached _ _ _ _ A D' K2)]].
Qed.
Lemma trimmed_dotted : forall w m, dotted w -> trimmed w m -> dotted m.
Proof. intros w m D (a & b & _ & _ & [(_ & ->)|(-> & _)]); [right; left; reflexivity|apply (dotted_part _ _ D), part_mid]. Qed.
Lemma cell_part : forall w fs, cells w fs -> part w (cell fs 0).
Proof.
  intros w [|f fs] (N & _ & ->); [destruct (N eq_refl)|]. unfold cell. cbn [nth]. destruct fs as [|g fs]; [exists [], []; cbn; rewrite app_nil_r; reflexivity|]. exists [], ([9] ++ join [9] (g :: fs)). reflexivity.
Qed.
Lemma sep_text_dotted : forall f m, dotted f -> sep_text f m -> dotted m.
Proof. intros f m D [(_ & ->)|(_ & T)]; [right; right; reflexivity|exact (trimmed_dotted _ _ D T)]. Qed.
Lemma agree_sep : forall x x' w ks, agree x x' -> dotted w -> sep_exact u x w ks -> sep_exact u x' w ks /\ texts ks.
Proof.
  intros x x' w ks A D [(-> & ->)|(fs & m & k & N & C & T & -> & M)]; [split; [left; auto|constructor]|]. assert (Dm := sep_text_dotted _ _ (dotted_part _ _ D (cell_part _ _ C)) T).
  split.
  - right. exists fs, m, k. split; [exact N|]. split; [exact C|]. split; [exact T|]. split; [reflexivity|]. destruct M as [(F & k0 & M & E)|(F & B1 & B2 & B3 & B4 & B5 & B6)].
    + left. split; [exact F|]. exists k0. split; [exact (agree_made _ _ _ _ _ A Dm M)|exact E].
    + right. split; [exact F|]. unfold bad_token. rewrite <- (agree_find _ _ _ A Dm). auto 10.
  - constructor; [|constructor]. destruct M as [(_ & k0 & M & ->)|(_ & B & _)]; [exact (made_dotted _ _ _ _ Dm M)|rewrite B; exact Dm].
Qed.
Lemma agree_groups : forall x x' ps gs, agree x x' -> Forall in_text ps -> Forall2 (exact_tokens u x) ps gs -> Forall2 (exact_tokens u x') ps gs /\ texts (concat gs).
Proof.
  intros x x' ps gs A I F. induction F as [|p g ps gs H F IH]; [split; constructor|]. inversion I as [|? ? (P1 & P2) I']; subst. destruct (IH I') as (F1 & T1). destruct H as (k1 & k2 & -> & W & S1).
  destruct (agree_exact _ _ _ _ A (part_dotted _ P1) W) as (W' & T2). destruct (agree_sep _ _ _ _ A (part_dotted _ P2) S1) as (S2 & T3). split.
  - constructor; [|exact F1]. exists k1, k2. auto.
  - cbn [concat]. apply Forall_app. split; [apply Forall_app; split; assumption|exact T1].
Qed.
Lemma agree_tokens : forall x x' ks, agree x x' -> tokens_are u x t ks -> tokens_are u x' t ks /\ texts ks.
Proof.
  intros x x' ks A (ps & gs & S1 & F & E & I). destruct (agree_scanned _ _ _ _ A (part_self t) S1) as (S2 & P). destruct (agree_groups _ _ _ _ A P F) as (F2 & T). subst ks. split; [|exact T].
  exists ps, gs. auto.
Qed.

(** ** Alternatives *)
Lemma words_parts : forall s ws, words_of s ws -> Forall (part s) ws.
Proof.
  intros s ws H. induction H as [w _|w b s ws _ _ _ _ H IH]; [constructor; [apply part_self|constructor]|]. constructor; [apply part_front|]. eapply Forall_impl; [|exact IH].
  intros v P. apply (part_trans _ _ _ (part_back _ _)). apply (part_trans _ _ _ (part_back _ _)). exact P.
Qed.
Lemma agree_picked : forall x x' ks bs a, agree x x' -> texts ks -> picked u x ks bs a -> picked u x' ks bs a /\ texts a.
Proof.
  intros x x' ks bs a A T H. induction H as [|k ks bs a N H IH|k ks bs a N H IH|k ks bs a ws new N W F H IH]; [split; constructor| | |]; inversion T as [|? ? Dk T']; subst; destruct (IH T') as (H' & Ta).
  - split; [apply pick_word; assumption|constructor; assumption].
  - split; [apply pick_keep; assumption|constructor; assumption].
  - assert (PW := parts_dotted _ _ Dk (words_parts _ _ W)).
    assert (F' : Forall2 (fun w k' => made_from u x' I_WORD w k' /\ is_inset (t_in k')) ws new /\ texts new).
    { clear - A F PW. induction F as [|w k' ws new (M & I) F IH]; [split; constructor|]. inversion PW as [|? ? D1 D2]; subst. destruct (IH D2) as (F1 & F2).
      split; constructor; try assumption; [split; [exact (agree_made _ _ _ _ _ A D1 M)|exact I]|exact (made_dotted _ _ _ _ D1 M)]. }
    destruct F' as (F1 & F2). split; [eapply pick_split; eassumption|apply Forall_app; split; assumption].
Qed.
Lemma sifted_texts : forall P all ks, sifted P all ks -> texts all -> texts ks.
Proof.
  intros P all ks H. induction H as [|k a b N H IH|k a b N H IH]; intros T; [constructor| |]; inversion T as [|? ? T1 T2]; subst; [constructor; [exact T1|exact (IH T2)]|exact (IH T2)].
Qed.
Lemma agree_address : forall x x' filt phs, agree x x' -> read_address u x filt t phs -> read_address u x' filt t phs /\ Forall texts phs.
Proof.
  intros x x' filt phs A (all & ks & T & S1 & (L & K)). destruct (agree_tokens _ _ _ A T) as (T' & D). assert (Dk := sifted_texts _ _ _ S1 D). assert (B := agree_sym _ _ A). split.
  - exists all, ks. split; [exact T'|]. split; [exact S1|]. split; [intros bs a P; exact (L bs a (proj1 (agree_picked _ _ _ _ _ B Dk P)))|]. intros i a. rewrite K.
    split; intros (bs & P & E); exists bs; (split; [|exact E]); [exact (proj1 (agree_picked _ _ _ _ _ A Dk P))|exact (proj1 (agree_picked _ _ _ _ _ B Dk P))].
  - apply Forall_forall. intros a I. apply In_nth_error in I. destruct I as (i & I). apply K in I. destruct I as (bs & P & _). exact (proj2 (agree_picked _ _ _ _ _ A Dk P)).
Qed.
Lemma agree_crowded : forall x x' filt, agree x x' -> crowded u x filt t -> crowded u x' filt t.
Proof.
  intros x x' filt A (all & ks & bs & a & T & S1 & P & L). destruct (agree_tokens _ _ _ A T) as (T' & D). exists all, ks, bs, a. split; [exact T'|]. split; [exact S1|]. split; [|exact L].
  exact (proj1 (agree_picked _ _ _ _ _ A (sifted_texts _ _ _ S1 D) P)).
Qed.
End Text.

(** ** Calls *)
Lemma phrases_local : forall e x x' locale filt address, apart_tables (e_uni e) -> word_tables (e_uni e) -> let t := reading e x locale address in
  blank_lines (e_uni e) t -> tab_tables (e_uni e) -> same_for (e_uni e) t x x' -> fit_lexicon (e_uni e) x t -> fit_lexicon (e_uni e) x' t ->
  make_phrases e x locale filt address = make_phrases e x' locale filt address /\
  forall phs, make_phrases e x locale filt address = Ok phs -> Forall (texts t) phs.
Proof.
  intros e x x' locale filt address AT WT t BL NT (EL & SW & A) (B1 & W1 & F1 & C1) (B2 & W2 & F2 & C2). assert (AG : agree (e_uni e) t x x') by (split; assumption). assert (GA := agree_sym _ _ _ _ AG).
  assert (Et : reading e x' locale address = t) by (unfold t, reading; rewrite EL; reflexivity).
  assert (Q1 := phrases_cases e x locale filt address B1 W1 AT WT BL C1 (conj NT F1)). fold t in Q1.
  assert (Q2 : (exists phs, make_phrases e x' locale filt address = Ok phs /\ read_address (e_uni e) x' filt t phs /\ ~ crowded (e_uni e) x' filt t) \/
    (make_phrases e x' locale filt address = UB /\ crowded (e_uni e) x' filt t /\ forall phs, ~ read_address (e_uni e) x' filt t phs)).
  { rewrite <- Et. apply (phrases_cases e x' locale filt address B2 W2 AT WT); try (rewrite Et; assumption). exact (conj NT F2). }
  assert (R1 := fun phs => make_phrases_are e x locale filt address phs B1 W1 AT WT BL C1 (conj NT F1)).
  change (e_upper e (x_locale x) (e_nfc e (prepared e locale address))) with t in R1.
  destruct Q1 as [(phs & P & R & NC)|(P & C & NR)]; destruct Q2 as [(phs' & P' & R' & NC')|(P' & C' & NR')].
  - destruct (agree_address _ _ _ _ _ _ GA R') as (R2 & _). apply R1 in R2. split; [congruence|]. intros q Eq. rewrite P in Eq. injection Eq as <-. exact (proj2 (agree_address _ _ _ _ _ _ AG R)).
  - destruct (NR' phs (proj1 (agree_address _ _ _ _ _ _ AG R))).
  - destruct (NC' (agree_crowded _ _ _ _ _ AG C)).
  - split; [congruence|]. intros q Eq. congruence.
Qed.

Lemma collect_local : forall x x' ks v, (forall k, In k ks -> lex_find x (t_text k) = lex_find x' (t_text k)) -> collect x v ks = collect x' v ks.
Proof.
  intros x x' ks. induction ks as [|k ks IH]; intros v H; [reflexivity|]. cbn [collect]. assert (E : standardize_word x k = standardize_word x' k) by (unfold standardize_word; rewrite (H k (or_introl eq_refl)); reflexivity).
  rewrite E. destruct (standardize_word x' k) as [k'| |]; cbn [obind]; [|reflexivity|reflexivity]. apply IH. intros q I. apply H. right. exact I.
Qed.
Lemma calls_local : forall e x x' locale filt address, apart_tables (e_uni e) -> word_tables (e_uni e) -> let t := reading e x locale address in
  blank_lines (e_uni e) t -> tab_tables (e_uni e) -> same_for (e_uni e) t x x' -> fit_lexicon (e_uni e) x t -> fit_lexicon (e_uni e) x' t ->
  (forall g, is_loaded g -> standardize_addr e g x locale filt address = standardize_addr e g x' locale filt address) /\
  parse_addr e x locale filt address = parse_addr e x' locale filt address /\
  forall sort g, match_addr e sort g x locale filt address = match_addr e sort g x' locale filt address.
Proof.
  intros e x x' locale filt address AT WT t BL NT SF F1 F2. destruct (phrases_local e x x' locale filt address AT WT BL NT SF F1 F2) as (E & T). fold t in T.
  unfold standardize_addr, parse_addr, match_addr. rewrite <- E. split; [|split; [reflexivity|reflexivity]]. intros g G. destruct (make_phrases e x locale filt address) as [phs| |]; cbn [obind]; [|reflexivity|reflexivity].
  specialize (T phs eq_refl). destruct (search_best g phs) as [b| |] eqn:B; cbn [obind]; [|reflexivity|reflexivity]. destruct (f_le f_zero (b_score b)) eqn:L; [|reflexivity].
  rewrite (collect_local x x'); [reflexivity|]. intros k I. destruct (best_from _ _ _ B L) as (ph & ps & p & I1 & S1 & I2 & R & _).
  destruct (reclass_faithful g ADDRESS ph ps p (loaded_linked g G) (loaded_balanced g G) S1 I2) as (ts & R' & T1 & _). rewrite R in R'. injection R' as E1. rewrite <- E1 in T1.
  assert (D : dotted t (t_text k)). { apply (in_map t_text) in I. rewrite T1 in I. apply in_map_iff in I. destruct I as (k' & <- & I). rewrite Forall_forall in T. specialize (T ph I1). unfold texts in T. rewrite Forall_forall in T. exact (T k' I). }
  destruct SF as (_ & _ & A). apply A. apply dotted_concerns. exact D.
Qed.
Lemma texts_local : forall e atof sort address gr lx lx' arg arg' locale filt, real_tables (e_uni e) -> given_as e lx arg -> given_as e lx' arg' ->
  readable_with e lx locale address -> readable_with e lx' locale address ->
  (exists x x', lexicon_of e lx x /\ lexicon_of e lx' x' /\ same_for (e_uni e) (reading e x locale address) x x') ->
  std_standardize e atof address gr arg locale filt = std_standardize e atof address gr arg' locale filt /\
  std_parse_address e address arg locale filt = std_parse_address e address arg' locale filt /\
  std_match_address e atof sort address gr arg locale filt = std_match_address e atof sort address gr arg' locale filt.
Proof.
  intros e atof sort address gr lx lx' arg arg' locale filt (UO & AT & WT & NT) G G' RD RD' (x & x' & L & L' & SF).
  destruct (RD x L) as (S1 & BL & C1). destruct (RD' x' L') as (S2 & _ & C2).
  assert (Et : reading e x' locale address = reading e x locale address) by (unfold reading; rewrite (proj1 SF); reflexivity).
  destruct (calls_local e x x' locale filt address AT WT BL NT SF) as (Q1 & Q2 & Q3).
  { split; [exact (lexicon_built _ _ _ L)|]. split; [exact S1|]. split; [exact (lexicon_tabs _ _ _ L)|exact C1]. }
  { split; [exact (lexicon_built _ _ _ L')|]. split; [exact S2|]. split; [exact (lexicon_tabs _ _ _ L')|]. rewrite <- Et. exact C2. }
  unfold std_standardize, std_parse_address, std_match_address.
  destruct (lexicon_given e lx arg G) as [(z & y & Lz & E & R)|(m & Rj & _)]; [|destruct (lexicon_exclusive _ _ _ _ L Rj)]. rewrite (lexicon_one _ _ _ _ Lz L) in R.
  destruct (lexicon_given e lx' arg' G') as [(z' & y' & Lz' & E' & R')|(m & Rj & _)]; [|destruct (lexicon_exclusive _ _ _ _ L' Rj)]. rewrite (lexicon_one _ _ _ _ Lz' L') in R'.
  rewrite E, E'. cbn [obind]. split; [|split].
  - destruct (get_grammar e atof gr) as [g| |] eqn:Eg; cbn [obind]; [|reflexivity|reflexivity]. destruct (grammar_loads e atof gr g UO Eg) as (_ & Lg).
    rewrite (proj1 (R g locale filt address)), (proj1 (R' g locale filt address)). exact (Q1 g Lg).
  - rewrite (proj1 (proj2 (R (mkGrammar [] [] []) locale filt address))), (proj1 (proj2 (R' (mkGrammar [] [] []) locale filt address))). exact Q2.
  - destruct (get_grammar e atof gr) as [g| |]; cbn [obind]; [|reflexivity|reflexivity]. rewrite (proj2 (proj2 (R g locale filt address)) sort), (proj2 (proj2 (R' g locale filt address)) sort). exact (Q3 sort g).
Qed.
(** ** Adding and removing one entry *)
Lemma insert_same_for : forall u t x le, lex_wf (x_lex x) -> some_words x -> ~ concerns u t (le_word le) -> same_for u t x (lex_insert x le).
Proof.
  intros u t x le W S1 N. split; [unfold lex_insert; destruct (existsb _ _); reflexivity|]. split.
  - split; intros _; [|exact S1]. destruct S1 as (w & L & K). exists w. split; [|exact K]. unfold listed in *. rewrite (find_insert x le w W).
    destruct (teqb w (le_word le)); [|exact L]. destruct (in_dec _ _ _); [exact L|]. destruct (lex_find x w); discriminate.
  - intros w C. rewrite (find_insert x le w W). destruct (teqb w (le_word le)) eqn:E; [|reflexivity]. apply teqb_eq in E. subst w. destruct (N C).
Qed.
Lemma insert_local : forall e x le locale filt address, apart_tables (e_uni e) -> word_tables (e_uni e) -> let t := reading e x locale address in
  blank_lines (e_uni e) t -> tab_tables (e_uni e) -> some_words x -> ~ concerns (e_uni e) t (le_word le) -> fit_lexicon (e_uni e) x t -> fit_lexicon (e_uni e) (lex_insert x le) t ->
  (forall g, is_loaded g -> standardize_addr e g (lex_insert x le) locale filt address = standardize_addr e g x locale filt address) /\
  parse_addr e (lex_insert x le) locale filt address = parse_addr e x locale filt address /\
  forall sort g, match_addr e sort g (lex_insert x le) locale filt address = match_addr e sort g x locale filt address.
Proof.
  intros e x le locale filt address AT WT t BL NT S1 N F1 F2. assert (W := proj1 (built_ok x (proj1 F1))).
  destruct (calls_local e x (lex_insert x le) locale filt address AT WT BL NT (insert_same_for _ _ _ _ W S1 N) F1 F2) as (A & B & C).
  split; [intros g G; symmetry; exact (A g G)|]. split; [symmetry; exact B|]. intros sort g. symmetry. exact (C sort g).
Qed.

(** ** The order of the lines *)
Lemma meaning_loaded : forall e lx lg loc es dg, lexicon_means e lx lg loc es dg -> exists x, lexicon_of e lx x /\ x_locale x = loc /\ lex_wf (x_lex x) /\ forall w, exists sub, of_word w es sub /\ once [] sub (lex_find x w).
Proof.
  intros e lx lg loc es dg M. assert (L := complete_ok e query_lex lx lg loc es dg M). destruct (run_fresh es query_lex lg loc) as (_ & _ & A3 & _ & _ & _ & A7 & A8).
  exists (with_digest (run (empty_lex query_lex lg loc) (map Ins es)) dg). split; [apply lexicon_loads; exact L|]. split; [exact A3|]. split; [exact A7|exact A8].
Qed.
Lemma lines_order : forall e atof sort address gr lx lx' arg arg' locale filt lg lg' loc es es' dg dg', given_as e lx arg -> given_as e lx' arg' ->
  lexicon_means e lx lg loc es dg -> lexicon_means e lx' lg' loc es' dg' -> rearranged es es' ->
  std_standardize e atof address gr arg locale filt = std_standardize e atof address gr arg' locale filt /\
  std_parse_address e address arg locale filt = std_parse_address e address arg' locale filt /\
  std_match_address e atof sort address gr arg locale filt = std_match_address e atof sort address gr arg' locale filt.
Proof.
  intros e atof sort address gr lx lx' arg arg' locale filt lg lg' loc es es' dg dg' G G' M M' RA.
  destruct (meaning_loaded _ _ _ _ _ _ M) as (x & L & Lo & W & F). destruct (meaning_loaded _ _ _ _ _ _ M') as (x' & L' & Lo' & W' & F').
  assert (X : x_lex x = x_lex x').
  { apply find_determines; [exact W|exact W'|]. intros w. destruct (F w) as (s1 & O1 & K1), (F' w) as (s2 & O2 & K2). destruct (RA w s1 s2 O1 O2) as (k & Q1 & Q2).
    rewrite (once_fun _ _ _ _ _ K1 Q1), (once_fun _ _ _ _ _ K2 Q2). reflexivity. }
  assert (P3 := same_caches x x' X (proj2 (built_ok x (lexicon_built _ _ _ L))) (proj2 (built_ok x' (lexicon_built _ _ _ L')))).
  assert (P := same_phrases e x x' locale filt address X (eq_trans Lo (eq_sym Lo')) P3).
  unfold std_standardize, std_parse_address, std_match_address.
  destruct (lexicon_given e lx arg G) as [(z & y & Lz & E & R)|(m & Rj & _)]; [|destruct (lexicon_exclusive _ _ _ _ L Rj)]. rewrite (lexicon_one _ _ _ _ Lz L) in R.
  destruct (lexicon_given e lx' arg' G') as [(z' & y' & Lz' & E' & R')|(m & Rj & _)]; [|destruct (lexicon_exclusive _ _ _ _ L' Rj)]. rewrite (lexicon_one _ _ _ _ Lz' L') in R'.
  rewrite E, E'. cbn [obind]. split; [|split].
  - destruct (get_grammar e atof gr) as [g| |]; cbn [obind]; [|reflexivity|reflexivity].
    rewrite (proj1 (R g locale filt address)), (proj1 (R' g locale filt address)). unfold standardize_addr. rewrite P. destruct (make_phrases e x' locale filt address) as [phs| |]; cbn [obind]; [|reflexivity|reflexivity].
    destruct (search_best g phs) as [b| |]; cbn [obind]; [|reflexivity|reflexivity]. rewrite (same_collect x x' _ _ X). reflexivity.
  - rewrite (proj1 (proj2 (R (mkGrammar [] [] []) locale filt address))), (proj1 (proj2 (R' (mkGrammar [] [] []) locale filt address))). unfold parse_addr. rewrite P. reflexivity.
  - destruct (get_grammar e atof gr) as [g| |]; cbn [obind]; [|reflexivity|reflexivity]. rewrite (proj2 (proj2 (R g locale filt address)) sort), (proj2 (proj2 (R' g locale filt address)) sort). unfold match_addr. rewrite P. reflexivity.
Qed.
