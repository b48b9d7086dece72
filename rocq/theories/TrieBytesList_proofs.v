(** Lists and patterns of words as bytes. *)
From Coq Require Import String List NArith ZArith Bool Lia Sorting.Sorted.
From Verif Require Import Base_model Utf8_model Utf8_spec Utf8_proofs Grammar_model Trie_model TextOrder_spec Trie_spec LexDiag_spec
  TextOrder_proofs Trie_proofs TrieRegex_proofs ByteTrie_model ByteTrie_spec ByteTrie_proofs Archive_model Archive_proofs TrieBytes_model TrieBytes_spec TrieBytes_proofs.
Import ListNotations.
Local Open Scope N_scope.

Definition bad_code : text := s2t "Invalid-Unicode-Code-Point".
Lemma code_cases : forall c, (too_big c /\ code_point_to_utf8 c = Throw bad_code) \/ (~ too_big c /\ exists a, code_point_to_utf8 c = Ok a /\ utf8_of c a).
Proof.
  intros c. destruct (N.leb_spec 0x110000 c) as [H|H].
  - left. split; [exact H|]. unfold code_point_to_utf8. rewrite (proj2 (N.leb_le _ _) H). reflexivity.
  - right. split; [unfold too_big; lia|]. apply encode_one. exact H.
Qed.
Lemma split_first : forall A (P Q : A -> Prop) l, (forall x, In x l -> P x \/ Q x) ->
  Forall P l \/ exists pre x post, l = pre ++ x :: post /\ Forall P pre /\ Q x.
Proof.
  intros A P Q. induction l as [|x l IH]; intros H; [left; constructor|].
  destruct (H x (or_introl eq_refl)) as [K|K].
  - destruct (IH (fun y Hy => H y (or_intror Hy))) as [F|(pre & y & post & -> & F & X)]; [left; constructor; assumption|].
    right. exists (x :: pre), y, post. repeat split; [constructor; assumption|exact X].
  - right. exists [], x, l. repeat split; [constructor|exact K].
Qed.
Definition big_path (t : trie) : Prop := exists p c, is_prefix (p ++ [c]) t = true /\ too_big c.
Definition fine_kid (ck : N * trie) : Prop := ~ too_big (fst ck) /\ ~ big_path (snd ck).
Definition bad_kid (ck : N * trie) : Prop := too_big (fst ck) \/ big_path (snd ck).
Lemma fine_path : forall n e kids, Forall fine_kid kids -> ~ big_path (Node n e kids).
Proof.
  intros n e kids F (p & c & P & B). rewrite Forall_forall in F. destruct p as [|d p]; cbn [app is_prefix t_kids] in P.
  - destruct (kid_find c kids) as [k|] eqn:E; [|discriminate]. apply kid_find_in in E. destruct (F _ E) as (F1 & _). exact (F1 B).
  - destruct (kid_find d kids) as [k|] eqn:E; [|discriminate]. apply kid_find_in in E. destruct (F _ E) as (_ & F2). apply F2. exists p, c. auto.
Qed.
Lemma bad_path_of : forall n e kids ck, wf (Node n e kids) -> In ck kids -> bad_kid ck -> big_path (Node n e kids).
Proof.
  intros n e kids [c k] W Hin X. inversion W as [? ? ? S Hk]; subst. assert (E := kid_in_find _ S c k Hin).
  destruct X as [X|(p & d & P & B)]; cbn [fst snd] in *.
  - exists [], c. cbn [app is_prefix t_kids]. rewrite E. auto.
  - exists (c :: p), d. cbn [app is_prefix t_kids]. rewrite E. auto.
Qed.

(** ** Sets of words *)
Lemma utf8_tltb : forall a x b y, utf8_text a x -> utf8_text b y -> tltb a b = tltb x y.
Proof.
  intros a x b y H K. assert (O := bytes_order a b x y H K). rewrite <- !tltb_lt in O.
  destruct (tltb a b), (tltb x y); try reflexivity; [symmetry; apply O; reflexivity|apply O; reflexivity].
Qed.
Lemma wset_utf8 : forall w x, utf8_text w x -> forall ws xs, Forall2 utf8_text ws xs -> Forall2 utf8_text (wset_insert w ws) (wset_insert x xs).
Proof.
  intros w x H ws xs F. induction F as [|v y ws xs Hv F IH]; cbn [wset_insert]; [constructor; [exact H|constructor]|].
  rewrite (utf8_tltb w x v y H Hv), (utf8_tltb v y w x Hv H). destruct (tltb x y); [constructor; [exact H|constructor; assumption]|].
  destruct (tltb y x); constructor; assumption.
Qed.

(** ** All words *)
Definition words_go (sofar : list N) := fix go (l : list (N * trie)) (ws : list (list N)) : outcome (list (list N)) :=
         match l with
         | [] => Ok ws
         | (c, k) :: l' =>
             obind (code_point_to_utf8 c) (fun a =>
             let tmp := sofar ++ a in
             obind (u_get_words k tmp (if t_fin k then wset_insert tmp ws else ws)) (go l'))
         end.
Definition texts_go (sofar : text) := fix go (l : list (N * trie)) (ws : list text) : list text :=
         match l with
         | [] => ws
         | (c, k) :: l' =>
             let tmp := sofar ++ [c] in
             go l' (get_words k tmp (if t_fin k then wset_insert tmp ws else ws))
         end.
Definition words_fine (t : trie) : Prop := forall sofar bs ws xs, utf8_text sofar bs -> Forall2 utf8_text ws xs ->
  exists r, u_get_words t bs xs = Ok r /\ Forall2 utf8_text (get_words t sofar ws) r.
Definition words_bad (t : trie) : Prop := forall sofar bs ws xs, utf8_text sofar bs -> Forall2 utf8_text ws xs -> u_get_words t bs xs = Throw bad_code.
Lemma words_pre : forall pre, Forall (fun ck => ~ too_big (fst ck) /\ words_fine (snd ck)) pre -> forall sofar bs, utf8_text sofar bs -> forall ws xs, Forall2 utf8_text ws xs ->
  forall post, exists r, words_go bs (pre ++ post) xs = words_go bs post r /\ Forall2 utf8_text (texts_go sofar pre ws) r.
Proof.
  induction 1 as [|[c k] l (Hc & Hk) F IH]; intros sofar bs Hs ws xs Hw post; [exists xs; split; [reflexivity|exact Hw]|].
  cbn [fst snd] in Hc, Hk. cbn [app words_go texts_go]. destruct (code_cases c) as [(B & _)|(_ & a & E & U)]; [contradiction|]. rewrite E. cbn [obind].
  assert (T := utf8_text_snoc sofar bs Hs c a U). cbv zeta.
  assert (W : Forall2 utf8_text (if t_fin k then wset_insert (sofar ++ [c]) ws else ws) (if t_fin k then wset_insert (bs ++ a) xs else xs)).
  { destruct (t_fin k); [apply wset_utf8; assumption|exact Hw]. }
  destruct (Hk _ _ _ _ T W) as (r & Er & Fr). rewrite Er. cbn [obind]. exact (IH sofar bs Hs _ r Fr post).
Qed.
Lemma words_cases : forall t, wf t -> (big_path t /\ words_bad t) \/ (~ big_path t /\ words_fine t).
Proof.
  induction t as [n e kids IHk] using trie_ind'. intros W. inversion W as [? ? ? S Hk]; subst. rewrite Forall_forall in IHk, Hk.
  destruct (split_first _ (fun ck => (~ too_big (fst ck) /\ words_fine (snd ck)) /\ ~ big_path (snd ck))
              (fun ck => too_big (fst ck) \/ (~ too_big (fst ck) /\ big_path (snd ck) /\ words_bad (snd ck))) kids) as [F|(pre & ck & post & -> & F & X)].
  - intros ck Hin. destruct (code_cases (fst ck)) as [(B & _)|(B & _)]; [auto|]. destruct (IHk _ Hin (Hk _ Hin)) as [(K1 & K2)|(K1 & K2)]; auto.
  - right. split; [apply fine_path; eapply Forall_impl; [|exact F]; intros ck ((A & _) & B); split; assumption|].
    intros sofar bs ws xs Hs Hw. change (u_get_words (Node n e kids) bs xs) with (words_go bs kids (if e then wset_insert bs xs else xs)).
    change (get_words (Node n e kids) sofar ws) with (texts_go sofar kids (if e then wset_insert sofar ws else ws)).
    assert (Hw' : Forall2 utf8_text (if e then wset_insert sofar ws else ws) (if e then wset_insert bs xs else xs)) by (destruct e; [apply wset_utf8; assumption|exact Hw]).
    destruct (words_pre kids ltac:(eapply Forall_impl; [|exact F]; intros ck (A & _); exact A) sofar bs Hs _ _ Hw' []) as (r & E & R).
    rewrite app_nil_r in E. exists r. split; [exact E|exact R].
  - left. split.
    { apply (bad_path_of n e _ ck W); [apply in_app_iff; right; left; reflexivity|]. destruct X as [X|(_ & X & _)]; [left; exact X|right; exact X]. }
    intros sofar bs ws xs Hs Hw. change (u_get_words (Node n e (pre ++ ck :: post)) bs xs) with (words_go bs (pre ++ ck :: post) (if e then wset_insert bs xs else xs)).
    assert (Hw' : Forall2 utf8_text (if e then wset_insert sofar ws else ws) (if e then wset_insert bs xs else xs)) by (destruct e; [apply wset_utf8; assumption|exact Hw]).
    destruct (words_pre pre ltac:(eapply Forall_impl; [|exact F]; intros x (A & _); exact A) sofar bs Hs _ _ Hw' (ck :: post)) as (r & E & R).
    rewrite E. destruct ck as [c k]. cbn [fst snd] in X. cbn [words_go]. destruct (code_cases c) as [(B & ->)|(B & a & Ec & U)]; [reflexivity|].
    destruct X as [X|(_ & _ & X)]; [contradiction|]. rewrite Ec. cbn [obind].
    assert (T := utf8_text_snoc sofar bs Hs c a U). cbv zeta. 
    rewrite (X _ _ (if t_fin k then wset_insert (sofar ++ [c]) (texts_go sofar pre (if e then wset_insert sofar ws else ws)) else texts_go sofar pre (if e then wset_insert sofar ws else ws)) _ T); [reflexivity|].
    destruct (t_fin k); [apply wset_utf8; assumption|exact R].
Qed.
Lemma big_words : forall css, big_path (trie_of css) <-> exists cs c, In cs css /\ In c cs /\ too_big c.
Proof.
  intros ws. destruct (trie_words ws) as (_ & P & _). split.
  - intros (p & c & H & Sc). apply P in H. destruct H as [H|(w & Hw & s & ->)]; [destruct p; discriminate|].
    exists ((p ++ [c]) ++ s), c. split; [exact Hw|]. split; [|exact Sc]. rewrite !in_app_iff. left. right. left. reflexivity.
  - intros (w & c & Hw & Hc & Sc). apply in_split in Hc. destruct Hc as (p & s & ->). exists p, c. split; [|exact Sc].
    apply P. right. exists (p ++ c :: s). split; [exact Hw|]. exists s. rewrite <- app_assoc. reflexivity.
Qed.
Lemma wf_trie : forall css, wf (trie_of css).
Proof. intros css. destruct (trie_of_gen css (new_trie false) (wf_new false)) as (W & _). exact W. Qed.

(** ** The pattern *)
Lemma ascii_text : forall s, Forall (fun c => c < 128) s -> utf8_text s s.
Proof. induction 1 as [|c s Hc H IH]; [constructor|]. change (c :: s) with ([c] ++ s) at 2. constructor; [constructor; exact Hc|exact IH]. Qed.
Ltac ascii_lit := apply ascii_text; repeat constructor.
Lemma join_utf8 : forall sep l x, utf8_text sep sep -> Forall2 utf8_text l x -> utf8_text (join sep l) (join sep x).
Proof.
  intros sep l x Hs F. induction F as [|a y l x Ha F IH]; [constructor|]. destruct F as [|b z l x Hb F]; [exact Ha|].
  change (join sep (a :: b :: l)) with (a ++ sep ++ join sep (b :: l)). change (join sep (y :: z :: x)) with (y ++ sep ++ join sep (z :: x)).
  apply utf8_text_app; [exact Ha|]. apply utf8_text_app; [exact Hs|exact IH].
Qed.
Lemma concat_utf8 : forall l x, Forall2 utf8_text l x -> utf8_text (concat l) (concat x).
Proof. induction 1 as [|a y l x Ha F IH]; [constructor|]. cbn [concat]. apply utf8_text_app; assumption. Qed.
Lemma forall2_len : forall A B (R : A -> B -> Prop) l x, Forall2 R l x -> List.length l = List.length x.
Proof. induction 1; cbn; congruence. Qed.
Lemma finish_tail : forall (e b : bool) n (p q : list text), Forall2 utf8_text p q ->
  utf8_text (if e && negb (Nat.eqb n 0) then (if b then match p with [z] => z | _ => s2t "(?:" ++ join (s2t "|") p ++ s2t ")" end ++ s2t "?"
                                              else s2t "(?:" ++ match p with [z] => z | _ => s2t "(?:" ++ join (s2t "|") p ++ s2t ")" end ++ s2t ")?")
             else match p with [z] => z | _ => s2t "(?:" ++ join (s2t "|") p ++ s2t ")" end)
            (if e && negb (Nat.eqb n 0) then (if b then match q with [z] => z | _ => s2t "(?:" ++ join (s2t "|") q ++ s2t ")" end ++ s2t "?"
                                              else s2t "(?:" ++ match q with [z] => z | _ => s2t "(?:" ++ join (s2t "|") q ++ s2t ")" end ++ s2t ")?")
             else match q with [z] => z | _ => s2t "(?:" ++ join (s2t "|") q ++ s2t ")" end).
Proof.
  intros e b n p q F.
  assert (G : utf8_text (match p with [z] => z | _ => s2t "(?:" ++ join (s2t "|") p ++ s2t ")" end) (match q with [z] => z | _ => s2t "(?:" ++ join (s2t "|") q ++ s2t ")" end)).
  { assert (J : utf8_text (s2t "(?:" ++ join (s2t "|") p ++ s2t ")") (s2t "(?:" ++ join (s2t "|") q ++ s2t ")")).
    { apply utf8_text_app; [ascii_lit|]. apply utf8_text_app; [|ascii_lit]. apply join_utf8; [ascii_lit|exact F]. }
    destruct F as [|a c p q Ha F]; [exact J|]. destruct F as [|a' c' p q Ha' F]; [exact Ha|exact J]. }
  destruct (e && negb (Nat.eqb n 0)); [|exact G].
  destruct b; [apply utf8_text_app; [exact G|ascii_lit]|].
  apply utf8_text_app; [ascii_lit|]. apply utf8_text_app; [exact G|ascii_lit].
Qed.
Lemma finish_utf8 : forall e (alt cc x y : list text) n, Forall2 utf8_text alt x -> Forall2 utf8_text cc y -> utf8_text (finish_regexp e alt cc n) (finish_regexp e x y n).
Proof.
  intros e alt cc x y n Fa Fc. unfold finish_regexp.
  assert (L1 : match alt with [] => true | _ => false end = match x with [] => true | _ => false end) by (destruct Fa; reflexivity).
  assert (F : Forall2 utf8_text (match cc with [] => alt | [z] => alt ++ [z] | _ => alt ++ [s2t "[" ++ concat cc ++ s2t "]"] end)
                                (match y with [] => x | [z] => x ++ [z] | _ => x ++ [s2t "[" ++ concat y ++ s2t "]"] end)).
  { destruct Fc as [|c0 y0 cc y H0 Fc]; [exact Fa|]. destruct Fc as [|c1 y1 cc y H1 Fc].
    - apply Forall2_app; [exact Fa|]. constructor; [exact H0|constructor].
    - apply Forall2_app; [exact Fa|]. constructor; [|constructor].
      apply utf8_text_app; [ascii_lit|]. apply utf8_text_app; [|ascii_lit]. apply concat_utf8. constructor; [exact H0|]. constructor; assumption. }
  cbv zeta. rewrite L1. exact (finish_tail e (match x with [] => true | _ => false end) n _ _ F).
Qed.
Lemma high_quiet : forall b, 128 <= b -> existsb (N.eqb b) special_chars = false.
Proof.
  intros b H. destruct (existsb (N.eqb b) special_chars) eqn:E; [|reflexivity]. apply existsb_exists in E. destruct E as (d & Hd & E). apply N.eqb_eq in E. subst d.
  assert (A : Forall (fun c => c < 128) special_chars) by (repeat constructor). rewrite Forall_forall in A. specialize (A b Hd). cbv beta in A. lia.
Qed.
Lemma quote_utf8 : forall c a, utf8_of c a -> utf8_text (quote_meta [c]) (quote_meta a).
Proof.
  intros c a H. assert (K := H). destruct H.
  - rewrite quote_one. destruct (is_special c); apply ascii_text; repeat constructor; assumption.
  - unfold quote_meta. cbn [map concat]. rewrite !high_quiet by lia. cbn [app]. rewrite <- (app_nil_r [0xC0 + x; 0x80 + y]). constructor; [exact K|constructor].
  - unfold quote_meta. cbn [map concat]. rewrite !high_quiet by lia. cbn [app]. rewrite <- (app_nil_r [0xE0 + x; 0x80 + y; 0x80 + z]). constructor; [exact K|constructor].
  - unfold quote_meta. cbn [map concat]. rewrite !high_quiet by lia. cbn [app]. rewrite <- (app_nil_r [0xF0 + w; 0x80 + x; 0x80 + y; 0x80 + z]). constructor; [exact K|constructor].
Qed.
Definition bytes_go := fix go (l : list (N * trie)) (alt cc : list (list N)) : outcome (list (list N) * list (list N)) :=
          match l with
          | [] => Ok (alt, cc)
          | (c, k) :: l' =>
              obind (code_point_to_utf8 c) (fun a =>
              obind (u_get_regexp k) (fun recurse =>
              match recurse with
              | [] => go l' alt (cc ++ [quote_meta a])
              | _ => go l' (alt ++ [quote_meta a ++ recurse]) cc
              end))
          end.
Definition chars_go := fix go (l : list (N * trie)) (alt cc : list text) : list text * list text :=
          match l with
          | [] => (alt, cc)
          | (c, k) :: l' =>
              let qchar := quote_meta [c] in
              match get_regexp k with
              | [] => go l' alt (cc ++ [qchar])
              | r => go l' (alt ++ [qchar ++ r]) cc
              end
          end.
Definition regexp_fine (t : trie) : Prop := exists r, u_get_regexp t = Ok r /\ utf8_text (get_regexp t) r.
Lemma regexp_pre : forall pre, Forall (fun ck => ~ too_big (fst ck) /\ regexp_fine (snd ck)) pre -> forall alt cc x y, Forall2 utf8_text alt x -> Forall2 utf8_text cc y ->
  forall post, exists x' y', bytes_go (pre ++ post) x y = bytes_go post x' y' /\
    Forall2 utf8_text (fst (chars_go pre alt cc)) x' /\ Forall2 utf8_text (snd (chars_go pre alt cc)) y'.
Proof.
  induction 1 as [|[c k] l (Hc & r & Er & Ur) F IH]; intros alt cc x y Ha Hc' post; [exists x, y; split; [reflexivity|split; assumption]|].
  cbn [fst snd] in *. cbn [app bytes_go chars_go]. destruct (code_cases c) as [(B & _)|(_ & a & E & U)]; [contradiction|].
  rewrite E. cbn [obind]. rewrite Er. cbn [obind]. cbv zeta. assert (Q := quote_utf8 c a U). assert (N := utf8_nil _ _ Ur).
  destruct (get_regexp k) as [|g0 g]; destruct r as [|r0 r].
  - apply IH; [exact Ha|]. apply Forall2_app; [exact Hc'|]. constructor; [exact Q|constructor].
  - destruct N as (N & _). discriminate (N eq_refl).
  - destruct N as (_ & N). discriminate (N eq_refl).
  - apply IH; [|exact Hc']. apply Forall2_app; [exact Ha|]. constructor; [apply utf8_text_app; assumption|constructor].
Qed.
Lemma regexp_cases : forall t, wf t -> (big_path t /\ u_get_regexp t = Throw bad_code) \/ (~ big_path t /\ regexp_fine t).
Proof.
  induction t as [n e kids IHk] using trie_ind'. intros W. inversion W as [? ? ? S Hk]; subst. rewrite Forall_forall in IHk, Hk.
  destruct (split_first _ (fun ck => (~ too_big (fst ck) /\ regexp_fine (snd ck)) /\ ~ big_path (snd ck))
              (fun ck => too_big (fst ck) \/ (~ too_big (fst ck) /\ big_path (snd ck) /\ u_get_regexp (snd ck) = Throw bad_code)) kids) as [F|(pre & ck & post & -> & F & X)].
  - intros ck Hin. destruct (code_cases (fst ck)) as [(B & _)|(B & _)]; [auto|]. destruct (IHk _ Hin (Hk _ Hin)) as [(K1 & K2)|(K1 & K2)]; auto.
  - right. split; [apply fine_path; eapply Forall_impl; [|exact F]; intros ck ((A & _) & B); split; assumption|].
    unfold regexp_fine. cbn [u_get_regexp get_regexp]. destruct (e && Nat.eqb (List.length kids) 0); [exists []; split; [reflexivity|constructor]|].
    change (exists r, obind (bytes_go kids [] []) (fun ac => Ok (finish_regexp e (fst ac) (snd ac) (List.length kids))) = Ok r /\
       utf8_text (let (alt, cc) := chars_go kids [] [] in finish_regexp e alt cc (List.length kids)) r).
    destruct (regexp_pre kids ltac:(eapply Forall_impl; [|exact F]; intros ck (A & _); exact A) [] [] [] [] (Forall2_nil _) (Forall2_nil _) []) as (x & y & E & Fx & Fy).
    rewrite app_nil_r in E. rewrite E. cbn [bytes_go obind fst snd]. eexists. split; [reflexivity|].
    assert (LP : forall p : list text * list text, (let (alt, cc) := p in finish_regexp e alt cc (List.length kids)) = finish_regexp e (fst p) (snd p) (List.length kids)) by (intros []; reflexivity).
    rewrite LP. exact (finish_utf8 e _ _ _ _ (List.length kids) Fx Fy).
  - left. split.
    { apply (bad_path_of n e _ ck W); [apply in_app_iff; right; left; reflexivity|]. destruct X as [X|(_ & X & _)]; [left; exact X|right; exact X]. }
    cbn [u_get_regexp].
    replace (e && Nat.eqb (List.length (pre ++ ck :: post)) 0) with false
        by (rewrite app_length; cbn [List.length]; rewrite Nat.add_succ_r; cbn [Nat.eqb]; rewrite andb_false_r; reflexivity).
    change (obind (bytes_go (pre ++ ck :: post) [] []) (fun ac => Ok (finish_regexp e (fst ac) (snd ac) (List.length (pre ++ ck :: post)))) = Throw bad_code).
    destruct (regexp_pre pre ltac:(eapply Forall_impl; [|exact F]; intros x (A & _); exact A) [] [] [] [] (Forall2_nil _) (Forall2_nil _) (ck :: post)) as (x & y & E & _).
    rewrite E. destruct ck as [c k]. cbn [fst snd] in X. cbn [bytes_go]. destruct (code_cases c) as [(B & ->)|(B & a & -> & U)]; [reflexivity|].
    cbn [obind]. destruct X as [X|(_ & _ & ->)]; [contradiction|reflexivity].
Qed.

(** ** Filled tries *)
Definition throws {A} (o : outcome A) : Prop := exists m, o = Throw m.
Lemma u_listing : forall ws t, Forall (Forall is_byte) ws -> u_trie_of ws = Ok t ->
  ((exists w cs c, In w ws /\ codes w cs /\ In c cs /\ too_big c) ->
     u_get_words t [] [] = Throw bad_code /\ u_get_regexp t = Throw bad_code) /\
  (~ (exists w cs c, In w ws /\ codes w cs /\ In c cs /\ too_big c) -> exists css xs r,
     Forall2 codes ws css /\ u_get_words t [] [] = Ok xs /\ Forall2 utf8_text (get_words (trie_of css) [] []) xs /\
     u_get_regexp t = Ok r /\ utf8_text (get_regexp (trie_of css)) r).
Proof.
  intros ws t B E. apply (proj1 (proj2 (u_trie_exact ws B))) in E. destruct E as (css & H & ->).
  assert (Q : big_path (trie_of css) <-> exists w cs c, In w ws /\ codes w cs /\ In c cs /\ too_big c).
  { rewrite big_words. split.
    - intros (cs & c & Hin & Hc & T). destruct (forall2_in_r _ _ _ _ _ H cs Hin) as (w & Hw & K). exists w, cs, c. auto.
    - intros (w & cs & c & Hin & K & Hc & T). destruct (forall2_in_l _ _ _ _ _ H w Hin) as (ds & Hd & L). rewrite Forall_forall in B.
      rewrite (codes_one w cs ds (B w Hin) K L) in Hc. exists ds, c. auto. }
  rewrite <- Q. destruct (words_cases _ (wf_trie css)) as [(P1 & P2)|(P1 & P2)]; destruct (regexp_cases _ (wf_trie css)) as [(R1 & R2)|(R1 & R2)]; try contradiction.
  - split; [|intros C; contradiction]. intros _. split; [exact (P2 [] [] [] [] ut_nil (Forall2_nil _))|exact R2].
  - split; [intros C; contradiction|]. intros _. destruct (P2 [] [] [] [] ut_nil (Forall2_nil _)) as (xs & E1 & F1). destruct R2 as (r & E2 & F2).
    exists css, xs, r. auto.
Qed.
(** Words starting with a text. *)
Lemma u_starting_spec : forall p cs, codes p cs -> Forall is_byte p -> forall t, wf t -> ~ big_path t -> forall f sofar bs, (List.length p <= f)%nat -> utf8_text sofar bs ->
  forall ws xs, Forall2 utf8_text ws xs -> exists r, u_starting f p t xs bs = Ok r /\ Forall2 utf8_text (get_words_starting cs t ws sofar) r.
Proof.
  induction 1 as [|a c s cs O H IH]; intros B t W NB f sofar bs L Hs ws xs Hw.
  - destruct (words_cases t W) as [(P1 & _)|(_ & P2)]; [contradiction|]. destruct f; exact (P2 sofar bs ws xs Hs Hw).
  - destruct (bytes_app _ _ B) as (Ba & Bs). rewrite app_length in L. assert (La := one_length a c O).
    destruct f as [|f]; [lia|]. assert (F := one_first a c O Ba s). destruct (one_head a c O) as (b & r & n & -> & _ & _).
    assert (LL : (List.length s <= f)%nat) by (cbn [List.length] in L; lia).
    cbn [app] in *. cbn [u_starting get_words_starting]. rewrite F. cbn [obind fst snd]. destruct (kid_find c (t_kids t)) as [k|] eqn:E; [|exists xs; auto].
    destruct t as [m e kids]. cbn [t_kids] in E. assert (Hin := kid_find_in _ _ _ E).
    destruct (code_cases c) as [(X & _)|(_ & d & Ed & U)]; [exfalso; apply NB; apply (bad_path_of m e kids _ W Hin); left; exact X|].
    rewrite Ed. cbn [obind]. inversion W as [? ? ? S Hk]; subst. rewrite Forall_forall in Hk.
    apply IH; try assumption.
    + exact (Hk _ Hin).
    + intros X. apply NB. apply (bad_path_of m e kids _ W Hin). right. exact X.
    + exact (utf8_text_snoc sofar bs Hs c d U).
Qed.

(** Well-formed words: what is stored and listed are the very bytes. *)
Lemma utf8_not_big : forall cs s, utf8_text cs s -> forall c, In c cs -> ~ too_big c.
Proof.
  induction 1 as [|c a cs b Hc H IH]; intros d Hin; [destruct Hin|]. destruct Hin as [<-|Hin]; [|exact (IH d Hin)]. unfold too_big. destruct Hc; lia.
Qed.
Lemma forall2_flip : forall A B (R : A -> B -> Prop) (Q : B -> A -> Prop) l x, (forall a b, R a b -> Q b a) -> Forall2 R l x -> Forall2 Q x l.
Proof. intros A B R Q l x I. induction 1; constructor; auto. Qed.
Lemma texts_bytes_one : forall l x y, Forall2 utf8_text l x -> Forall2 utf8_text l y -> x = y.
Proof.
  induction l as [|a l IH]; intros x y H K; inversion H as [|? b ? x' Hb Hx]; inversion K as [|? c ? y' Hc Hy]; subst; [reflexivity|].
  rewrite (text_bytes_one a b c Hb Hc), (IH x' y' Hx Hy). reflexivity.
Qed.
Lemma u_utf8 : forall css ws p q, Forall2 utf8_text css ws -> utf8_text q p -> exists t some r,
  u_trie_of ws = Ok t /\
  u_get_words_starting p t [] [] = Ok some /\ sorted_words some /\ (forall x, In x some <-> x <> [] /\ In x ws /\ prefix_of p x) /\
  u_is_word p t = Ok (is_word q (trie_of css)) /\ u_is_prefix p t = Ok (is_prefix q (trie_of css)) /\
  (is_word q (trie_of css) = true <-> p <> [] /\ In p ws) /\
  (is_prefix q (trie_of css) = true <-> p = [] \/ exists w, In w ws /\ prefix_of p w) /\
  u_get_regexp t = Ok r /\ utf8_text (get_regexp (trie_of css)) r.
Proof.
  intros css ws p q H Hp. assert (C : Forall2 codes ws css) by (eapply forall2_flip; [|exact H]; intros a b K; apply utf8_codes; exact K).
  assert (B : Forall (Forall is_byte) ws).
  { clear -H. induction H as [|cs w css ws K H IH]; constructor; [apply (utf8_is_byte cs); exact K|exact IH]. }
  assert (Bp := utf8_is_byte q p Hp). assert (Cp := utf8_codes q p Hp).
  assert (NB : ~ big_path (trie_of css)).
  { rewrite big_words. intros (cs & c & Hin & Hc & T). destruct (forall2_in_l _ _ _ _ _ H cs Hin) as (w & _ & K). exact (utf8_not_big cs w K c Hc T). }
  destruct (u_starting_spec p q Cp Bp _ (wf_trie css) NB (List.length p) [] [] (le_n _) ut_nil [] [] (Forall2_nil _)) as (some & E1 & F1).
  destruct (regexp_cases _ (wf_trie css)) as [(R1 & _)|(_ & r & E2 & F2)]; [contradiction|].
  destruct (b_as_utf8 css ws q p H Hp) as (A1 & A2 & _ & _ & A5).
  assert (Es : some = b_get_words_starting p (b_trie_of ws) [] []).
  { exact (texts_bytes_one _ _ _ F1 A5). }
  destruct (b_trie_listing ws p B) as (_ & _ & S1 & S2). destruct (b_trie_words ws) as (W1 & W2 & _).
  destruct (u_find_exact p (trie_of css) Bp) as (F & _). destruct (F q Cp) as (G1 & G2).
  exists (trie_of css), some, r. split; [exact (u_trie_codes ws css C B)|]. split; [exact E1|]. rewrite Es. split; [exact S1|]. split; [exact S2|].
  split; [exact G1|]. split; [exact G2|]. rewrite <- A1, <- A2. split; [apply W1|]. split; [apply W2|]. split; [exact E2|exact F2].
Qed.

(** Printing. *)
Lemma u_heads_spec : forall l, (Forall (fun ck : N * trie => ~ too_big (fst ck)) l /\ exists h, u_heads l = Ok h /\ utf8_text (concat (map (fun ck => [fst ck] ++ s2t " ") l)) h) \/
  (Exists (fun ck : N * trie => too_big (fst ck)) l /\ u_heads l = Throw bad_code).
Proof.
  induction l as [|[c k] l IH]; [left; split; [constructor|exists []; split; [reflexivity|constructor]]|]. cbn [u_heads].
  destruct (code_cases c) as [(B & E)|(B & a & E & U)].
  - right. split; [left; exact B|]. rewrite E. reflexivity.
  - destruct IH as [(F & h & Eh & Uh)|(F & Eh)]; rewrite E, Eh; cbn [obind].
    + left. split; [constructor; [exact B|exact F]|]. eexists. split; [reflexivity|]. cbn [map concat fst]. rewrite <- app_assoc.
      rewrite <- app_comm_cons. cbn [app]. apply (ut_cons c a _ _ U). change (32 :: h) with ([32] ++ h). constructor; [constructor; reflexivity|exact Uh].
    + right. split; [right; exact F|reflexivity].
Qed.
Lemma dec_ascii : forall n, Forall (fun c => c < 128) (dec_text n).
Proof.
  intros n. destruct (dec_text_ok n) as (D & _). eapply Forall_impl; [|exact D]. intros c H. unfold is_digit in H. apply andb_true_iff in H. destruct H as (_ & H). apply N.leb_le in H. lia.
Qed.
Lemma u_print_cases : forall t, (Forall (fun ck => ~ too_big (fst ck)) (t_kids t) /\ exists h, u_print t = Ok h /\ utf8_text (print_trie t) h) \/
  (Exists (fun ck => too_big (fst ck)) (t_kids t) /\ u_print t = Throw bad_code).
Proof.
  intros t. destruct (u_heads_spec (t_kids t)) as [(F & h & E & U)|(F & E)]; unfold u_print; rewrite E; cbn [obind]; [left|right; auto].
  split; [exact F|]. eexists. split; [reflexivity|]. unfold print_trie.
  apply utf8_text_app; [destruct (t_fin t); ascii_lit|]. apply utf8_text_app; [ascii_lit|]. apply utf8_text_app; [apply ascii_text, dec_ascii|].
  apply utf8_text_app; [ascii_lit|]. apply utf8_text_app; [exact U|]. apply utf8_text_app; ascii_lit.
Qed.
Lemma u_starting_filled : forall ws t p cs held held_codes, Forall (Forall is_byte) ws -> Forall is_byte p -> u_trie_of ws = Ok t -> codes p cs ->
  Forall2 utf8_text held_codes held -> ~ (exists w cs c, In w ws /\ codes w cs /\ In c cs /\ too_big c) -> exists css xs,
  Forall2 codes ws css /\ u_get_words_starting p t held [] = Ok xs /\ Forall2 utf8_text (get_words_starting cs (trie_of css) held_codes []) xs.
Proof.
  intros ws t p cs held hc B Bp E C Hh NB. apply (proj1 (proj2 (u_trie_exact ws B))) in E. destruct E as (css & H & ->). exists css.
  assert (Q : ~ big_path (trie_of css)).
  { rewrite big_words. intros (ds & c & Hin & Hc & T). destruct (forall2_in_r _ _ _ _ _ H ds Hin) as (w & Hw & K). apply NB. exists w, ds, c. auto. }
  destruct (u_starting_spec p cs C Bp _ (wf_trie css) Q (List.length p) [] [] (le_n _) ut_nil hc held Hh) as (xs & E1 & F1).
  exists xs. auto.
Qed.
Lemma u_print_filled : forall ws t, Forall (Forall is_byte) ws -> u_trie_of ws = Ok t ->
  ((exists w c cs, In w ws /\ codes w (c :: cs) /\ too_big c) -> u_print t = Throw bad_code) /\
  (~ (exists w c cs, In w ws /\ codes w (c :: cs) /\ too_big c) -> exists css h,
     Forall2 codes ws css /\ u_print t = Ok h /\ utf8_text (print_trie (trie_of css)) h).
Proof.
  intros ws t B E. apply (proj1 (proj2 (u_trie_exact ws B))) in E. destruct E as (css & H & ->).
  assert (Q : (exists w c cs, In w ws /\ codes w (c :: cs) /\ too_big c) <-> Exists (fun ck => too_big (fst ck)) (t_kids (trie_of css))).
  { destruct (trie_words css) as (_ & P & _). assert (W := wf_trie css). split.
    - intros (w & c & cs & Hin & K & T). destruct (forall2_in_l _ _ _ _ _ H w Hin) as (ds & Hd & L). rewrite Forall_forall in B.
      rewrite <- (codes_one w _ ds (B w Hin) K L) in Hd. assert (X : is_prefix [c] (trie_of css) = true).
      { apply P. right. exists (c :: cs). split; [exact Hd|]. exists cs. reflexivity. }
      cbn [is_prefix] in X. destruct (kid_find c (t_kids (trie_of css))) as [k|] eqn:F; [|discriminate]. apply kid_find_in in F.
      apply Exists_exists. exists (c, k). split; [exact F|exact T].
    - intros X. apply Exists_exists in X. destruct X as ([c k] & Hin & T). cbn [fst] in T.
      assert (F : kid_find c (t_kids (trie_of css)) = Some k).
      { destruct (trie_of css) as [n e kids]. inversion W as [? ? ? S Hk]; subst. apply kid_in_find; assumption. }
      assert (X : is_prefix [c] (trie_of css) = true) by (cbn [is_prefix]; rewrite F; destruct k; reflexivity).
      apply P in X. destruct X as [X|(w & Hw & s & ->)]; [discriminate|]. destruct (forall2_in_r _ _ _ _ _ H _ Hw) as (v & Hv & K).
      exists v, c, s. auto. }
  rewrite Q. destruct (u_print_cases (trie_of css)) as [(F & h & E & U)|(F & E)].
  - split; [|intros _; exists css, h; auto]. intros X. exfalso. apply Exists_exists in X. destruct X as (ck & Hin & T). rewrite Forall_forall in F. exact (F ck Hin T).
  - split; [auto|]. intros X. contradiction.
Qed.

(** ** Witnesses *)
Lemma not_utf8_overlong : forall ds, ~ utf8_text ds [0xC1; 0x81].
Proof.
  intros ds H. assert (C := utf8_codes _ _ H). assert (B := utf8_is_byte _ _ H).
  assert (E : ds = [65]). { apply (codes_one [0xC1; 0x81]); [exact B|exact C|]. apply (cd_cons [0xC1; 0x81] 65 [] [] ); [|constructor]. apply (oc_2 0xC1 0x81). constructor. right. split; discriminate || reflexivity. }
  subst ds. assert (K := text_bytes_one [65] _ [65] H ltac:(ascii_lit)). discriminate K.
Qed.
Lemma w_reported_refuted : exists s cs, Forall is_byte s /\ walk_forward (List.length s) s 0 = Ok cs /\ forall ds, ~ utf8_text ds s.
Proof. exists [0xC1; 0x81], [65]. split; [repeat constructor|]. split; [reflexivity|exact not_utf8_overlong]. Qed.
Lemma w_back_refuted : exists s cs ds, walk_forward (List.length s) s 0 = Ok cs /\ walk_backward (List.length s) s (List.length s) = Ok ds /\ ds <> rev cs.
Proof. exists [0x41; 0xC3; 0x41], [0x41; 193], [0x41; 0x41]. vm_compute. repeat split. discriminate. Qed.
Lemma w_back_defined_refuted : exists s cs, walk_forward (List.length s) s 0 = Ok cs /\ walk_backward (List.length s) s (List.length s) = UB.
Proof. exists [0xC3; 0x41], [193]. vm_compute. repeat split. Qed.
Lemma w_foreign_refuted : exists ws t w, Forall (Forall is_byte) ws /\ u_trie_of ws = Ok t /\ u_is_word w t = Ok true /\ ~ In w ws.
Proof.
  exists [[65]], (trie_of [[65]]), [0xC1; 0x81]. split; [repeat constructor|]. split; [reflexivity|]. split; [reflexivity|].
  intros [H|[]]. discriminate H. Qed.
Lemma w_usable_refuted : exists ws t, Forall (Forall is_byte) ws /\ u_trie_of ws = Ok t /\ u_get_regexp t = Throw (s2t "Invalid-Unicode-Code-Point").
Proof. exists [[0xF7; 0xBF; 0xBF; 0xBF]], (trie_of [[0x1FFFFF]]). split; [repeat constructor|]. split; reflexivity. Qed.
Lemma w_same_bytes_refuted : exists ws t xs w, Forall (Forall is_byte) ws /\ u_trie_of ws = Ok t /\ u_get_words t [] [] = Ok xs /\ In w xs /\ ~ In w ws.
Proof.
  exists [[0xC1; 0x81]], (trie_of [[65]]), [[65]], [65]. split; [repeat constructor|]. split; [reflexivity|]. split; [reflexivity|].
  split; [left; reflexivity|]. intros [H|[]]. discriminate H. Qed.
