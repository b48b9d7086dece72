(** Concrete calls for the examples of Wrapper_props. *)
From Coq Require Import String List NArith ZArith Bool Lia Sorting.Permutation Floats.SpecFloat.
From Verif Require Import Base_model Class_model Float_model Uni_model Token_model Rule_model Search_model Grammar_model Lexicon_model
  Tokenizer_model Archive_model Wrapper_model Wrapper_spec Sample_model Search_spec Grammar_spec Loaded_spec Lexicon_spec LexText_spec Tokenizer_spec
  Loaded_proofs TokExample_proofs Wrapper_proofs WrapperTop_proofs.
Import ListNotations.
Local Open Scope string_scope.

Definition wt : text := [9%N].
Definition w_lines : list text := [
 s2t "LEXICON:" ++ wt ++ s2t "demo" ++ wt ++ s2t "ENG" ++ wt ++ s2t "en" ++ wt;
 s2t "LEXENTRY:" ++ wt ++ s2t "ST" ++ wt ++ s2t "STREET" ++ wt ++ s2t "TYPE" ++ wt ++ wt;
 s2t "LEXENTRY:" ++ wt ++ s2t "PO BOX" ++ wt ++ s2t "PO BOX" ++ wt ++ s2t "BOXH" ++ wt ++ wt]%list.
Definition w_lexicon : text := file w_lines [].
Definition w_grammar : text := s2t "[ADDRESS]
@house @street @box
@house @street
[house]
NUMBER -> HOUSE -> 0.9
[street]
WORD TYPE -> STREET SUFTYP -> 0.8
[box]
BOXH NUMBER -> BOXH BOXT -> 0.5
".
(** Tokens with empty texts; also a class that is not output. *)
Definition w_grammar2 : text := s2t "[ADDRESS]
WORD WORD WORD WORD -> STREET HOUSE IGNORE CITY -> 0.4
".
Definition w_x : lexicon := match load_lexicon ascii_env query_lex w_lexicon with Ok x => x | _ => new_lexicon [] end.
Definition w_g : grammar := match get_grammar ascii_env sample_atof w_grammar with Ok g => g | _ => mkGrammar [] [] [] end.
Definition w_addr : text := s2t "12 Main st,  PO Box 7".
Definition w_filter : text := s2t "PUNCT,SPACE".
Definition en : text := s2t "en".
Definition some (s : string) : option text := Some (s2t s).

Lemma w_x_loaded : load_lexicon ascii_env query_lex w_lexicon = Ok w_x.
Proof. vm_compute. reflexivity. Qed.
Lemma w_x_built : built w_x.
Proof. eapply built_load. exact w_x_loaded. Qed.
Lemma w_x_simple : simple_words w_x.
Proof.
  intros w c H K. rewrite (listed_keys w_x w [s2t "PO BOX"; s2t "ST"] w_x_built) in H by (vm_compute; reflexivity).
  simpl in H. destruct H as [<-|[<-|[]]]; simpl in K; repeat (destruct K as [<-|K]; [repeat split; discriminate|]); destruct K.
Qed.
Lemma w_g_loaded : is_loaded w_g.
Proof.
  unfold w_g, get_grammar. remember (load_grammar (e_uni ascii_env) sample_atof w_grammar) as o eqn:E. destruct o as [L|m|].
  - exists ascii_uni, sample_atof, w_grammar, L. split; [apply ascii_uni_ok|]. split; [symmetry; exact E|reflexivity].
  - exfalso. vm_compute in E. discriminate.
  - exfalso. vm_compute in E. discriminate.
Qed.
Lemma w_g_scores : no_nan_scores w_g.
Proof.
  intros sec r H K. vm_compute in H. repeat (destruct H as [<-|H]; [vm_compute in K; repeat (destruct K as [<-|K]; [discriminate|]); destruct K|]). destruct H.
Qed.
Lemma w_sizes : forall ph, (List.length ph <= 1000)%nat -> sizes_ok w_g ph.
Proof.
  intros ph L. exists 3%nat. split.
  - intros ms refs H K. vm_compute in H. repeat (destruct H as [<-|H]; [vm_compute in K; repeat (destruct K as [<-|K]; [cbn; lia|]); destruct K|]). destruct H.
  - change (2 ^ 127)%Z with (170141183460469231731687303715884105728)%Z. lia.
Qed.
Lemma w_call : std_standardize ascii_env sample_atof w_addr w_grammar w_lexicon en w_filter =
  Ok (Some (mkStd [None; some "12"; None; None; None; some "MAIN"; some "STREET"; None; None; None; None; None; None; None; some "PO BOX 7"; None]
                  (s2t "NUMBER WORD TYPE BOXH NUMBER -> HOUSE STREET SUFTYP BOXH BOXT"))).
Proof. vm_compute. reflexivity. Qed.
Lemma w_direct : standardize_addr ascii_env w_g w_x en w_filter w_addr =
  Ok (Some (mkStd [None; some "12"; None; None; None; some "MAIN"; some "STREET"; None; None; None; None; None; None; None; some "PO BOX 7"; None]
                  (s2t "NUMBER WORD TYPE BOXH NUMBER -> HOUSE STREET SUFTYP BOXH BOXT"))).
Proof. vm_compute. reflexivity. Qed.
Lemma w_nothing : standardize_addr ascii_env w_g w_x en w_filter (s2t "Main 12") = Ok None.
Proof. vm_compute. reflexivity. Qed.
Lemma w_lines_blank : blank_lines ascii_uni (search_text ascii_env w_x (prepared ascii_env en w_addr)).
Proof. apply ascii_lines; absent. Qed.

(** C14: a field with an empty text. *)
Lemma empty_field : exists e atof gr lx locale filt address r,
  std_standardize e atof address gr lx locale filt = Ok (Some r) /\ In (Some []) (sa_fields r).
Proof.
  exists ascii_env, sample_atof, w_grammar2, w_lexicon, en, [], (s2t "A B"). eexists. split; [vm_compute; reflexivity|]. right. left. reflexivity.
Qed.
(** C53: the second pattern does not begin with 1. *)
Definition w_row (a n : N) (w c : string) : prow := mkRow a n (s2t w) (s2t c) (s2t "").
Definition w_rows : list prow := match parse_table (std_parse_address ascii_env w_addr w_lexicon en w_filter) with Ok l => l | _ => [] end.
Lemma w_parse : exists rows, parse_table (std_parse_address ascii_env w_addr w_lexicon en w_filter) = Ok rows /\
  map (fun r => (pr_pat r, pr_seq r, pr_word r)) rows =
  [(1, 1, s2t "12"); (1, 2, s2t "MAIN"); (1, 3, s2t "ST"); (1, 4, s2t "PO BOX"); (1, 5, s2t "7");
   (2, 6, s2t "12"); (2, 7, s2t "MAIN"); (2, 8, s2t "ST"); (2, 9, s2t "PO"); (2, 10, s2t "BOX"); (2, 11, s2t "7")]%N.
Proof. exists w_rows. split; vm_compute; reflexivity. Qed.
Lemma seq_not_position : exists e lx locale filt address rows n r, parse_table (std_parse_address e address lx locale filt) = Ok rows /\
  nth_error rows n = Some r /\ (forall m s, (m < n)%nat -> nth_error rows m = Some s -> pr_pat s <> pr_pat r) /\ pr_seq r <> 1%N.
Proof.
  exists ascii_env, w_lexicon, en, w_filter, w_addr, w_rows, 5%nat. eexists. split; [vm_compute; reflexivity|]. split; [vm_compute; reflexivity|]. split.
  - intros m s H K. do 5 (destruct m as [|m]; [vm_compute in K; injection K as <-; discriminate|]). lia.
  - discriminate.
Qed.
Lemma w_tokens : exists ks alts, get_tokens ascii_env (mkTz w_x (as_type w_filter)) (prepared ascii_env en w_addr) = Ok ks /\ (phrases ks <= 31)%nat /\
  get_alt_tokens ascii_uni w_x ks = Ok alts /\ List.length alts = 1%nat /\ Forall (sizes_ok w_g) (ks :: alts) /\ make_phrases ascii_env w_x en w_filter w_addr = Ok (ks :: alts).
Proof.
  do 2 eexists. split; [vm_compute; reflexivity|]. split; [apply Nat.leb_le; vm_compute; reflexivity|]. split; [vm_compute; reflexivity|]. split; [reflexivity|]. split.
  - constructor; [apply w_sizes; apply Nat.leb_le; vm_compute; reflexivity|]. constructor; [apply w_sizes; apply Nat.leb_le; vm_compute; reflexivity|constructor].
  - vm_compute. reflexivity.
Qed.
(** A sort for the examples: insertion, higher scores first. *)
Fixpoint put_row (r : mresult) (l : list mresult) : list mresult :=
  match l with [] => [r] | s :: l' => if f_lt (m_score r) (m_score s) then s :: put_row r l' else r :: l end.
Definition by_score (l : list mresult) : list mresult := fold_right put_row [] l.
Definition w_grammar3 : text := s2t "[ADDRESS]
@low
@high
[low]
NUMBER WORD -> HOUSE STREET -> 0.2
[high]
NUMBER WORD -> POSTAL CITY -> 0.5
".
Definition w_g3 : grammar := match get_grammar ascii_env sample_atof w_grammar3 with Ok g => g | _ => mkGrammar [] [] [] end.
Lemma w_g3_loaded : is_loaded w_g3.
Proof.
  unfold w_g3, get_grammar. remember (load_grammar (e_uni ascii_env) sample_atof w_grammar3) as o eqn:E. destruct o as [L|m|].
  - exists ascii_uni, sample_atof, w_grammar3, L. split; [apply ascii_uni_ok|]. split; [symmetry; exact E|reflexivity].
  - exfalso. vm_compute in E. discriminate.
  - exfalso. vm_compute in E. discriminate.
Qed.
Lemma w_match : let address := s2t "12 Main" in exists phrases r1 r2, make_phrases ascii_env w_x en w_filter address = Ok phrases /\
  (forall rows, search_all w_g3 phrases = Ok rows -> sorted_rows rows (by_score rows)) /\
  match_addr ascii_env by_score w_g3 w_x en w_filter address = Ok [r1; r2] /\
  m_matched r1 = s2t "NUMBER WORD -> POSTAL CITY" /\ m_matched r2 = s2t "NUMBER WORD -> HOUSE STREET".
Proof.
  cbv zeta. eexists. exists (mkMR (s2t "NUMBER WORD -> POSTAL CITY") (S754_finite false 4503599627370496 (-53)) (S754_finite false 4503599627370496 (-52))).
  eexists. split; [vm_compute; reflexivity|]. split; [|split; [vm_compute; reflexivity|split; vm_compute; reflexivity]].
  intros rows H. vm_compute in H. injection H as <-. split.
  - vm_compute. apply perm_swap.
  - intros l1 a l2 b l3 E. vm_compute in E.
    destruct l1 as [|r l1]; [injection E as <- E; destruct l2 as [|r2 l2]; [injection E as <- _; vm_compute; reflexivity|injection E as _ E; destruct l2; discriminate]|].
    injection E as _ E. destruct l1 as [|r2 l1]; [injection E as _ E; destruct l2; discriminate|]. injection E as _ E. destruct l1; discriminate.
Qed.
(** The compiled lexicon. *)
Definition w_archive : text := match serialize_lexicon ascii_env w_lexicon with Ok a => a | _ => [] end.
Lemma w_compiled : serialize_lexicon ascii_env w_lexicon = Ok w_archive /\
  std_standardize ascii_env sample_atof w_addr w_grammar w_archive en w_filter = std_standardize ascii_env sample_atof w_addr w_grammar w_lexicon en w_filter.
Proof. split; [vm_compute; reflexivity|]. rewrite w_call. vm_compute. reflexivity. Qed.
