(** Concrete grammars and addresses for the examples of Answer_props. *)
From Coq Require Import String List NArith ZArith Bool Lia Arith Sorting.Sorted Sorting.Permutation Floats.SpecFloat.
From Verif Require Import Base_model Class_model Class_spec Float_model Token_model Rule_model Uni_model Search_model Lexicon_model Tokenizer_model Wrapper_model Sample_model Search_spec Lexicon_spec Tokenizer_spec Wrapper_spec Split_spec Loaded_spec Read_spec Address_spec
  Order_spec Answer_spec Loaded_proofs TokExample_proofs Split_proofs SplitEx_proofs WrapperEx_proofs Address_proofs AddressEx_proofs.
Import ListNotations.

Lemma twice_order : is_loaded twice_g /\ (combinations twice_phrase <= 2 ^ 32)%N /\ Forall (fun k => is_inset (t_in k)) twice_phrase /\
  exists ps, search_node twice_g ADDRESS twice_phrase = Ok ps /\
    map (fun p => rule_outputs (p_rules p)) ps = [[O_STREET; O_HOUSE]; [O_CITY; O_HOUSE]; [O_STREET; O_HOUSE]; [O_CITY; O_HOUSE]].
Proof.
  split; [exact twice_loaded|]. split; [vm_compute; discriminate|]. split; [repeat constructor|]. eexists. split; [vm_compute; reflexivity|]. vm_compute. reflexivity.
Qed.
Lemma twice_fits : is_loaded twice_g /\ no_nan_scores twice_g /\ Forall (sizes_ok twice_g) [twice_phrase; twice_phrase] /\ Forall (fun ph => (combinations ph <= 2 ^ 32)%N) [twice_phrase; twice_phrase] /\
  Forall (Forall (fun k => is_inset (t_in k))) [twice_phrase; twice_phrase].
Proof.
  split; [exact twice_loaded|]. split; [apply nonan_b_ok; vm_compute; reflexivity|].
  assert (S1 : sizes_ok twice_g twice_phrase) by (exists 2; split; [apply width_b_ok; vm_compute; reflexivity|vm_compute; reflexivity]).
  split; [repeat (constructor; [exact S1|]); constructor|]. split; [repeat (constructor; [vm_compute; discriminate|]); constructor|]. repeat constructor.
Qed.
Lemma twice_best : exists b, search_best twice_g [twice_phrase; twice_phrase] = Ok b /\ b_score b = f32_dec 5 1 /\ map t_out (b_tokens b) = [O_STREET; O_HOUSE].
Proof. eexists. split; [vm_compute; reflexivity|]. split; vm_compute; reflexivity. Qed.
Definition w_phs : list (list token) := match make_phrases ascii_env w_x en w_filter w_addr with Ok p => p | _ => [] end.
Lemma w_phs_read : read_address ascii_uni w_x w_filter w_text w_phs.
Proof.
  apply (make_phrases_are ascii_env w_x en w_filter w_addr w_phs w_x_built w_x_simple ascii_apart ascii_tables w_lines_blank w_exact w_tabs). vm_compute. reflexivity.
Qed.
Lemma w_phs_sizes : Forall (sizes_ok w_g) w_phs /\ Forall (fun ph => (combinations ph <= 2 ^ 32)%N) w_phs.
Proof.
  assert (E : exists a b, w_phs = [a; b] /\ List.length a <= 1000 /\ List.length b <= 1000 /\ (combinations a <= 2 ^ 32)%N /\ (combinations b <= 2 ^ 32)%N).
  { do 2 eexists. split; [vm_compute; reflexivity|]. split; [apply Nat.leb_le; vm_compute; reflexivity|]. split; [apply Nat.leb_le; vm_compute; reflexivity|]. split; vm_compute; discriminate. }
  destruct E as (a & b & -> & A1 & A2 & A3 & A4). split; (constructor; [|constructor; [|constructor]]); try assumption; apply w_sizes; assumption.
Qed.
Definition v_addr : text := s2t "12 Main"%string.
Definition v_text : text := e_upper ascii_env (x_locale w_x) (e_nfc ascii_env (e_upper ascii_env en (e_nfc ascii_env v_addr))).
Lemma v_exact : case_clear ascii_uni w_x v_text.
Proof. apply (upper_clear w_x v_text [s2t "PO BOX"%string; s2t "ST"%string] w_x_built); vm_compute; reflexivity. Qed.
Lemma v_setting : built w_x /\ simple_words w_x /\ apart_tables ascii_uni /\ word_tables ascii_uni /\ blank_lines ascii_uni v_text /\ case_clear ascii_uni w_x v_text /\ tabs_apart ascii_uni w_x.
Proof.
  split; [exact w_x_built|]. split; [exact w_x_simple|]. split; [exact ascii_apart|]. split; [exact ascii_tables|]. split; [apply ascii_lines; absent|]. split; [exact v_exact|exact w_tabs].
Qed.
Lemma v_match : exists phs, read_address ascii_uni w_x w_filter v_text phs /\ Forall (fun ph => (combinations ph <= 2 ^ 32)%N) phs /\
  (forall rows, search_all w_g3 phs = Ok rows -> sorted_rows rows (by_score rows)) /\
  exists r1 r2, match_addr ascii_env by_score w_g3 w_x en w_filter v_addr = Ok [r1; r2] /\ m_matched r1 = s2t "NUMBER WORD -> POSTAL CITY"%string /\ m_matched r2 = s2t "NUMBER WORD -> HOUSE STREET"%string.
Proof.
  destruct w_match as (phs & r1 & r2 & P & H & M & E1 & E2). exists phs. destruct v_setting as (A1 & A2 & A3 & A4 & A5 & A6 & A7).
  split; [apply (make_phrases_are ascii_env w_x en w_filter v_addr phs A1 A2 A3 A4 A5 A6 A7); exact P|]. split; [|split; [exact H|exists r1, r2; auto]].
  vm_compute in P. injection P as <-. constructor; [vm_compute; discriminate|constructor].
Qed.
