(** The digest kept with a grammar, Grammar::md5_, src/grammar.h:79, 96: [load_grammar] with the variable [grammar_in]. *)
From Coq Require Import String List NArith Bool.
From Verif Require Import Base_model Class_model Float_model Uni_model Rule_model Search_model Grammar_model Md5_model Lexicon_model.
Import ListNotations.
Local Open Scope N_scope.

(** The reading loop, src/grammar.cpp:64-138; [acc] is [grammar_in] (lines 50, 67): the lines as getline leaves them, a
    byte order mark included, without line ends. *)
Fixpoint load_loop_d (fuel : nat) (u : uni) (atof : text -> flt) (first : bool) (is : stream) (line : text)
  (s : loadst) (acc : text) : outcome (loadst * text) :=
  match fuel with
  | O => UB
  | S f =>
      if s_fail is then Ok (s, acc)
      else let (is', raw) := getline LF is line in
           obind (if first then strip_bom raw else Ok raw) (fun line' =>
           obind (load_line u atof s line') (fun s' => load_loop_d f u atof false is' line' s' (acc ++ raw)))
  end.
(** Grammar::initialize, src/grammar.cpp:48-168, and what getMd5 (src/grammar.h:79) returns afterwards. *)
Definition load_grammar_d (u : uni) (atof : text -> flt) (src : text) : outcome (loaded * text) :=
  obind (load_loop_d (List.length src + 3) u atof true (open_stream src) [] load0 []) (fun sd =>
  let s := match l_sec (fst sd) with [] => fst sd | _ => flush (fst sd) end in
  obind (update_pointers (mkGrammar (l_metas s) (l_rsecs s) (l_index s))) (fun '(g, st, issues) =>
    match st with
    | CHECK_FATAL => Throw issues
    | _ => Ok (mkLoaded g st issues, md5_hex (bytes_of (snd sd)))
    end)).
