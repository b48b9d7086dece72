(** src/search.h, src/search.cpp. *)
From Coq Require Import String List NArith ZArith Bool Floats.SpecFloat.
From Verif Require Import Base_model Class_model Float_model Token_model Rule_model.
Import ListNotations.

(** class SearchPath, src/search.h:28-33. *)
Record spath := mkPath { p_rules : list rule; p_next : list sref; p_rem : list intype }.

(** Results of the recursive search: finished, call depth exhausted (never happens: C04), or a
    pointer that designates no section (never happens for a loaded grammar: C36). *)
Inductive sres (A : Type) : Type := Done (a : A) | NoFuel | Dangling.
Arguments Done {A} a.
Arguments NoFuel {A}.
Arguments Dangling {A}.

Definition sbind {A B} (x : sres A) (f : A -> sres B) : sres B :=
  match x with Done a => f a | NoFuel => NoFuel | Dangling => Dangling end.

(** Concatenation of the results of a loop body, in order. *)
Fixpoint sconcat {A B} (f : A -> sres (list B)) (l : list A) : sres (list B) :=
  match l with
  | [] => Done []
  | x :: l' => sbind (f x) (fun a => sbind (sconcat f l') (fun b => Done (a ++ b)))
  end.

(** Search::matchRule, src/search.cpp:411-456.  [None] stands for the empty SearchPath returned on failure
    (the caller recognizes it by [rules.size() == 0]; a success has at least one rule). *)
Fixpoint strip_prefix (ins pat : list intype) : option (list intype) :=
  match ins, pat with
  | [], _ => Some pat
  | e :: ins', x :: pat' => if in_eqb x e then strip_prefix ins' pat' else None
  | _ :: _, [] => None
  end.
Definition match_rule (r : rule) (p : spath) : option spath :=
  if Nat.ltb (List.length (p_rem p)) (List.length (r_in r)) then None
  else match strip_prefix (r_in r) (p_rem p) with
       | Some rest => Some (mkPath (p_rules p ++ [r]) (p_next p) rest)
       | None => None
       end.
Fixpoint match_rules (rs : list rule) (p : spath) : list spath :=
  match rs with
  | [] => []
  | r :: rs' => match match_rule r p with
                | Some q => q :: match_rules rs' p
                | None => match_rules rs' p
                end
  end.

(** Search::match(section, path, level), src/search.cpp:274-337, and Search::matchNext(path, level),
    src/search.cpp:360-408 with the list version 340-357 inlined as [sconcat].  [lim] is recursion_limit_.
    [fuel] bounds the nesting of calls. *)
Fixpoint do_match (fuel : nat) (g : grammar) (lim : nat) (sp : sref) (p : spath) (level : nat)
  {struct fuel} : sres (list spath) :=
  match fuel with
  | O => NoFuel
  | S f =>
      if Nat.ltb lim level then Done []
      else match f_meta sp with
           | Some i =>
               match nth_error (g_metas g) i with
               | None => Dangling
               | Some ms =>
                   sconcat (fun refs =>
                              match refs ++ p_next p with
                              | [] => Done []
                              | nx => match_next f g lim (mkPath (p_rules p) nx (p_rem p)) level
                              end) (ms_rules ms)
               end
           | None =>
               match f_rule sp with
               | Some i =>
                   match nth_error (g_rules g) i with
                   | None => Dangling
                   | Some rs => Done (match_rules (rs_rules rs) p)
                   end
               | None => Done []
               end
           end
  end
with match_next (fuel : nat) (g : grammar) (lim : nat) (p : spath) (level : nat)
  {struct fuel} : sres (list spath) :=
  match fuel with
  | O => NoFuel
  | S f =>
      match p_next p with
      | [] => Done []
      | sp :: rest =>
          sbind (do_match f g lim sp (mkPath (p_rules p) rest (p_rem p)) (S level))
            (fun mr =>
               sconcat (fun result =>
                          match p_next result with
                          | _ :: _ =>
                              (* matchNext( mr, level ): the whole list, once per result *)
                              sconcat (fun q => match p_next q with
                                                | [] => Done []
                                                | _ :: _ => match_next f g lim q level
                                                end) mr
                          | [] => Done [result]
                          end) mr)
      end
  end.

(** Search::stringToSectionPtr, src/search.cpp:225-245. *)
Fixpoint index_find (ix : list (text * nat)) (n : text) : option nat :=
  match ix with
  | [] => None
  | (m, i) :: ix' => if teqb m n then Some i else index_find ix' n
  end.
Definition section_ptr (g : grammar) (n : text) : option sref :=
  match index_find (g_index g) n with
  | None => None
  | Some i =>
      let as_rule :=
        match nth_error (g_rules g) i with
        | Some rs => if teqb n (rs_name rs) then Some (mkRef n None (Some i)) else None
        | None => None
        end in
      match nth_error (g_metas g) i with
      | Some ms => if teqb n (ms_name ms) then Some (mkRef n (Some i) None) else as_rule
      | None => as_rule
      end
  end.

(** Longest meta rule of a grammar and the call-nesting budget handed to the search. *)
Definition max_refs (g : grammar) : nat :=
  fold_right (fun ms a => fold_right (fun r b => Nat.max (List.length r) b) a (ms_rules ms)) 0%nat (g_metas g).
Fixpoint match_depth (w d q : nat) : nat :=
  match d with
  | O => 1%nat
  | S d' => (q + w + 2 + match_depth w d' (q + w))%nat
  end.
Definition search_fuel (g : grammar) (n : nat) : nat := match_depth (max_refs g) (n + 3) 0.

(** Outcome of Search::search: [Failure] is the exception "Search-Rule-Not-Found". *)
Definition search_node (g : grammar) (node : text) (phrase : list token) : outcome (list spath) :=
  let n := List.length phrase in
  match section_ptr g node with
  | None => Throw (s2t "Search-Rule-Not-Found:" ++ node)
  | Some sp =>
      match sconcat (fun pat => do_match (search_fuel g n) g (n + 2) sp (mkPath [] [] pat) 0)
                    (enumerate phrase) with
      | Done ms => Ok (filter (fun p => match p_rem p with [] => true | _ => false end) ms)
      | _ => UB
      end
  end.

(** Search::search(phrase), src/search.cpp:59-61. *)
Definition ADDRESS : text := s2t "ADDRESS".
Definition search (g : grammar) (phrase : list token) : outcome (list spath) :=
  search_node g ADDRESS phrase.

(** Search::reclassTokens, src/search.cpp:64-94.  The result is the (possibly partially) updated token vector
    and the returned flag.  [out[i]] beyond the end of the rule's outputs is undefined behaviour; the
    token iterator cannot run past the end because of the count check. *)
Fixpoint reclass_rule (ins : list intype) (outs : list outtype) (ts : list token)
  : outcome (list token * list token * bool) :=      (* done, rest, ok *)
  match ins with
  | [] => Ok ([], ts, true)
  | i :: ins' =>
      match ts with
      | [] => UB
      | k :: ts' =>
          if is_in_class k i then
            match outs with
            | [] => UB
            | o :: outs' =>
                match reclass_rule ins' outs' ts' with
                | Ok (d, rest, b) => Ok (set_out (set_in k [i]) o :: d, rest, b)
                | Throw m => Throw m
                | UB => UB
                end
            end
          else Ok ([], ts, false)
      end
  end.
Fixpoint reclass_rules (rs : list rule) (ts : list token) : outcome (list token * bool) :=
  match rs with
  | [] => Ok (ts, true)
  | r :: rs' =>
      match reclass_rule (r_in r) (r_out r) ts with
      | Ok (d, rest, true) =>
          match reclass_rules rs' rest with
          | Ok (l, b) => Ok (d ++ l, b)
          | Throw m => Throw m
          | UB => UB
          end
      | Ok (d, rest, false) => Ok (d ++ rest, false)
      | Throw m => Throw m
      | UB => UB
      end
  end.
Definition reclass_tokens (ts : list token) (p : spath) : outcome (list token * bool) :=
  let cnt := fold_left (fun c r => (c + List.length (r_in r))%nat) (p_rules p) 0%nat in
  if Nat.eqb cnt (List.length ts) then reclass_rules (p_rules p) ts else Ok (ts, false).

(** Search::toString, src/search.cpp:214-223.  Every token contributes its class-set string; [pop_back] on the
    never empty string drops the final blank. *)
Definition pattern_str (ts : list token) : text :=
  removelast (concat (map (fun k => iset_str (t_in k) ++ [SP]) ts) ++ s2t "-> "
              ++ concat (map (fun k => out_str (t_out k) ++ [SP]) ts)).

(** Average score of a path in float (src/search.cpp:115-118) and double (178-181). *)
Definition avg32 (p : spath) : flt :=
  f32_div (fold_left (fun s r => f32_add s (r_score r)) (p_rules p) f_zero)
          (f32_of_nat (List.length (p_rules p))).
Definition avg64 (p : spath) : flt :=
  f64_div (fold_left (fun s r => f64_add s (f64_of_f32 (r_score r))) (p_rules p) f_zero)
          (f64_of_nat (List.length (p_rules p))).

(** The selection loop, src/search.cpp:110-125: (best path, bestScore, bestNrules). *)
Definition best_step (st : spath * flt * flt) (p : spath) : spath * flt * flt :=
  let '(b, sc, nr) := st in
  let s := avg32 p in
  if f_lt sc s then (p, s, f32_of_nat (List.length (p_rules p))) else st.
Definition select_best (first : spath) (l : list spath) : spath * flt * flt :=
  fold_left best_step l (first, f_zero, f32_m1).

(** The four results of searchAndReclassBest: tokens, score, matched, nrules.  [matched] is an output
    parameter that keeps its previous value ([old]) when nothing is assigned. *)
Record best := mkBest { b_tokens : list token; b_score : flt; b_matched : text; b_nrules : flt }.

(** Search::searchAndReclassBest(phrase), src/search.cpp:97-137. *)
Definition search_best1 (g : grammar) (old : text) (phrase : list token) : outcome best :=
  obind (search g phrase) (fun results =>
    match results with
    | [] => Ok (mkBest [] f32_m1 old f32_m1)
    | p0 :: _ =>
        let '(b, sc, nr) := select_best p0 results in
        obind (reclass_tokens phrase b) (fun '(ts, ok) =>
          if ok : bool then Ok (mkBest ts sc (pattern_str ts) nr)
          else Ok (mkBest ts f32_m2 old nr))
    end).

(** Search::searchAndReclassBest(phrases), src/search.cpp:140-164. *)
Fixpoint search_best_loop (g : grammar) (cur : best) (phrases : list (list token)) : outcome best :=
  match phrases with
  | [] => Ok cur
  | ph :: rest =>
      obind (search_best1 g [] ph) (fun r =>
        search_best_loop g (if f_lt (b_score cur) (b_score r) then r else cur) rest)
  end.
Definition search_best (g : grammar) (phrases : list (list token)) : outcome best :=
  search_best_loop g (mkBest [] f32_m1 [] f32_m1) phrases.

(** class MatchResult, src/search.h:38-43. *)
Record mresult := mkMR { m_matched : text; m_score : flt; m_nrules : flt }.

(** Search::searchAndReclassAll, src/search.cpp:167-208. *)
Definition all_one (phrase : list token) (p : spath) : outcome mresult :=
  obind (reclass_tokens phrase p) (fun '(ts, ok) =>
    Ok (mkMR (pattern_str ts) (if ok : bool then avg64 p else f64_m2)
             (f64_of_nat (List.length (p_rules p))))).
Fixpoint omap {A B} (f : A -> outcome B) (l : list A) : outcome (list B) :=
  match l with
  | [] => Ok []
  | x :: l' => obind (f x) (fun y => obind (omap f l') (fun ys => Ok (y :: ys)))
  end.
Definition all_phrase (g : grammar) (phrase : list token) : outcome (list mresult) :=
  obind (search g phrase) (fun results => omap (all_one phrase) results).
Definition fail_row : mresult := mkMR (s2t "Failed to match to grammar!") f64_m1 f64_m1.
Definition search_all (g : grammar) (phrases : list (list token)) : outcome (list mresult) :=
  obind (omap (all_phrase g) phrases) (fun ls =>
    match concat ls with
    | [] => Ok [fail_row]
    | rows => Ok rows
    end).
