(** Grammar and Search objects with the pointers of their SectionPtrs: src/sectionptr.h, src/grammar.h, src/grammar.cpp:171-224, src/search.h:48-52,
    src/search.cpp:225-408.  An object is a number, its place in the store; a pointer to a section is the object that holds the section and the
    position of the section in that object's vector.  Vectors do not grow after the pointers are set (src/grammar.cpp:159), so they never move. *)
From Coq Require Import String List NArith Bool.
From Verif Require Import Base_model Class_model Float_model Uni_model Token_model Rule_model Search_model Grammar_model.
Import ListNotations.

(** class SectionPtr, src/sectionptr.h:25-60. *)
Definition place := (nat * nat)%type.
Record pref := mkP { q_name : text; q_mptr : option place; q_rptr : option place }.
(** MetaSection, Grammar: src/metasection.h, src/grammar.h:90-93 (without md5_, issues_, references_, checked_, status_). *)
Record pmeta := mkPM { pm_name : text; pm_rules : list (list pref) }.
Record pgrammar := mkPG { pg_metas : list pmeta; pg_rules : list rulesection; pg_index : list (text * nat) }.
(** Objects that were made; [None] for one that was destroyed. *)
Definition store := list (option pgrammar).

(** SectionPtr::SectionPtr(name): both pointers NULL, src/sectionptr.h:39; the sections as initialize leaves them, before updatePointers. *)
Definition new_pref (r : sref) : pref := mkP (f_name r) None None.
Definition new_pmeta (m : metasection) : pmeta := mkPM (ms_name m) (map (map new_pref) (ms_rules m)).

(** Setting one pointer, src/grammar.cpp:184-222; [this] is the object under construction. *)
Definition p_link_ref (this : nat) (metas : list pmeta) (rules : list rulesection) (ix : list (text * nat)) (self : nat) (selfname : text) (r : pref) : outcome (pref * text) :=
  let w := q_name r in
  if teqb w selfname then Ok (mkP w (Some (this, self)) (q_rptr r), [])
  else match index_find ix w with
       | Some i =>
           let is_m := match nth_error metas i with Some ms => teqb (pm_name ms) w | None => false end in
           let is_r := match nth_error rules i with Some rs => teqb (rs_name rs) w | None => false end in
           if is_m then Ok (mkP w (Some (this, i)) (q_rptr r), [])
           else if is_r then Ok (mkP w (q_mptr r) (Some (this, i)), [])
           else Throw (s2t "Grammar-updatePointers-consistency-check-failed")
       | None => Ok (r, s2t "Missing rule: " ++ w ++ s2t " : referenced at [" ++ selfname ++ s2t "]" ++ [LF])
       end.
(** The loops around it, src/grammar.cpp:177-183. *)
Definition p_link_section this metas rules ix self (m : pmeta) : outcome (pmeta * text) :=
  obind (link_all (link_all (p_link_ref this metas rules ix self (pm_name m))) (pm_rules m)) (fun '(rs, t) => Ok (mkPM (pm_name m) rs, t)).
Fixpoint p_link_metas this metas rules ix (self : nat) (l : list pmeta) : outcome (list pmeta * text) :=
  match l with
  | [] => Ok ([], [])
  | m :: l' => obind (p_link_section this metas rules ix self m) (fun '(m', t) =>
               obind (p_link_metas this metas rules ix (S self) l') (fun '(ms, ts) => Ok (m' :: ms, t ++ ts)))
  end.
(** The other checks of updatePointers read names only, src/grammar.cpp:226-284. *)
Definition plain_meta (m : pmeta) : metasection := mkMeta (pm_name m) (map (map (fun q => new_ref (q_name q))) (pm_rules m)).
Definition p_update (this : nat) (g : pgrammar) : outcome (pgrammar * gstatus * text) :=
  obind (p_link_metas this (pg_metas g) (pg_rules g) (pg_index g) 0 (pg_metas g)) (fun '(metas, missing) =>
    let names := map plain_meta (pg_metas g) in
    let refs := all_refs names in
    let noaddr := match index_find (pg_index g) ADDRESS with
                  | Some _ => []
                  | None => s2t "Rule 'ADDRESS' is not defined!" ++ [LF]
                  end in
    let munref := concat (map (fun e => unref_issue refs (ms_name e)) names) in
    let (rissues, rfatal) := rule_issues refs [] (pg_rules g) in
    let status :=
      if nonempty missing || nonempty noaddr || nonempty rfatal then CHECK_FATAL
      else if nonempty munref || nonempty rissues then CHECK_WARN else CHECK_OK in
    Ok (mkPG metas (pg_rules g) (pg_index g), status, missing ++ noaddr ++ munref ++ rissues)).

(** What a program does with Grammar and Search objects:
    Grammar::Grammar(istream), src/grammar.cpp:23-168 - nothing is made when it throws;
    the copy constructor, which copies the pointers as they are, src/grammar.h:61, and Search::Search(const Grammar &), src/search.h:52;
    the destructor. *)
Inductive op := New (src : text) | CopyOf (i : nat) | Delete (i : nat).
Fixpoint forget (st : store) (i : nat) : store :=
  match st, i with
  | [], _ => []
  | _ :: st', O => None :: st'
  | x :: st', S i' => x :: forget st' i'
  end.
Definition object (st : store) (i : nat) : option pgrammar := match nth_error st i with Some (Some g) => Some g | _ => None end.
Definition perform (u : uni) (atof : text -> flt) (o : op) (st : store) : outcome store :=
  match o with
  | New src =>
      obind (load_sections u atof src) (fun s =>
      obind (p_update (List.length st) (mkPG (map new_pmeta (l_metas s)) (l_rsecs s) (l_index s))) (fun '(g, status, issues) =>
        match status with CHECK_FATAL => Throw issues | _ => Ok (st ++ [Some g]) end))
  | CopyOf i => match object st i with Some g => Ok (st ++ [Some g]) | None => UB end
  | Delete i => match object st i with Some _ => Ok (forget st i) | None => UB end
  end.
Fixpoint run (u : uni) (atof : text -> flt) (ops : list op) (st : store) : outcome store :=
  match ops with [] => Ok st | o :: ops' => obind (perform u atof o st) (run u atof ops') end.

(** class SearchPath, src/search.h:28-33; Search::matchRule, src/search.cpp:411-456. *)
Record ppath := mkPP { pp_rules : list rule; pp_next : list pref; pp_rem : list intype }.
Fixpoint p_match_rules (rs : list rule) (p : ppath) : list ppath :=
  match rs with
  | [] => []
  | r :: rs' => if Nat.ltb (List.length (pp_rem p)) (List.length (r_in r)) then p_match_rules rs' p
                else match strip_prefix (r_in r) (pp_rem p) with
                     | Some rest => mkPP (pp_rules p ++ [r]) (pp_next p) rest :: p_match_rules rs' p
                     | None => p_match_rules rs' p
                     end
  end.
(** Reading what a pointer points to; nothing when the object is gone. *)
Definition meta_at (st : store) (a : place) : option pmeta := match object st (fst a) with Some g => nth_error (pg_metas g) (snd a) | None => None end.
Definition rule_at (st : store) (a : place) : option rulesection := match object st (fst a) with Some g => nth_error (pg_rules g) (snd a) | None => None end.
(** Search::match, matchNext, src/search.cpp:274-408. *)
Fixpoint p_match (fuel : nat) (st : store) (lim : nat) (sp : pref) (p : ppath) (level : nat) {struct fuel} : sres (list ppath) :=
  match fuel with
  | O => NoFuel
  | S f =>
      if Nat.ltb lim level then Done []
      else match q_mptr sp with
           | Some a =>
               match meta_at st a with
               | None => Dangling
               | Some ms =>
                   sconcat (fun refs =>
                              match refs ++ pp_next p with
                              | [] => Done []
                              | nx => p_next_match f st lim (mkPP (pp_rules p) nx (pp_rem p)) level
                              end) (pm_rules ms)
               end
           | None =>
               match q_rptr sp with
               | Some a =>
                   match rule_at st a with
                   | None => Dangling
                   | Some rs => Done (p_match_rules (rs_rules rs) p)
                   end
               | None => Done []
               end
           end
  end
with p_next_match (fuel : nat) (st : store) (lim : nat) (p : ppath) (level : nat) {struct fuel} : sres (list ppath) :=
  match fuel with
  | O => NoFuel
  | S f =>
      match pp_next p with
      | [] => Done []
      | sp :: rest =>
          sbind (p_match f st lim sp (mkPP (pp_rules p) rest (pp_rem p)) (S level))
            (fun mr =>
               sconcat (fun result =>
                          match pp_next result with
                          | _ :: _ =>
                              sconcat (fun q => match pp_next q with
                                                | [] => Done []
                                                | _ :: _ => p_next_match f st lim q level
                                                end) mr
                          | [] => Done [result]
                          end) mr)
      end
  end.
(** Search::stringToSectionPtr, src/search.cpp:225-245: a pointer to a section of the Search object itself. *)
Definition p_section_ptr (this : nat) (g : pgrammar) (n : text) : option pref :=
  match index_find (pg_index g) n with
  | None => None
  | Some i =>
      let as_rule :=
        match nth_error (pg_rules g) i with
        | Some rs => if teqb n (rs_name rs) then Some (mkP n None (Some (this, i))) else None
        | None => None
        end in
      match nth_error (pg_metas g) i with
      | Some ms => if teqb n (pm_name ms) then Some (mkP n (Some (this, i)) None) else as_rule
      | None => as_rule
      end
  end.
(** Search::search, src/search.cpp:16-61, called for object [this]. *)
Definition p_search_node (st : store) (this : nat) (node : text) (phrase : list token) : outcome (list ppath) :=
  match object st this with
  | None => UB
  | Some g =>
      let n := List.length phrase in
      match p_section_ptr this g node with
      | None => Throw (s2t "Search-Rule-Not-Found:" ++ node)
      | Some sp =>
          match sconcat (fun pat => p_match (search_fuel (mkGrammar (map plain_meta (pg_metas g)) (pg_rules g) (pg_index g)) n) st (n + 2) sp (mkPP [] [] pat) 0) (enumerate phrase) with
          | Done ms => Ok (filter (fun p => match pp_rem p with [] => true | _ => false end) ms)
          | _ => UB
          end
      end
  end.
Definition p_search (st : store) (this : nat) (phrase : list token) : outcome (list ppath) := p_search_node st this ADDRESS phrase.
