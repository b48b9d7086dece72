(** src/as_wrapper.cpp and the SQL functions of src/address_standardizer.c. *)
From Coq Require Import String List NArith ZArith Bool.
From Verif Require Import Base_model Class_model Float_model Uni_model Token_model Rule_model Search_model Grammar_model Lexicon_model
  Tokenizer_model Archive_model.
Import ListNotations.

(** C strings are texts here; a text never contains the code point 0, at which [strdup] would cut it.  Failing
    allocation is not modelled. *)

(** The same lines at the beginning of standardize_addr, parse_addr and match_addr, src/as_wrapper.cpp:104-117, 350-363,
    471-484: normalization and upper-casing, the filter, the tokens and the alternatives. *)
Definition prepared (e : env) (locale address : text) : text := e_upper e locale (e_nfc e address).
Definition make_phrases (e : env) (x : lexicon) (locale filt address : text) : outcome (list (list token)) :=
  obind (get_tokens e (set_filter (mkTz x []) (as_type filt)) (prepared e locale address)) (fun ks =>
  obind (get_alt_tokens (e_uni e) x ks) (fun alts => Ok (ks :: alts))).

(** The switch of src/as_wrapper.cpp:134-190: the number of the text a token is appended to. *)
Definition slot (o : outtype) : option nat :=
  match o with
  | O_BLDNG => Some 0 | O_HOUSE => Some 1 | O_PREDIR => Some 2 | O_QUALIF => Some 3 | O_PRETYP => Some 4
  | O_STREET => Some 5 | O_SUFTYP => Some 6 | O_SUFDIR => Some 7 | O_RR => Some 8
  | O_STOP | O_EXTRA | O_BADTOKEN => Some 9
  | O_CITY => Some 10 | O_PROV => Some 11 | O_NATION => Some 12 | O_POSTAL => Some 13
  | O_BOXH | O_BOXT => Some 14
  | O_UNITH | O_UNITT => Some 15
  | O_IGNORE => None
  end%nat.
(** v_stdaddr[i] += stdtext + " ". *)
Fixpoint append_at (i : nat) (w : text) (v : list text) : list text :=
  match v, i with
  | [], _ => []
  | a :: v', O => (a ++ w ++ [SP]) :: v'
  | a :: v', S i' => a :: append_at i' w v'
  end.
Definition put_token (v : list text) (k : token) : list text :=
  match slot (t_out k) with Some i => append_at i (t_std k) v | None => v end.
(** The loop of src/as_wrapper.cpp:131-191. *)
Fixpoint collect (x : lexicon) (v : list text) (ks : list token) : outcome (list text) :=
  match ks with
  | [] => Ok v
  | k :: ks' => obind (standardize_word x k) (fun k' => collect x (put_token v k') ks')
  end.
(** Lines 202-265: a text with content loses its last character; the others stay NULL. *)
Definition to_field (t : text) : option text := match t with [] => None | _ => Some (removelast t) end.

(** STDADDR, src/address_standardizer.h:18-36: the sixteen fields in order and the pattern, which is always set. *)
Record stdaddr := mkStd { sa_fields : list (option text); sa_pattern : text }.

(** standardize_addr, src/as_wrapper.cpp:101-287.  [Throw m]: NULL is returned and err_msg is [m]; [Ok None]: NULL without a
    message. *)
Definition standardize_addr (e : env) (g : grammar) (x : lexicon) (locale filt address : text) : outcome (option stdaddr) :=
  obind (make_phrases e x locale filt address) (fun phrases =>
  obind (search_best g phrases) (fun b =>
    if f_le f_zero (b_score b) then
      obind (collect x (repeat [] 16) (b_tokens b)) (fun v => Ok (Some (mkStd (map to_field v) (b_matched b))))
    else Ok None)).

(** getGrammarPtr, src/as_wrapper.cpp:528-548; also the first lines of std_standardize and std_match_address. *)
Definition get_grammar (e : env) (atof : text -> flt) (t : text) : outcome grammar :=
  obind (load_grammar (e_uni e) atof t) (fun l => Ok (gl_grammar l)).
(** std_standardize, src/as_wrapper.cpp:52-98. *)
Definition std_standardize (e : env) (atof : text -> flt) (address gr lx locale filt : text) : outcome (option stdaddr) :=
  obind (get_grammar e atof gr) (fun g => obind (get_lexicon e lx) (fun x => standardize_addr e g x locale filt address)).
(** The row built by as_standardize, src/address_standardizer.c:241-268; a message is only logged. *)
Definition address_row (r : outcome (option stdaddr)) : outcome (list (option text)) :=
  match r with
  | Ok (Some a) => Ok (sa_fields a ++ [Some (sa_pattern a)])
  | Ok None => Ok (repeat None 17)
  | Throw _ => Ok (repeat None 17)
  | UB => UB
  end.

(** TOKENS, src/address_standardizer.h:47-54, and parse_addr, src/as_wrapper.cpp:347-408.  The numbers are ints there. *)
Record prow := mkRow { pr_pat : N; pr_seq : N; pr_word : text; pr_class : text; pr_att : text }.
Fixpoint phrase_rows (i j : N) (ks : list token) : list prow * N :=
  match ks with
  | [] => ([], j)
  | k :: ks' => let (l, j') := phrase_rows i (j + 1) ks' in
                (mkRow i j (t_text k) (iset_str (t_in k)) (aset_str (t_att k)) :: l, j')
  end.
Fixpoint all_rows (i j : N) (phrases : list (list token)) : list prow :=
  match phrases with
  | [] => []
  | p :: ps => let (l, j') := phrase_rows i j p in l ++ all_rows (i + 1) j' ps
  end.
Definition parse_addr (e : env) (x : lexicon) (locale filt address : text) : outcome (list prow) :=
  obind (make_phrases e x locale filt address) (fun phrases => Ok (all_rows 0 0 phrases)).
(** std_parse_address, src/as_wrapper.cpp:302-344. *)
Definition std_parse_address (e : env) (address lx locale filt : text) : outcome (list prow) :=
  obind (get_lexicon e lx) (fun x => parse_addr e x locale filt address).
(** The rows of as_parse, src/address_standardizer.c:305-428: both numbers plus one; no rows after an exception. *)
Definition shown (r : prow) : prow := mkRow (pr_pat r + 1) (pr_seq r + 1) (pr_word r) (pr_class r) (pr_att r).
Definition parse_table (r : outcome (list prow)) : outcome (list prow) :=
  match r with Ok l => Ok (map shown l) | Throw _ => Ok [] | UB => UB end.

(** match_addr, src/as_wrapper.cpp:468-524; [sort] is std::sort by descending score (463-465). *)
Definition match_addr (e : env) (sort : list mresult -> list mresult) (g : grammar) (x : lexicon) (locale filt address : text)
  : outcome (list mresult) :=
  obind (make_phrases e x locale filt address) (fun phrases => obind (search_all g phrases) (fun rows => Ok (sort rows))).
(** std_match_address, src/as_wrapper.cpp:414-460, and the rows of as_match, src/address_standardizer.c:451-560. *)
Definition std_match_address (e : env) (atof : text -> flt) (sort : list mresult -> list mresult) (address gr lx locale filt : text)
  : outcome (list mresult) :=
  obind (get_grammar e atof gr) (fun g => obind (get_lexicon e lx) (fun x => match_addr e sort g x locale filt address)).
Definition match_table (r : outcome (list mresult)) : outcome (list mresult) :=
  match r with Ok l => Ok l | Throw _ => Ok [] | UB => UB end.
