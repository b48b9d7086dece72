(** Sample data for the examples: a decimal reader for scores, grammar texts, phrases.  Not part of the modelled
    code (the grammar texts follow the format described in docs/grammar.md of /repo). *)
From Coq Require Import String List NArith ZArith Bool.
From Verif Require Import Base_model Class_model Float_model Uni_model Token_model Rule_model Search_model Grammar_model.
Import ListNotations.
Local Open Scope string_scope.

(** Plain decimal numerals: digits, optionally a point and digits. *)
Fixpoint dec_read (t : text) (m : Z) (k : Z) (frac : bool) : Z * Z :=
  match t with
  | [] => (m, k)
  | c :: t' => if N.eqb c 46 then dec_read t' m k true
               else if (N.leb 48 c && N.leb c 57)%bool
                    then dec_read t' (m * 10 + Z.of_N (c - 48)) (if frac then k + 1 else k)%Z frac
                    else (m, k)
  end.
Definition sample_atof (t : text) : flt := let (m, k) := dec_read t 0 0 false in f32_dec m k.

Definition load_sample (s : string) : outcome loaded := load_grammar ascii_uni sample_atof (s2t s).
Definition grammar_of (o : outcome loaded) : grammar :=
  match o with Ok l => gl_grammar l | _ => mkGrammar [] [] [] end.

(** A token with the given classes. *)
Definition tk (s : string) (cs : list intype) : token := mkToken (s2t s) [] cs O_BADTOKEN [] false.

(** An ambiguous, recursive address grammar. *)
Definition sample_src : string :=
"# sample
[ADDRESS]
@house @street
@house @street @city

[street]
@name
@name @street

[house]
NUMBER -> HOUSE -> 0.9

[name]
WORD TYPE -> STREET SUFTYP -> 0.8
WORD -> STREET -> 0.5

[city]
WORD -> CITY -> 0.6
WORD PROV -> CITY PROV -> 0.7
".
Definition sample_phrase : list token :=
  [tk "10" [I_NUMBER]; tk "MAIN" [I_WORD]; tk "ST" [I_WORD; I_TYPE]; tk "BOSTON" [I_WORD; I_CITY]].
(** The same with only one reading. *)
Definition sample_phrase2 : list token := [tk "10" [I_NUMBER]; tk "MAIN" [I_WORD]].
Definition sample_nomatch : list token := [tk "MAIN" [I_WORD]].

(** A chain of unit meta rules. *)
Definition chain_src : string :=
"[ADDRESS]
@a
[a]
@b
[b]
@c
[c]
@d
[d]
WORD -> STREET -> 0.5
".
(** Two alternatives before the last section. *)
Definition twice_src : string :=
"[ADDRESS]
@a @b
[a]
WORD -> STREET -> 0.5
WORD -> CITY -> 0.5
[b]
NUMBER -> HOUSE -> 0.5
".
Definition twice_phrase : list token := [tk "MAIN" [I_WORD]; tk "10" [I_NUMBER]].
(** Averages that agree in float and differ in double. *)
Definition close_src : string :=
"[ADDRESS]
@one
@a @b
[one]
NUMBER WORD -> HOUSE CITY -> 1
[a]
NUMBER -> HOUSE -> 1
[b]
WORD -> STREET -> 1.00000011920928955078125
".
Definition close_phrase : list token := [tk "10" [I_NUMBER]; tk "MAIN" [I_WORD]].

(** A line of a meta section that is not a list of references. *)
Definition junk_src : string :=
"[ADDRESS]
@a
@a, @a
[a]
WORD -> STREET -> 0.5
".
(** No final newline. *)
Definition nofinal_src : string :=
"[ADDRESS]
WORD -> STREET -> 0.5".
Definition misspelled_src : string :=
"[ADDRESS]
WROD -> STREET -> 0.5
".
(** A meta section without any rule. *)
Definition hollow_src : string :=
"[ADDRESS]
@a
[a]
@a, @a
".
