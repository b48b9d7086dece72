(** Text that is lost behind a place that cannot be read. *)
From Coq Require Import List NArith.
From Verif Require Import Base_model Class_model Uni_model Token_model Lexicon_model Lexicon_spec Wrapper_model Archive_model LexText_spec Tokenizer_spec Read_spec Split_spec Address_spec Grammar_spec Wrapper_spec Local_spec End_spec Join_spec.
Import ListNotations.
Local Open Scope N_scope.

(** With every lexicon that the text [lx] can mean, which has a word: the address is the line [aa], a separator whose token the filter drops, and a line [ab] at whose beginning no token can be read. *)
Definition stops_after (e : env) (lx locale filt address aa ab : text) : Prop :=
  forall x, lexicon_of e lx x -> some_words x /\ exists g,
    reading e x locale address = reading e x locale aa ++ g ++ reading e x locale ab /\
    joined_at (e_uni e) x (reading e x locale aa) g (reading e x locale ab) /\
    (forall k, sep_exact (e_uni e) x g [k] -> exists c, In c (t_in k) /\ in_list filt c) /\
    one_line (reading e x locale ab) /\ ~ readable (e_uni e) x (reading e x locale ab).
