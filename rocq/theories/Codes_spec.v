(** The numbers of the enumerations, copied from the headers; they are what archives hold. *)
From Coq Require Import String List ZArith.
Import ListNotations.
Local Open Scope string_scope.
(** InClass::Type, src/inclass.h:22-61. *)
Definition class_numbers : list (string * Z) :=
  [("STOP", (-1)); ("NUMBER", 0); ("WORD", 1); ("TYPE", 2); ("QUALIF", 3); ("ROAD", 6); ("STOPWORD", 7); ("RR", 8);
   ("DASH", 9); ("CITY", 10); ("PROV", 11); ("NATION", 12); ("AMPERS", 13); ("BOXH", 14); ("ORD", 15); ("UNITH", 16);
   ("UNITT", 17); ("SINGLE", 18); ("BUILDH", 19); ("MILE", 20); ("DOUBLE", 21); ("DIRECT", 22); ("MIXED", 23); ("BUILDT", 24);
   ("FRACT", 25); ("PCT", 26); ("PCH", 27); ("QUINT", 28); ("QUAD", 29); ("PUNCT", 30); ("SPACE", 31); ("PLACEN", 32);
   ("EMDASH", 33); ("SLASH", 34); ("ATSIGN", 35); ("COMMA", 36); ("BADTOKEN", 99)]%Z.
(** InClass::Lang, src/inclass.h:63-143. *)
Definition language_numbers : list (string * Z) :=
  [("ALB", 0); ("ARA", 1); ("BAQ", 2); ("BEL", 3); ("BET", 4); ("BEX", 5); ("BOS", 6); ("BOX", 7);
   ("BUL", 8); ("BUT", 9); ("BUX", 10); ("CAT", 11); ("CHI", 12); ("CHT", 13); ("CZE", 14); ("CZX", 15);
   ("DAN", 16); ("DUT", 17); ("ENG", 18); ("EST", 19); ("ESX", 20); ("FIN", 21); ("FRE", 22); ("GER", 23);
   ("GLG", 24); ("GRE", 25); ("GRN", 26); ("GRT", 27); ("GRX", 28); ("HEB", 29); ("HUN", 30); ("HUX", 31);
   ("IND", 32); ("ITA", 33); ("KOR", 34); ("KOX", 35); ("LAV", 36); ("LAX", 37); ("LIT", 38); ("LIX", 39);
   ("MAC", 40); ("MAT", 41); ("MAY", 42); ("MLT", 43); ("MLX", 44); ("MNE", 45); ("MNX", 46); ("MOL", 47);
   ("MOX", 48); ("NOR", 49); ("POL", 50); ("POR", 51); ("POX", 52); ("PYN", 53); ("RMX", 54); ("RST", 55);
   ("RUM", 56); ("RUS", 57); ("RUX", 58); ("SCR", 59); ("SCT", 60); ("SCX", 61); ("SIX", 62); ("SLO", 63);
   ("SLV", 64); ("SLX", 65); ("SPA", 66); ("SRB", 67); ("SRX", 68); ("SWE", 69); ("THA", 70); ("TKT", 71);
   ("TUR", 72); ("TUX", 73); ("UKR", 74); ("UKT", 75); ("UKX", 76); ("WEL", 77); ("UNKNOWN", (-1))]%Z.
(** InClass::AttachType, src/inclass.h:145-151. *)
Definition attach_numbers : list (string * Z) :=
  [("DET_PRE", 0); ("DET_SUF", 1); ("ATT_PRE", 2); ("ATT_SUF", 3)]%Z.
(** OutClass::Type, src/outclass.h:22-44. *)
Definition out_numbers : list (string * Z) :=
  [("STOP", (-1)); ("BLDNG", 0); ("HOUSE", 1); ("PREDIR", 2); ("QUALIF", 3); ("PRETYP", 4); ("STREET", 5); ("SUFTYP", 6);
   ("SUFDIR", 7); ("RR", 8); ("EXTRA", 9); ("CITY", 10); ("PROV", 11); ("NATION", 12); ("POSTAL", 13); ("BOXH", 14);
   ("BOXT", 15); ("UNITH", 16); ("UNITT", 17); ("IGNORE", 98); ("BADTOKEN", 99)]%Z.
(** The number written behind a name. *)
Fixpoint number_of (l : list (string * Z)) (n : string) : option Z :=
  match l with [] => None | (m, z) :: l' => if String.eqb n m then Some z else number_of l' n end.
