(** What the documents say of classes, lexicons and tokens (docs/inclass.md, docs/outclass.md, docs/lexicon.md, docs/token.md, data/README.md). *)
From Coq Require Import String List NArith.
From Verif Require Import Base_model Class_model Class_spec Uni_model Token_model Lexicon_model Lexicon_spec LexText_spec LexFile_spec.
Import ListNotations.
Local Open Scope N_scope.

(** The tables of docs/inclass.md and docs/outclass.md. *)
Definition documented_in : list string :=
  ["NUMBER"; "WORD"; "TYPE"; "QUALIF"; "ROAD"; "STOPWORD"; "RR"; "DASH"; "CITY"; "PROV"; "NATION"; "AMPERS"; "BOXH"; "ORD"; "UNITH"; "UNITT"; "SINGLE";
   "BUILDH"; "MILE"; "DOUBLE"; "DIRECT"; "MIXED"; "BUILDT"; "FRACT"; "PCT"; "PCH"; "QUINT"; "QUAD"; "PUNCT"; "SPACE"; "PLACEN"; "EMDASH"; "SLASH"; "ATSIGN";
   "BADTOKEN"]%string.
Definition documented_out : list string :=
  ["BLDNG"; "HOUSE"; "PREDIR"; "QUALIF"; "PRETYP"; "STREET"; "SUFTYP"; "SUFDIR"; "RR"; "EXTRA"; "CITY"; "PROV"; "NATION"; "POSTAL"; "BOXH"; "BOXT"; "UNITH";
   "UNITT"; "BADTOKEN"]%string.
(** No attachment: nothing, DETACHED (docs/inclass.md) or DETACH (DOCUMENTATION.md 248). *)
Definition no_attachment (p : text) : Prop := Forall (fun c => c = 32) p \/ padded (s2t "DETACHED") p \/ padded (s2t "DETACH") p.
(** What is only set when the token is matched, and the attachments. *)
Definition unset (k : token) : Prop := t_std k = [] /\ t_out k = O_BADTOKEN /\ t_att k = [].
(** Turkish upper-casing of i. *)
Definition turkish (loc : text) (c : N) : N := if teqb loc (s2t "tr_TR") then if c =? 105 then 0x130 else a_up c else a_up c.
Definition turkish_env : env := mkEnv ascii_uni (fun t => t) (fun loc t => map (turkish loc) t).
