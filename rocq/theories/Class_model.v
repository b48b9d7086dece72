(** Input classes, output classes, languages, attachments: src/inclass.h, src/inclass.cpp,
    src/outclass.h, src/outclass.cpp.  The constant tables were transcribed mechanically from the source. *)
From Coq Require Import List NArith ZArith Bool String.
From Verif Require Import Base_model.
Import ListNotations.
Local Open Scope string_scope.

(** InClass::Type, src/inclass.h:23-61. *)
Inductive intype : Set :=
| I_STOP
| I_NUMBER
| I_WORD
| I_TYPE
| I_QUALIF
| I_ROAD
| I_STOPWORD
| I_RR
| I_DASH
| I_CITY
| I_PROV
| I_NATION
| I_AMPERS
| I_BOXH
| I_ORD
| I_UNITH
| I_UNITT
| I_SINGLE
| I_BUILDH
| I_MILE
| I_DOUBLE
| I_DIRECT
| I_MIXED
| I_BUILDT
| I_FRACT
| I_PCT
| I_PCH
| I_QUINT
| I_QUAD
| I_PUNCT
| I_SPACE
| I_PLACEN
| I_EMDASH
| I_SLASH
| I_ATSIGN
| I_COMMA
| I_BADTOKEN.

(** Numeric enum values, src/inclass.h:23-61; they order [std::set<InClass::Type>]. *)
Definition in_code (t : intype) : Z :=
  match t with
  | I_STOP => (-1)%Z
  | I_NUMBER => (0)%Z
  | I_WORD => (1)%Z
  | I_TYPE => (2)%Z
  | I_QUALIF => (3)%Z
  | I_ROAD => (6)%Z
  | I_STOPWORD => (7)%Z
  | I_RR => (8)%Z
  | I_DASH => (9)%Z
  | I_CITY => (10)%Z
  | I_PROV => (11)%Z
  | I_NATION => (12)%Z
  | I_AMPERS => (13)%Z
  | I_BOXH => (14)%Z
  | I_ORD => (15)%Z
  | I_UNITH => (16)%Z
  | I_UNITT => (17)%Z
  | I_SINGLE => (18)%Z
  | I_BUILDH => (19)%Z
  | I_MILE => (20)%Z
  | I_DOUBLE => (21)%Z
  | I_DIRECT => (22)%Z
  | I_MIXED => (23)%Z
  | I_BUILDT => (24)%Z
  | I_FRACT => (25)%Z
  | I_PCT => (26)%Z
  | I_PCH => (27)%Z
  | I_QUINT => (28)%Z
  | I_QUAD => (29)%Z
  | I_PUNCT => (30)%Z
  | I_SPACE => (31)%Z
  | I_PLACEN => (32)%Z
  | I_EMDASH => (33)%Z
  | I_SLASH => (34)%Z
  | I_ATSIGN => (35)%Z
  | I_COMMA => (36)%Z
  | I_BADTOKEN => (99)%Z
  end.

Definition all_in : list intype := [I_STOP; I_NUMBER; I_WORD; I_TYPE; I_QUALIF; I_ROAD; I_STOPWORD; I_RR; I_DASH; I_CITY; I_PROV; I_NATION; I_AMPERS; I_BOXH; I_ORD; I_UNITH; I_UNITT; I_SINGLE; I_BUILDH; I_MILE; I_DOUBLE; I_DIRECT; I_MIXED; I_BUILDT; I_FRACT; I_PCT; I_PCH; I_QUINT; I_QUAD; I_PUNCT; I_SPACE; I_PLACEN; I_EMDASH; I_SLASH; I_ATSIGN; I_COMMA; I_BADTOKEN].

Definition in_eqb (a b : intype) : bool := Z.eqb (in_code a) (in_code b).

(** InClass::asString(Type), src/inclass.cpp:29-71. *)
Definition in_name (t : intype) : string :=
  match t with
  | I_STOP => "STOP"
  | I_NUMBER => "NUMBER"
  | I_WORD => "WORD"
  | I_TYPE => "TYPE"
  | I_QUALIF => "QUALIF"
  | I_ROAD => "ROAD"
  | I_STOPWORD => "STOPWORD"
  | I_RR => "RR"
  | I_DASH => "DASH"
  | I_CITY => "CITY"
  | I_PROV => "PROV"
  | I_NATION => "NATION"
  | I_AMPERS => "AMPERS"
  | I_BOXH => "BOXH"
  | I_ORD => "ORD"
  | I_UNITH => "UNITH"
  | I_UNITT => "UNITT"
  | I_SINGLE => "SINGLE"
  | I_BUILDH => "BUILDH"
  | I_MILE => "MILE"
  | I_DOUBLE => "DOUBLE"
  | I_DIRECT => "DIRECT"
  | I_MIXED => "MIXED"
  | I_BUILDT => "BUILDT"
  | I_FRACT => "FRACT"
  | I_PCT => "PCT"
  | I_PCH => "PCH"
  | I_QUINT => "QUINT"
  | I_QUAD => "QUAD"
  | I_PUNCT => "PUNCT"
  | I_SPACE => "SPACE"
  | I_PLACEN => "PLACEN"
  | I_EMDASH => "EMDASH"
  | I_SLASH => "SLASH"
  | I_ATSIGN => "ATSIGN"
  | I_COMMA => "COMMA"
  | I_BADTOKEN => "BADTOKEN"
  end.
Definition in_str (t : intype) : text := s2t (in_name t).

(** InClass::asOneType, src/inclass.cpp:74-116 (an if-chain). *)
Definition in_table : list (string * intype) :=
  [("STOP", I_STOP);
   ("NUMBER", I_NUMBER);
   ("WORD", I_WORD);
   ("TYPE", I_TYPE);
   ("QUALIF", I_QUALIF);
   ("ROAD", I_ROAD);
   ("STOPWORD", I_STOPWORD);
   ("RR", I_RR);
   ("DASH", I_DASH);
   ("CITY", I_CITY);
   ("PROV", I_PROV);
   ("NATION", I_NATION);
   ("AMPERS", I_AMPERS);
   ("BOXH", I_BOXH);
   ("ORD", I_ORD);
   ("UNITH", I_UNITH);
   ("UNITT", I_UNITT);
   ("SINGLE", I_SINGLE);
   ("BUILDH", I_BUILDH);
   ("MILE", I_MILE);
   ("DOUBLE", I_DOUBLE);
   ("DIRECT", I_DIRECT);
   ("MIXED", I_MIXED);
   ("BUILDT", I_BUILDT);
   ("FRACT", I_FRACT);
   ("PCT", I_PCT);
   ("PCH", I_PCH);
   ("QUINT", I_QUINT);
   ("QUAD", I_QUAD);
   ("PUNCT", I_PUNCT);
   ("SPACE", I_SPACE);
   ("PLACEN", I_PLACEN);
   ("EMDASH", I_EMDASH);
   ("SLASH", I_SLASH);
   ("ATSIGN", I_ATSIGN);
   ("COMMA", I_COMMA)].
Fixpoint table_find {A} (tab : list (string * A)) (d : A) (s : text) : A :=
  match tab with
  | [] => d
  | (n, v) :: tab' => if teqb s (s2t n) then v else table_find tab' d s
  end.
Definition as_one_type (s : text) : intype := table_find in_table I_BADTOKEN s.

(** InClass::asType(int), src/inclass.cpp:149-191. *)
Definition in_of_code (i : Z) : intype :=
  match i with
  | (-1)%Z => I_STOP
  | 0%Z => I_NUMBER
  | 1%Z => I_WORD
  | 2%Z => I_TYPE
  | 3%Z => I_QUALIF
  | 6%Z => I_ROAD
  | 7%Z => I_STOPWORD
  | 8%Z => I_RR
  | 9%Z => I_DASH
  | 10%Z => I_CITY
  | 11%Z => I_PROV
  | 12%Z => I_NATION
  | 13%Z => I_AMPERS
  | 14%Z => I_BOXH
  | 15%Z => I_ORD
  | 16%Z => I_UNITH
  | 17%Z => I_UNITT
  | 18%Z => I_SINGLE
  | 19%Z => I_BUILDH
  | 20%Z => I_MILE
  | 21%Z => I_DOUBLE
  | 22%Z => I_DIRECT
  | 23%Z => I_MIXED
  | 24%Z => I_BUILDT
  | 25%Z => I_FRACT
  | 26%Z => I_PCT
  | 27%Z => I_PCH
  | 28%Z => I_QUINT
  | 29%Z => I_QUAD
  | 30%Z => I_PUNCT
  | 31%Z => I_SPACE
  | 32%Z => I_PLACEN
  | 33%Z => I_EMDASH
  | 34%Z => I_SLASH
  | 35%Z => I_ATSIGN
  | 36%Z => I_COMMA
  | _ => I_BADTOKEN
  end.

(** [std::set<InClass::Type>]: a list strictly increasing in the enum value. *)
Definition inset := list intype.
Fixpoint iset_insert (t : intype) (s : inset) : inset :=
  match s with
  | [] => [t]
  | u :: s' => if (in_code t <? in_code u)%Z then t :: s
               else if (in_code u <? in_code t)%Z then u :: iset_insert t s'
               else s
  end.
Definition iset_mem (t : intype) (s : inset) : bool := existsb (in_eqb t) s.

(** trimboth, src/inclass.cpp:20-26: an all-blank (or empty) string is returned unchanged because
    [start] falls back to 0 and [end] to [size()]. *)
Fixpoint drop_sp (t : text) : text :=
  match t with
  | c :: t' => if N.eqb c SP then drop_sp t' else t
  | [] => []
  end.
Definition trimboth (t : text) : text :=
  match drop_sp t with
  | [] => t
  | u => rev (drop_sp (rev u))
  end.

(** The pieces delivered by [while(true){ getline(buffer, word, ','); ...; if (buffer.eof()) break; }]
    (src/inclass.cpp:124-133, 539-551).  The stream starts open, so every getline but the last finds
    a comma; written by recursion on the text. *)
Fixpoint comma_pieces (t : text) : list text :=
  match t with
  | [] => [[]]
  | c :: t' => if N.eqb c COMMA_CH then [] :: comma_pieces t'
               else match comma_pieces t' with
                    | p :: ps => (c :: p) :: ps
                    | [] => [[c]]
                    end
  end.

(** InClass::asType(string), src/inclass.cpp:119-135. *)
Definition add_type_word (s : inset) (word : text) : inset :=
  match trimboth word with
  | [] => s
  | w => iset_insert (as_one_type w) s
  end.
Definition as_type (t : text) : inset := fold_left add_type_word (comma_pieces t) [].

(** InClass::asString(set), src/inclass.cpp:138-146. *)
Definition iset_str (s : inset) : text := join [COMMA_CH] (map in_str s).

(** InClass::Lang, src/inclass.h:63-143 (enum values ALB=0, ARA=1, ...; UNKNOWN=-1). *)
Inductive lang : Set :=
| L_ALB
| L_ARA
| L_BAQ
| L_BEL
| L_BET
| L_BEX
| L_BOS
| L_BOX
| L_BUL
| L_BUT
| L_BUX
| L_CAT
| L_CHI
| L_CHT
| L_CZE
| L_CZX
| L_DAN
| L_DUT
| L_ENG
| L_EST
| L_ESX
| L_FIN
| L_FRE
| L_GER
| L_GLG
| L_GRE
| L_GRN
| L_GRT
| L_GRX
| L_HEB
| L_HUN
| L_HUX
| L_IND
| L_ITA
| L_KOR
| L_KOX
| L_LAV
| L_LAX
| L_LIT
| L_LIX
| L_MAC
| L_MAT
| L_MAY
| L_MLT
| L_MLX
| L_MNE
| L_MNX
| L_MOL
| L_MOX
| L_NOR
| L_POL
| L_POR
| L_POX
| L_PYN
| L_RMX
| L_RST
| L_RUM
| L_RUS
| L_RUX
| L_SCR
| L_SCT
| L_SCX
| L_SIX
| L_SLO
| L_SLV
| L_SLX
| L_SPA
| L_SRB
| L_SRX
| L_SWE
| L_THA
| L_TKT
| L_TUR
| L_TUX
| L_UKR
| L_UKT
| L_UKX
| L_WEL
| L_UNKNOWN.

Definition all_lang : list lang := [L_ALB; L_ARA; L_BAQ; L_BEL; L_BET; L_BEX; L_BOS; L_BOX; L_BUL; L_BUT; L_BUX; L_CAT; L_CHI; L_CHT; L_CZE; L_CZX; L_DAN; L_DUT; L_ENG; L_EST; L_ESX; L_FIN; L_FRE; L_GER; L_GLG; L_GRE; L_GRN; L_GRT; L_GRX; L_HEB; L_HUN; L_HUX; L_IND; L_ITA; L_KOR; L_KOX; L_LAV; L_LAX; L_LIT; L_LIX; L_MAC; L_MAT; L_MAY; L_MLT; L_MLX; L_MNE; L_MNX; L_MOL; L_MOX; L_NOR; L_POL; L_POR; L_POX; L_PYN; L_RMX; L_RST; L_RUM; L_RUS; L_RUX; L_SCR; L_SCT; L_SCX; L_SIX; L_SLO; L_SLV; L_SLX; L_SPA; L_SRB; L_SRX; L_SWE; L_THA; L_TKT; L_TUR; L_TUX; L_UKR; L_UKT; L_UKX; L_WEL; L_UNKNOWN].

(** InClass::asString(Lang), src/inclass.cpp:194-279. *)
Definition lang_code (l : lang) : string :=
  match l with
  | L_ALB => "ALB"
  | L_ARA => "ARA"
  | L_BAQ => "BAQ"
  | L_BEL => "BEL"
  | L_BET => "BET"
  | L_BEX => "BEX"
  | L_BOS => "BOS"
  | L_BOX => "BOX"
  | L_BUL => "BUL"
  | L_BUT => "BUT"
  | L_BUX => "BUX"
  | L_CAT => "CAT"
  | L_CHI => "CHI"
  | L_CHT => "CHT"
  | L_CZE => "CZE"
  | L_CZX => "CZX"
  | L_DAN => "DAN"
  | L_DUT => "DUT"
  | L_ENG => "ENG"
  | L_EST => "EST"
  | L_ESX => "ESX"
  | L_FIN => "FIN"
  | L_FRE => "FRE"
  | L_GER => "GER"
  | L_GLG => "GLG"
  | L_GRE => "GRE"
  | L_GRN => "GRN"
  | L_GRT => "GRT"
  | L_GRX => "GRX"
  | L_HEB => "HEB"
  | L_HUN => "HUN"
  | L_HUX => "HUX"
  | L_IND => "IND"
  | L_ITA => "ITA"
  | L_KOR => "KOR"
  | L_KOX => "KOX"
  | L_LAV => "LAV"
  | L_LAX => "LAX"
  | L_LIT => "LIT"
  | L_LIX => "LIX"
  | L_MAC => "MAC"
  | L_MAT => "MAT"
  | L_MAY => "MAY"
  | L_MLT => "MLT"
  | L_MLX => "MLX"
  | L_MNE => "MNE"
  | L_MNX => "MNX"
  | L_MOL => "MOL"
  | L_MOX => "MOX"
  | L_NOR => "NOR"
  | L_POL => "POL"
  | L_POR => "POR"
  | L_POX => "POX"
  | L_PYN => "PYN"
  | L_RMX => "RMX"
  | L_RST => "RST"
  | L_RUM => "RUM"
  | L_RUS => "RUS"
  | L_RUX => "RUX"
  | L_SCR => "SCR"
  | L_SCT => "SCT"
  | L_SCX => "SCX"
  | L_SIX => "SIX"
  | L_SLO => "SLO"
  | L_SLV => "SLV"
  | L_SLX => "SLX"
  | L_SPA => "SPA"
  | L_SRB => "SRB"
  | L_SRX => "SRX"
  | L_SWE => "SWE"
  | L_THA => "THA"
  | L_TKT => "TKT"
  | L_TUR => "TUR"
  | L_TUX => "TUX"
  | L_UKR => "UKR"
  | L_UKT => "UKT"
  | L_UKX => "UKX"
  | L_WEL => "WEL"
  | L_UNKNOWN => "UNKNOWN"
  end.

(** InClass::asName, src/inclass.cpp:282-367. *)
Definition lang_name (l : lang) : string :=
  match l with
  | L_ALB => "ALBANIAN"
  | L_ARA => "ARABIC"
  | L_BAQ => "BASQUE"
  | L_BEL => "BELARUSIAN"
  | L_BET => "BELARUSIAN_TRANSCRIBED"
  | L_BEX => "BELARUSIAN_TRANSLITERATED"
  | L_BOS => "BOSNIAN"
  | L_BOX => "BOSNIAN_TRANSLITERATED"
  | L_BUL => "BULGARIAN"
  | L_BUT => "BULGARIAN_TRANSCRIBED"
  | L_BUX => "BULGARIAN_TRANSLITERATED"
  | L_CAT => "CATALAN"
  | L_CHI => "CHINESE_MODERN"
  | L_CHT => "CHINESE_TRADITIONAL"
  | L_CZE => "CZECH"
  | L_CZX => "CZECH_TRANSLITERATED"
  | L_DAN => "DANISH"
  | L_DUT => "DUTCH"
  | L_ENG => "ENGLISH"
  | L_EST => "ESTONIAN"
  | L_ESX => "ESTONIAN_TRANSLITERATED"
  | L_FIN => "FINNISH"
  | L_FRE => "FRENCH"
  | L_GER => "GERMAN"
  | L_GLG => "GALICIAN"
  | L_GRE => "GREEK"
  | L_GRN => "GUARANI"
  | L_GRT => "GREEK_TRANSCRIBED"
  | L_GRX => "GREK_TRANSLITERATED"
  | L_HEB => "HEBREW"
  | L_HUN => "HUNGARIAN"
  | L_HUX => "HUNGARIAN_TRANSLITERATED"
  | L_IND => "BAHASA_INDONESIA"
  | L_ITA => "ITALIAN"
  | L_KOR => "KOREAN"
  | L_KOX => "KOREAN_TRANSLITERATED"
  | L_LAV => "LATVIAN"
  | L_LAX => "LATVIAN_TRANSLITERATED"
  | L_LIT => "LITHUANIAN"
  | L_LIX => "LITHUANIAN_TRANSLITERATED"
  | L_MAC => "MACEDONIAN"
  | L_MAT => "MACEDONIAN_TRANSCRIBED"
  | L_MAY => "MALAYSIAN"
  | L_MLT => "MALTESE"
  | L_MLX => "MALTESE_TRANSLITERATED"
  | L_MNE => "MONTENEGRIN"
  | L_MNX => "MONTENEGRIN_TRANSLITERATED"
  | L_MOL => "MOLDOVAN"
  | L_MOX => "MOLDOVAN_TRANSLITERATED"
  | L_NOR => "NORWEGIAN"
  | L_POL => "POLISH"
  | L_POR => "PORTUGUESE"
  | L_POX => "POLISH_TRANSLITERATED"
  | L_PYN => "PINYIN"
  | L_RMX => "ROMANIAN_TRANSLITERATED"
  | L_RST => "RUSSIAN_TRANSCRIBED"
  | L_RUM => "ROMANIAN"
  | L_RUS => "RUSSIAN"
  | L_RUX => "RUSSIAN_TRANSLITERATED"
  | L_SCR => "CROATIAN"
  | L_SCT => "SERBIAN_TRANSCRIBED"
  | L_SCX => "SERBIAN_TRANSLITERATED"
  | L_SIX => "SLOVENIAN_TRANSLITERATED"
  | L_SLO => "SLOVAK"
  | L_SLV => "SLOVENIAN"
  | L_SLX => "SLOVAK_TRANSLITERATED"
  | L_SPA => "SPANISH"
  | L_SRB => "SERBIAN"
  | L_SRX => "CROATION_TRANSLITERATED"
  | L_SWE => "SWEDISH"
  | L_THA => "THAI"
  | L_TKT => "TURKISH_TRANSCRIBED"
  | L_TUR => "TURKISH"
  | L_TUX => "TURKISH_TRANSLITERATED"
  | L_UKR => "UKRAINIAN"
  | L_UKT => "UKRAINIAN_TRANSCRIBED"
  | L_UKX => "UKRAINIAN_TRANSLITERATED"
  | L_WEL => "WELSH"
  | L_UNKNOWN => "UNKNOWN"
  end.

(** InClass::asLang, src/inclass.cpp:370-532. *)
Definition lang_table : list (string * lang) :=
  [("ALB", L_ALB);
   ("ARA", L_ARA);
   ("BAQ", L_BAQ);
   ("BEL", L_BEL);
   ("BET", L_BET);
   ("BEX", L_BEX);
   ("BOS", L_BOS);
   ("BOX", L_BOX);
   ("BUL", L_BUL);
   ("BUT", L_BUT);
   ("BUX", L_BUX);
   ("CAT", L_CAT);
   ("CHI", L_CHI);
   ("CHT", L_CHT);
   ("CZE", L_CZE);
   ("CZX", L_CZX);
   ("DAN", L_DAN);
   ("DUT", L_DUT);
   ("ENG", L_ENG);
   ("EST", L_EST);
   ("ESX", L_ESX);
   ("FIN", L_FIN);
   ("FRE", L_FRE);
   ("GER", L_GER);
   ("GLG", L_GLG);
   ("GRE", L_GRE);
   ("GRN", L_GRN);
   ("GRT", L_GRT);
   ("GRX", L_GRX);
   ("HEB", L_HEB);
   ("HUN", L_HUN);
   ("HUX", L_HUX);
   ("IND", L_IND);
   ("ITA", L_ITA);
   ("KOR", L_KOR);
   ("KOX", L_KOX);
   ("LAV", L_LAV);
   ("LAX", L_LAX);
   ("LIT", L_LIT);
   ("LIX", L_LIX);
   ("MAC", L_MAC);
   ("MAT", L_MAT);
   ("MAY", L_MAY);
   ("MLT", L_MLT);
   ("MLX", L_MLX);
   ("MNE", L_MNE);
   ("MNX", L_MNX);
   ("MOL", L_MOL);
   ("MOX", L_MOX);
   ("NOR", L_NOR);
   ("POL", L_POL);
   ("POR", L_POR);
   ("POX", L_POX);
   ("PYN", L_PYN);
   ("RMX", L_RMX);
   ("RST", L_RST);
   ("RUM", L_RUM);
   ("RUS", L_RUS);
   ("RUX", L_RUX);
   ("SCR", L_SCR);
   ("SCT", L_SCT);
   ("SCX", L_SCX);
   ("SIX", L_SIX);
   ("SLO", L_SLO);
   ("SLV", L_SLV);
   ("SLX", L_SLX);
   ("SPA", L_SPA);
   ("SRB", L_SRB);
   ("SRX", L_SRX);
   ("SWE", L_SWE);
   ("THA", L_THA);
   ("TKT", L_TKT);
   ("TUR", L_TUR);
   ("TUX", L_TUX);
   ("UKR", L_UKR);
   ("UKT", L_UKT);
   ("UKX", L_UKX);
   ("WEL", L_WEL);
   ("ALBANIAN", L_ALB);
   ("ARABIC", L_ARA);
   ("BASQUE", L_BAQ);
   ("BELARUSIAN", L_BEL);
   ("BELARUSIAN_TRANSCRIBED", L_BET);
   ("BELARUSIAN_TRANSLITERATED", L_BEX);
   ("BOSNIAN", L_BOS);
   ("BOSNIAN_TRANSLITERATED", L_BOX);
   ("BULGARIAN", L_BUL);
   ("BULGARIAN_TRANSCRIBED", L_BUT);
   ("BULGARIAN_TRANSLITERATED", L_BUX);
   ("CATALAN", L_CAT);
   ("CHINESE_MODERN", L_CHI);
   ("CHINESE_TRADITIONAL", L_CHT);
   ("CZECH", L_CZE);
   ("CZECH_TRANSLITERATED", L_CZX);
   ("DANISH", L_DAN);
   ("DUTCH", L_DUT);
   ("ENGLISH", L_ENG);
   ("ESTONIAN", L_EST);
   ("ESTONIAN_TRANSLITERATED", L_ESX);
   ("FINNISH", L_FIN);
   ("FRENCH", L_FRE);
   ("GERMAN", L_GER);
   ("GALICIAN", L_GLG);
   ("GREEK", L_GRE);
   ("GUARANI", L_GRN);
   ("GREEK_TRANSCRIBED", L_GRT);
   ("GREK_TRANSLITERATED", L_GRX);
   ("HEBREW", L_HEB);
   ("HUNGARIAN", L_HUN);
   ("HUNGARIAN_TRANSLITERATED", L_HUX);
   ("BAHASA_INDONESIA", L_IND);
   ("ITALIAN", L_ITA);
   ("KOREAN", L_KOR);
   ("KOREAN_TRANSLITERATED", L_KOX);
   ("LATVIAN", L_LAV);
   ("LATVIAN_TRANSLITERATED", L_LAX);
   ("LITHUANIAN", L_LIT);
   ("LITHUANIAN_TRANSLITERATED", L_LIX);
   ("MACEDONIAN", L_MAC);
   ("MACEDONIAN_TRANSCRIBED", L_MAT);
   ("MALAYSIAN", L_MAY);
   ("MALTESE", L_MLT);
   ("MALTESE_TRANSLITERATED", L_MLX);
   ("MONTENEGRIN", L_MNE);
   ("MONTENEGRIN_TRANSLITERATED", L_MNX);
   ("MOLDOVAN", L_MOL);
   ("MOLDOVAN_TRANSLITERATED", L_MOX);
   ("NORWEGIAN", L_NOR);
   ("POLISH", L_POL);
   ("PORTUGUESE", L_POR);
   ("POLISH_TRANSLITERATED", L_POX);
   ("PINYIN", L_PYN);
   ("ROMANIAN_TRANSLITERATED", L_RMX);
   ("RUSSIAN_TRANSCRIBED", L_RST);
   ("ROMANIAN", L_RUM);
   ("RUSSIAN", L_RUS);
   ("RUSSIAN_TRANSLITERATED", L_RUX);
   ("CROATIAN", L_SCR);
   ("SERBIAN_TRANSCRIBED", L_SCT);
   ("SERBIAN_TRANSLITERATED", L_SCX);
   ("SLOVENIAN_TRANSLITERATED", L_SIX);
   ("SLOVAK", L_SLO);
   ("SLOVENIAN", L_SLV);
   ("SLOVAK_TRANSLITERATED", L_SLX);
   ("SPANISH", L_SPA);
   ("SERBIAN", L_SRB);
   ("CROATION_TRANSLITERATED", L_SRX);
   ("SWEDISH", L_SWE);
   ("THAI", L_THA);
   ("TURKISH_TRANSCRIBED", L_TKT);
   ("TURKISH", L_TUR);
   ("TURKISH_TRANSLITERATED", L_TUX);
   ("UKRAINIAN", L_UKR);
   ("UKRAINIAN_TRANSCRIBED", L_UKT);
   ("UKRAINIAN_TRANSLITERATED", L_UKX);
   ("WELSH", L_WEL)].
Definition as_lang (s : text) : lang := table_find lang_table L_UNKNOWN s.

(** InClass::AttachType, src/inclass.h:145-151 (values 0..3 in this order). *)
Inductive attach : Set := DET_PRE | DET_SUF | ATT_PRE | ATT_SUF.
Definition all_attach : list attach := [DET_PRE; DET_SUF; ATT_PRE; ATT_SUF].
Definition att_code (a : attach) : Z :=
  match a with DET_PRE => 0%Z | DET_SUF => 1%Z | ATT_PRE => 2%Z | ATT_SUF => 3%Z end.
Definition att_eqb (a b : attach) : bool := Z.eqb (att_code a) (att_code b).
(** [std::set<InClass::AttachType>]. *)
Definition attset := list attach.
Fixpoint aset_insert (t : attach) (s : attset) : attset :=
  match s with
  | [] => [t]
  | u :: s' => if (att_code t <? att_code u)%Z then t :: s
               else if (att_code u <? att_code t)%Z then u :: aset_insert t s'
               else s
  end.
Definition aset_mem (t : attach) (s : attset) : bool := existsb (att_eqb t) s.
(** InClass::asString(AttachType), src/inclass.cpp:555-565. *)
Definition att_name (a : attach) : string :=
  match a with DET_PRE => "DET_PRE" | DET_SUF => "DET_SUF" | ATT_PRE => "ATT_PRE" | ATT_SUF => "ATT_SUF" end.
Definition att_str (a : attach) : text := s2t (att_name a).
(** InClass::asAttachType, src/inclass.cpp:535-553: unknown words are ignored. *)
Definition att_table : list (string * option attach) :=
  [("DET_PRE", Some DET_PRE); ("DET_SUF", Some DET_SUF); ("ATT_PRE", Some ATT_PRE); ("ATT_SUF", Some ATT_SUF)].
Definition add_att_word (s : attset) (word : text) : attset :=
  match trimboth word with
  | [] => s
  | w => match table_find att_table None w with
         | Some a => aset_insert a s
         | None => s
         end
  end.
Definition as_attach (t : text) : attset := fold_left add_att_word (comma_pieces t) [].
(** InClass::asString(set<AttachType>), src/inclass.cpp:568-576. *)
Definition aset_str (s : attset) : text := join [COMMA_CH] (map att_str s).

(** OutClass::Type, src/outclass.h:22-44. *)
Inductive outtype : Set :=
| O_STOP
| O_BLDNG
| O_HOUSE
| O_PREDIR
| O_QUALIF
| O_PRETYP
| O_STREET
| O_SUFTYP
| O_SUFDIR
| O_RR
| O_EXTRA
| O_CITY
| O_PROV
| O_NATION
| O_POSTAL
| O_BOXH
| O_BOXT
| O_UNITH
| O_UNITT
| O_IGNORE
| O_BADTOKEN.

Definition all_out : list outtype := [O_STOP; O_BLDNG; O_HOUSE; O_PREDIR; O_QUALIF; O_PRETYP; O_STREET; O_SUFTYP; O_SUFDIR; O_RR; O_EXTRA; O_CITY; O_PROV; O_NATION; O_POSTAL; O_BOXH; O_BOXT; O_UNITH; O_UNITT; O_IGNORE; O_BADTOKEN].

Definition out_code (t : outtype) : Z :=
  match t with
  | O_STOP => (-1)%Z
  | O_BLDNG => (0)%Z
  | O_HOUSE => (1)%Z
  | O_PREDIR => (2)%Z
  | O_QUALIF => (3)%Z
  | O_PRETYP => (4)%Z
  | O_STREET => (5)%Z
  | O_SUFTYP => (6)%Z
  | O_SUFDIR => (7)%Z
  | O_RR => (8)%Z
  | O_EXTRA => (9)%Z
  | O_CITY => (10)%Z
  | O_PROV => (11)%Z
  | O_NATION => (12)%Z
  | O_POSTAL => (13)%Z
  | O_BOXH => (14)%Z
  | O_BOXT => (15)%Z
  | O_UNITH => (16)%Z
  | O_UNITT => (17)%Z
  | O_IGNORE => (98)%Z
  | O_BADTOKEN => (99)%Z
  end.
Definition out_eqb (a b : outtype) : bool := Z.eqb (out_code a) (out_code b).

(** OutClass::asString, src/outclass.cpp:16-42. *)
Definition out_name (t : outtype) : string :=
  match t with
  | O_STOP => "STOP"
  | O_BLDNG => "BLDNG"
  | O_HOUSE => "HOUSE"
  | O_PREDIR => "PREDIR"
  | O_QUALIF => "QUALIF"
  | O_PRETYP => "PRETYP"
  | O_STREET => "STREET"
  | O_SUFTYP => "SUFTYP"
  | O_SUFDIR => "SUFDIR"
  | O_RR => "RR"
  | O_EXTRA => "EXTRA"
  | O_CITY => "CITY"
  | O_PROV => "PROV"
  | O_NATION => "NATION"
  | O_POSTAL => "POSTAL"
  | O_BOXH => "BOXH"
  | O_BOXT => "BOXT"
  | O_UNITH => "UNITH"
  | O_UNITT => "UNITT"
  | O_IGNORE => "IGNORE"
  | O_BADTOKEN => "BADTOKEN"
  end.
Definition out_str (t : outtype) : text := s2t (out_name t).

(** OutClass::asType(string), src/outclass.cpp:45-79 (a map with distinct keys). *)
Definition out_table : list (string * outtype) :=
  [("STOP", O_STOP);
   ("BLDNG", O_BLDNG);
   ("HOUSE", O_HOUSE);
   ("PREDIR", O_PREDIR);
   ("QUALIF", O_QUALIF);
   ("PRETYP", O_PRETYP);
   ("STREET", O_STREET);
   ("SUFTYP", O_SUFTYP);
   ("SUFDIR", O_SUFDIR);
   ("RR", O_RR);
   ("EXTRA", O_EXTRA);
   ("CITY", O_CITY);
   ("PROV", O_PROV);
   ("NATION", O_NATION);
   ("POSTAL", O_POSTAL);
   ("BOXH", O_BOXH);
   ("BOXT", O_BOXT);
   ("UNITH", O_UNITH);
   ("UNITT", O_UNITT);
   ("IGNORE", O_IGNORE);
   ("BADTOKEN", O_BADTOKEN)].
Definition out_as_type (s : text) : outtype := table_find out_table O_BADTOKEN s.

(** OutClass::asType(int), src/outclass.cpp:82-108. *)
Definition out_of_code (i : Z) : outtype :=
  match i with
  | (-1)%Z => O_STOP
  | 0%Z => O_BLDNG
  | 1%Z => O_HOUSE
  | 2%Z => O_PREDIR
  | 3%Z => O_QUALIF
  | 4%Z => O_PRETYP
  | 5%Z => O_STREET
  | 6%Z => O_SUFTYP
  | 7%Z => O_SUFDIR
  | 8%Z => O_RR
  | 9%Z => O_EXTRA
  | 10%Z => O_CITY
  | 11%Z => O_PROV
  | 12%Z => O_NATION
  | 13%Z => O_POSTAL
  | 14%Z => O_BOXH
  | 15%Z => O_BOXT
  | 16%Z => O_UNITH
  | 17%Z => O_UNITT
  | 98%Z => O_IGNORE
  | _ => O_BADTOKEN
  end.