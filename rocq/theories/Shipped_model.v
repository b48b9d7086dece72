(** Data shipped in data/sample/ of /repo, verbatim: all grammars and two lexicons (each is the whole file of the name given above it;
    the bytes of the files, in UTF-8). *)
From Coq Require Import String List.
Import ListNotations.
Local Open Scope string_scope.

(** data/sample/andorra.gmr:1-74 *)
Definition gmr_andorra : string :=
"# andorra.grammar
# Initial grammar for Andorra
# Author: Stephen Woodbridge <woodbri@imaptools.com>

[ADDRESS]
@micro @macro
#@placename @micro @macro

[micro]
@housenumber @streetname
@housenumber @streetname @unit

[macro]
@postal @city @region @country
@postal @city @country
@postal @city
@city @region @country
@city @country
@city

[placename]
PLACEN -> BLDNG -> 0.7
PLACEN WORD -> BLDNG BLDNG -> 0.6
PLACEN WORD WORD -> BLDNG BLDNG BLDNG -> 0.5
PLACEN WORD WORD WORD -> BLDNG BLDNG BLDNG BLDNG -> 0.4
BUILDT -> BLDNG -> 0.7
BUILDT WORD -> BLDNG BLDNG -> 0.6
BUILDT WORD WORD -> BLDNG BLDNG BLDNG -> 0.5
BUILDT WORD WORD WORD -> BLDNG BLDNG BLDNG BLDNG -> 0.4

# Postal format: ADnnn 
[postal]
MIXED -> POSTAL -> 0.7
NUMBER -> POSTAL -> 0.4
DOUBLE NUMBER -> IGNORE POSTAL -> 0.4

[streetname]
TYPE WORD -> PRETYP STREET -> 0.7
TYPE WORD WORD -> PRETYP STREET STREET -> 0.6
TYPE WORD WORD WORD -> PRETYP STREET STREET STREET -> 0.5
TYPE WORD WORD WORD WORD -> PRETYP STREET STREET STREET STREET -> 0.4
WORD -> STREET -> 0.4
WORD WORD -> STREET STREET -> 0.3
WORD WORD WORD -> STREET STREET STREET -> 0.2
WORD WORD WORD WORD -> STREET STREET STREET STREET -> 0.1

[housenumber]
NUMBER -> HOUSE -> 0.5
NUMBER NUMBER -> HOUSE HOUSE -> 0.5
NUMBER DASH NUMBER -> HOUSE IGNORE HOUSE -> 0.5

[unit]
UNITH UNITT -> UNITH UNITT -> 0.8
UNITH WORD -> UNITH UNIT -> 0.7
UNITH NUMBER -> UNITH UNITT -> 0.7
UNITH MIXED -> UNITH UNITT -> 0.7
UNITH WORD WORD -> UNITH UNITT UNITT -> 0.4

[pobox]
BOXH NUMBER -> BOXH BOXT -> 0.7

[city]
CITY -> CITY -> 0.9
WORD -> CITY -> 0.5
WORD WORD -> CITY CITY -> 0.3

[region]
PROV -> PROV -> 0.9

[country]
NATION -> NATION -> 0.9



".

(** data/sample/australia.gmr:1-107 *)
Definition gmr_australia : string :=
"# australia.grammar
# Initial grammar for Australia
# Author: Stephen Woodbridge <woodbri@imaptools.com>

[ADDRESS]
@micro @macro
#@placename @micro @macro

[micro]
@housenumber @streetname
@unit @housenumber @streetname
@pobox

[streetname]
@prefixtype @basename @suffixtype
@prefixtype @basename
@basename @suffixtype
@basename

[placename]
PLACEN -> BLDNG -> 0.7
PLACEN WORD -> BLDNG BLDNG -> 0.6
PLACEN WORD WORD -> BLDNG BLDNG BLDNG -> 0.5
PLACEN WORD WORD WORD -> BLDNG BLDNG BLDNG BLDNG -> 0.4
BUILDT -> BLDNG -> 0.7
BUILDT WORD -> BLDNG BLDNG -> 0.6
BUILDT WORD WORD -> BLDNG BLDNG BLDNG -> 0.5
BUILDT WORD WORD WORD -> BLDNG BLDNG BLDNG BLDNG -> 0.4

[unit]
UNITH -> UNITH -> 0.5
UNITH NUMBER -> UNITH UNITT -> 0.4
UNITH WORD -> UNITH UNITT -> 0.4
UNITH WORD WORD -> UNITH UNITT UNITT -> 0.4

[housenumber]
NUMBER -> HOUSE -> 0.3
NUMBER SLASH NUMBER -> IGNORE IGNORE HOUSE -> 0.3
NUMBER DASH NUMBER -> HOUSE IGNORE IGNORE -> 0.3


[basename]
WORD -> STREET -> 0.4
WORD WORD -> STREET STREET -> 0.3
WORD WORD WORD -> STREET STREET STREET -> 0.2
WORD WORD WORD WORD -> STREET STREET STREET STREET -> 0.1

[prefixtype]
@prefix @ptype
@prefix
@ptype

[suffixtype]
@stype @suffix
@stype
@suffix

[prefix]
QUALIF DIRECT -> QUALIF PREDIR -> 0.8
DIRECT QUALIF -> PREDIR QUALIF -> 0.8
QUALIF -> QUALIF -> 0.8
DIRECT -> PREDIR -> 0.7

[suffix]
DIRECT QUALIF -> SUFDIR QUALIF -> 0.8
QUALIF DIRECT -> QUALIF SUFDIR -> 0.8
DIRECT -> SUFDIR -> 0.7
QUALIF -> QUALIF -> 0.8

[ptype]
TYPE -> PRETYP -> 0.7

[stype]
TYPE -> SUFTYP -> 0.7

[pobox]
NUMBER SINGLE TYPE -> BOXT BOXH BOXH -> 0.2
BOXH NUMBER -> BOXH BOXT -> 0.8

[macro]
@city @prov @postal @nation
@city @prov @nation
@city @prov @postal
@city @prov

[city]
DIRECT CITY -> CITY CITY -> 0.6
CITY -> CITY -> 0.8
DIRECT WORD WORD WORD WORD -> CITY CITY CITY CITY CITY -> 0.3
DIRECT WORD WORD WORD -> CITY CITY CITY CITY -> 0.4
DIRECT WORD WORD -> CITY CITY CITY -> 0.5
DIRECT WORD -> CITY CITY -> 0.5
WORD WORD WORD WORD -> CITY CITY CITY CITY -> 0.3
WORD WORD WORD -> CITY CITY CITY -> 0.2
WORD WORD -> CITY CITY -> 0.2
WORD -> CITY -> 0.2

[postal]
QUAD -> POSTAL -> 0.7
NUMBER -> POSTAL -> 0.6

[prov]
PROV -> PROV -> 0.8

[nation]
NATION -> NATION -> 0.8

".

(** data/sample/austria.gmr:1-76 *)
Definition gmr_austria : string :=
"# austria.grammar
# Initial grammar for Austria
# Author: Stephen Woodbridge <woodbri@imaptools.com>

[ADDRESS]
@micro @macro
#@placename @micro @macro

[micro]
@streetname @housenumber
@streetname @housenumber @unit
@pobox

[macro]
@postal @city @region @country
@postal @city @country
@postal @city

[placename]
PLACEN -> BLDNG -> 0.7
PLACEN WORD -> BLDNG BLDNG -> 0.6
PLACEN WORD WORD -> BLDNG BLDNG BLDNG -> 0.5
PLACEN WORD WORD WORD -> BLDNG BLDNG BLDNG BLDNG -> 0.4
BUILDT -> BLDNG -> 0.7
BUILDT WORD -> BLDNG BLDNG -> 0.6
BUILDT WORD WORD -> BLDNG BLDNG BLDNG -> 0.5
BUILDT WORD WORD WORD -> BLDNG BLDNG BLDNG BLDNG -> 0.4

[postal]
QUAD -> POSTAL -> 0.7
NUMBER -> POSTAL -> 0.4
SINGLE QUAD -> IGNORE POSTAL -> 0.7
SINGLE NUMBER -> IGNORE POSTAL -> 0.4
SINGLE DASH QUAD -> IGNORE IGNORE POSTAL -> 0.7
SINGLE DASH NUMBER -> IGNORE IGNORE POSTAL -> 0.4

[streetname]
WORD TYPE -> STREET SUFTYP -> 0.7
WORD WORD TYPE -> STREET STREET SUFTYP -> 0.6
WORD WORD WORD TYPE -> STREET STREET STREET SUFTYP -> 0.5
WORD WORD WORD WORD TYPE -> STREET STREET STREET STREET SUFTYP -> 0.4
WORD -> STREET -> 0.4
WORD WORD -> STREET STREET -> 0.3
WORD WORD WORD -> STREET STREET STREET -> 0.2
WORD WORD WORD WORD -> STREET STREET STREET STREET -> 0.1

[housenumber]
NUMBER -> HOUSE -> 0.5
NUMBER SINGLE -> HOUSE IGNORE -> 0.6
NUMBER DOUBLE -> HOUSE IGNORE -> 0.5
NUMBER DASH NUMBER -> HOUSE IGNORE IGNORE -> 0.7
NUMBER SLASH NUMBER -> HOUSE IGNORE IGNORE -> 0.7
NUMBER PUNCT NUMBER -> HOUSE IGNORE IGNORE -> 0.7

[unit]
UNITH UNITT -> UNITH UNITT -> 0.8
UNITH WORD -> UNITH UNIT -> 0.7
UNITH NUMBER -> UNITH UNITT -> 0.7
UNITH MIXED -> UNITH UNITT -> 0.7
UNITH WORD WORD -> UNITH UNITT UNITT -> 0.4

[pobox]
BOXH NUMBER -> BOXH BOXT -> 0.7

[city]
CITY -> CITY -> 0.9
WORD -> CITY -> 0.5
WORD WORD -> CITY CITY -> 0.3

[region]
PROV -> PROV -> 0.9

[country]
NATION -> NATION -> 0.9


".

(** data/sample/belgium.gmr:1-72 *)
Definition gmr_belgium : string :=
"# belgium.grammar
# Initial grammar for Belgium
# Author: Stephen Woodbridge <woodbri@imaptools.com>

[ADDRESS]
@micro @macro
#@placename @micro @macro

[micro]
@streetname @housenumber
@streetname @housenumber @unit
@pobox

[macro]
@postal @city @region @country
@postal @city @country
@postal @city

[placename]
PLACEN -> BLDNG -> 0.7
PLACEN WORD -> BLDNG BLDNG -> 0.6
PLACEN WORD WORD -> BLDNG BLDNG BLDNG -> 0.5
PLACEN WORD WORD WORD -> BLDNG BLDNG BLDNG BLDNG -> 0.4
BUILDT -> BLDNG -> 0.7
BUILDT WORD -> BLDNG BLDNG -> 0.6
BUILDT WORD WORD -> BLDNG BLDNG BLDNG -> 0.5
BUILDT WORD WORD WORD -> BLDNG BLDNG BLDNG BLDNG -> 0.4

[postal]
QUAD -> POSTAL -> 0.7
NUMBER -> POSTAL -> 0.4
SINGLE QUAD -> IGNORE POSTAL -> 0.7
SINGLE NUMBER -> IGNORE POSTAL -> 0.4
SINGLE DASH QUAD -> IGNORE IGNORE POSTAL -> 0.7
SINGLE DASH NUMBER -> IGNORE IGNORE POSTAL -> 0.4

[streetname]
WORD TYPE -> STREET SUFTYP -> 0.7
WORD WORD TYPE -> STREET STREET SUFTYP -> 0.6
WORD WORD WORD TYPE -> STREET STREET STREET SUFTYP -> 0.5
WORD WORD WORD WORD TYPE -> STREET STREET STREET STREET SUFTYP -> 0.4
WORD -> STREET -> 0.4
WORD WORD -> STREET STREET -> 0.3
WORD WORD WORD -> STREET STREET STREET -> 0.2
WORD WORD WORD WORD -> STREET STREET STREET STREET -> 0.1

[housenumber]
NUMBER -> HOUSE -> 0.5
NUMBER DASH NUMBER -> HOUSE IGNORE UNITT -> 0.5
NUMBER NUMBER -> HOUSE UNITT -> 0.2

[unit]
UNITH NUMBER -> UNITH UNITT -> 0.7
UNITH NUMBER SINGLE -> UNITH UNITT SINGLE -> 0.7
UNITH WORD -> UNITH UNITT -> 0.7
UNITH MIXED -> UNITH UNITT -> 0.7

[pobox]
BOXH NUMBER -> BOXH BOXT -> 0.7

[city]
CITY -> CITY -> 0.9
WORD -> CITY -> 0.5
WORD WORD -> CITY CITY -> 0.3

[region]
PROV -> PROV -> 0.9

[country]
NATION -> NATION -> 0.9


".

(** data/sample/canada.gmr:1-146 *)
Definition gmr_canada : string :=
"# canada.grammar
# Initial grammar for Canada
# Author: Stephen Woodbridge <woodbri@imaptools.com>

[ADDRESS]
@micro @macro
#@building @micro @macro

[micro]
@housenumber @street
@housenumber @street @pobox
@housenumber @street @unit
#@housenumber @street @unit @pobox
@pobox

[macro]
@city @prov @postal @country
@city @prov @country
@city @prov @postal
@city @prov

[building]
@buildt @buildn
@buildn @buildt

[buildt]
BUILDT -> BLDNG -> 0.4
PLACEN -> BLDNG -> 0.4

[buildn]
WORD -> BLDNG -> 0.4
WORD WORD -> BLDNG BLDNG -> 0.3
WORD WORD WORD -> BLDNG BLDNG BLDNG -> 0.2
WORD WORD WORD WORD -> BLDNG BLDNG BLDNG BLDNG -> 0.1

[pobox]
BOXH NUMBER -> BOXH BOXT -> 0.7
BOXH NUMBER BOXH NUMBER -> BOXH BOXT BOXT BOXT -> 0.8
BOXH NUMBER BOXH SINGLE -> BOXH BOXT BOXT BOXT -> 0.8
BOXH NUMBER BOXH WORD -> BOXH BOXT BOXT BOXT -> 0.8
BOXH NUMBER BOXH MIXED -> BOXH BOXT BOXT BOXT -> 0.8
BOXH WORD -> BOXH BOXT -> 0.7

[housenumber]
NUMBER -> HOUSE -> 0.7
MIXED -> HOUSE -> 0.7
NUMBER SINGLE -> HOUSE IGNORE -> 0.5
NUMBER NUMBER SLASH NUMBER -> HOUSE IGNORE IGNORE IGNORE -> 0.7
NUMBER FRACT -> HOUSE IGNORE -> 0.7
NUMBER DASH NUMBER -> HOUSE IGNORE IGNORE -> 0.7
NUMBER DASH NUMBER SINGLE -> HOUSE IGNORE IGNORE IGNORE -> 0.7
NUMBER DASH NUMBER DOUBLE -> HOUSE IGNORE IGNORE IGNORE -> 0.7
NUMBER DASH MIXED -> HOUSE IGNORE IGNORE -> 0.7
NUMBER DASH NUMBER NUMBER SLASH NUMBER -> HOUSE IGNORE IGNORE IGNORE IGNORE IGNORE -> 0.7
NUMBER DASH NUMBER FRACT -> HOUSE IGNORE IGNORE IGNORE -> 0.7

[street]
@prefixtype @basename @suffixtype
@prefix @road @basename @suffix
@prefix @road @basename
@road @basename @suffix
@prefixtype @basename
@road @basename
@basename @suffixtype
@basename

[basename]
SINGLE AMPERS SINGLE WORD WORD -> STREET STREET STREET STREET STREET -> 0.5
SINGLE AMPERS SINGLE WORD -> STREET STREET STREET STREET -> 0.5
SINGLE AMPERS SINGLE -> STREET STREET STREET -> 0.5
WORD AMPERS WORD -> STREET STREET STREET -> 0.5
WORD WORD WORD WORD WORD -> STREET STREET STREET STREET STREET -> 0.1
WORD WORD WORD WORD -> STREET STREET STREET STREET -> 0.1
WORD WORD WORD -> STREET STREET STREET -> 0.1
WORD WORD -> STREET STREET -> 0.1
ORD -> STREET -> 0.4
NUMBER SINGLE -> STREET STREET -> 0.3
NUMBER DOUBLE -> STREET STREET -> 0.3
NUMBER -> STREET -> 0.3
SINGLE -> STREET -> 0.3
DOUBLE -> STREET -> 0.3
MIXED -> STREET -> 0.3
WORD -> STREET -> 0.2

[prefixtype]
@prefix @ptype
@prefix
@ptype

[suffixtype]
@stype @suffix
@stype
@suffix

[prefix]
QUALIF DIRECT -> QUALIF PREDIR -> 0.8
DIRECT QUALIF -> PREDIR QUALIF -> 0.8
QUALIF -> QUALIF -> 0.8
DIRECT -> PREDIR -> 0.7

[suffix]
DIRECT QUALIF -> SUFDIR QUALIF -> 0.8
QUALIF DIRECT -> QUALIF SUFDIR -> 0.8
DIRECT -> SUFDIR -> 0.7
QUALIF -> QUALIF -> 0.8

[ptype]
TYPE -> PRETYP -> 0.7

[stype]
TYPE -> SUFTYP -> 0.7

[road]
PROV ROAD -> EXTRA PRETYP -> 0.8
ROAD -> PRETYP -> 0.8

[unit]
UNITH MIXED -> UNITH UNITT -> 0.6
UNITH UNITH -> UNITH UNITT -> 0.6
UNITH WORD WORD WORD -> UNITH UNITT UNITT UNITT -> 0.4
UNITH WORD WORD -> UNITH UNITT UNITT -> 0.4
UNITH WORD -> UNITH UNITT -> 0.4

[city]
DIRECT CITY -> CITY CITY -> 0.6
CITY -> CITY -> 0.8
DIRECT WORD WORD WORD WORD -> CITY CITY CITY CITY CITY -> 0.3
DIRECT WORD WORD WORD -> CITY CITY CITY CITY -> 0.4
DIRECT WORD WORD -> CITY CITY CITY -> 0.5
DIRECT WORD -> CITY CITY -> 0.5
WORD WORD WORD WORD -> CITY CITY CITY CITY -> 0.3
WORD WORD WORD -> CITY CITY CITY -> 0.2
WORD WORD -> CITY CITY -> 0.2
WORD -> CITY -> 0.2

[postal]
MIXED -> POSTAL -> 0.7
MIXED MIXED -> POSTAL POSTAL -> 0.8

[prov]
PROV -> PROV -> 0.8

[country]
NATION -> NATION -> 0.8


".

(** data/sample/denmark.gmr:1-59 *)
Definition gmr_denmark : string :=
"# denmark.grammar
# Initial grammar for Denmark
# Author: Stephen Woodbridge <woodbri@imaptools.com>

[ADDRESS]
@micro @macro
#@placename @micro @macro

[micro]
@streetname @housenumber
@streetname @housenumber @unit
@pobox

[macro]
@postal @city @country
@postal @city

[postal]
QUAD -> POSTAL -> 0.8
DOUBLE QUAD -> IGNORE POSTAL -> 0.8
DOUBLE DASH QUAD -> IGNORE IGNORE POSTAL -> 0.8

[streetname]
WORD TYPE -> STREET SUFTYP -> 0.7
WORD WORD TYPE -> STREET STREET SUFTYP -> 0.6
WORD WORD WORD TYPE -> STREET STREET STREET SUFTYP -> 0.5
WORD WORD WORD WORD TYPE -> STREET STREET STREET STREET SUFTYP -> 0.4
WORD -> STREET -> 0.4
WORD WORD -> STREET STREET -> 0.3
WORD WORD WORD -> STREET STREET STREET -> 0.2
WORD WORD WORD WORD -> STREET STREET STREET STREET -> 0.1

[housenumber]
NUMBER -> HOUSE -> 0.5
NUMBER SINGLE -> HOUSE HOUSE -> 0.6
MIXED -> HOUSE -> 0.4

[unit]
COMMA NUMBER -> IGNORE UNITT -> 0.5
COMMA NUMBER COMMA WORD -> IGNORE UNITT IGNORE EXTRA -> 0.7
COMMA NUMBER COMMA WORD WORD -> IGNORE UNITT IGNORE EXTRA EXTRA -> 0.7
NUMBER -> UNITT -> 0.5
NUMBER WORD -> UNITT EXTRA -> 0.7
NUMBER WORD WORD -> UNITT EXTRA EXTRA -> 0.7

[pobox]
BOXH NUMBER -> BOXH BOXT -> 0.7

[city]
CITY -> CITY -> 0.9
WORD -> CITY -> 0.5
WORD WORD -> CITY CITY -> 0.3
WORD WORD WORD -> CITY CITY CITY -> 0.3
WORD WORD WORD WORD -> CITY CITY CITY CITY -> 0.3

[country]
NATION -> NATION -> 0.9


".

(** data/sample/finland.gmr:1-80 *)
Definition gmr_finland : string :=
"# finland.grammar
# Initial grammar for Finland
# Author: Stephen Woodbridge <woodbri@imaptools.com>

[ADDRESS]
@micro @macro
#@placename @micro @macro

[micro]
@streetname @housenumber
@streetname @housenumber @unit
@pobox

[macro]
@postal @citywords @country
@postal @citywords
@citywords @country
@citywords

[citywords]
@city @citywords
@city

[placename]
PLACEN WORD -> BLDNG BLDNG -> 0.5
WORD PLACEN -> BLDNG BLDNG -> 0.5
PLACEN WORD PLACEN -> BLDNG BLDNG BLDNG -> 0.5
WORD PLACEN PLACEN -> BLDNG BLDNG BLDNG -> 0.5
PLACEN WORD WORD -> BLDNG BLDNG BLDNG -> 0.5
WORD WORD PLACEN -> BLDNG BLDNG BLDNG -> 0.5
PLACEN WORD WORD PLACEN -> BLDNG BLDNG BLDNG BLDNG -> 0.5
WORD WORD PLACEN PLACEN -> BLDNG BLDNG BLDNG BLDNG -> 0.5
PLACEN WORD WORD WORD -> BLDNG BLDNG BLDNG BLDNG -> 0.5
WORD WORD WORD PLACEN -> BLDNG BLDNG BLDNG BLDNG -> 0.5
PLACEN WORD WORD WORD PLACEN -> BLDNG BLDNG BLDNG BLDNG BLDNG -> 0.5
WORD WORD WORD PLACEN PLACEN -> BLDNG BLDNG BLDNG BLDNG BLDNG -> 0.5

[postal]
QUINT -> POSTAL -> 0.7
NUMBER -> POSTAL -> 0.5
NATION QUINT -> IGNORE POSTAL -> 0.7
NATION NUMBER -> IGNORE POSTAL -> 0.5
NATION DASH QUINT -> IGNORE IGNORE POSTAL -> 0.7
NATION DASH NUMBER -> IGNORE IGNORE POSTAL -> 0.5

[streetname]
WORD TYPE -> STREET SUFTYP -> 0.7
WORD WORD TYPE -> STREET STREET SUFTYP -> 0.6
WORD WORD WORD TYPE -> STREET STREET STREET SUFTYP -> 0.5
WORD WORD WORD WORD TYPE -> STREET STREET STREET STREET SUFTYP -> 0.4
WORD -> STREET -> 0.4
WORD WORD -> STREET STREET -> 0.3
WORD WORD WORD -> STREET STREET STREET -> 0.2
WORD WORD WORD WORD -> STREET STREET STREET STREET -> 0.1

[housenumber]
NUMBER -> HOUSE -> 0.5
NUMBER SINGLE -> HOUSE IGNORE -> 0.6
NUMBER DOUBLE -> HOUSE IGNORE -> 0.5
MIXED -> HOUSE -> 0.4
NUMBER DASH NUMBER -> HOUSE IGNORE IGNORE -> 0.7

[unit]
NUMBER -> UNITT -> 0.4
NUMBER WORD -> UNITT UNITT -> 0.4
NUMBER WORD WORD -> UNITT UNITT UNITT -> 0.3

[pobox]
BOXH NUMBER -> BOXH BOXT -> 0.7
BOXH WORD -> BOXH BOXT -> 0.7

[city]
CITY -> CITY -> 0.9
WORD -> CITY -> 0.5

[country]
NATION -> NATION -> 0.9



".

(** data/sample/france.gmr:1-74 *)
Definition gmr_france : string :=
"# france.grammar
# Initial grammar for France
# Author: Stephen Woodbridge <woodbri@imaptools.com>

[ADDRESS]
@micro @macro
@pobox @micro @macro
#@placename @micro @macro
#@placename @pobox @micro @macro

[micro]
@housenumber @streetname
@housenumber @streetname @unit
@pobox

[macro]
@postal @citywords @country
@postal @citywords

[citywords]
@city @citywords
@city

[placename]
PLACEN -> BLDNG -> 0.7
PLACEN WORD -> BLDNG BLDNG -> 0.6
PLACEN WORD WORD -> BLDNG BLDNG BLDNG -> 0.5
PLACEN WORD WORD WORD -> BLDNG BLDNG BLDNG BLDNG -> 0.4

[postal]
QUINT -> POSTAL -> 0.7
NUMBER -> POSTAL -> 0.4
NATION QUINT -> IGNORE POSTAL -> 0.7
NATION NUMBER -> IGNORE POSTAL -> 0.4
NATION DASH QUINT -> IGNORE IGNORE POSTAL -> 0.7
NATION DASH NUMBER -> IGNORE IGNORE POSTAL -> 0.4

[streetname]
TYPE WORD -> PRETYP STREET -> 0.7
TYPE WORD WORD -> PRETYP STREET STREET -> 0.6
TYPE WORD WORD WORD -> PRETYP STREET STREET STREET -> 0.5
TYPE WORD WORD WORD WORD -> PRETYP STREET STREET STREET STREET -> 0.4
WORD -> STREET -> 0.4
WORD WORD -> STREET STREET -> 0.3
WORD WORD WORD -> STREET STREET STREET -> 0.2
WORD WORD WORD WORD -> STREET STREET STREET STREET -> 0.1

[housenumber]
NUMBER -> HOUSE -> 0.5
NUMBER SLASH NUMBER -> HOUSE IGNORE UNITT -> 0.7
NUMBER DASH NUMBER -> HOUSE IGNORE UNITT -> 0.7

[unit]
UNITH UNITT -> UNITH UNITT -> 0.8
UNITH WORD -> UNITH UNIT -> 0.7
UNITH NUMBER -> UNITH UNITT -> 0.7
UNITH MIXED -> UNITH UNITT -> 0.7
UNITH WORD WORD -> UNITH UNITT UNITT -> 0.4

[pobox]
BOXH NUMBER -> BOXH BOXT -> 0.7

[city]
CITY -> CITY -> 0.9
WORD -> CITY -> 0.5
CITY BOXH -> CITY EXTRA -> 0.9
WORD BOXH -> CITY EXTRA -> 0.5
CITY BOXH NUMBER -> CITY EXTRA EXTRA -> 0.9
WORD BOXH NUMBER -> CITY EXTRA EXTRA -> 0.5

[country]
NATION -> NATION -> 0.9


".

(** data/sample/germany.gmr:1-83 *)
Definition gmr_germany : string :=
"# german.grammar
# Initial grammar for Germany
# Author: Stephen Woodbridge <woodbri@imaptools.com>

[ADDRESS]
@micro @macro
#@placename @micro @macro

[micro]
@streetname @housenumber
@streetname @housenumber @unit
@pobox

[macro]
@postal @citywords @region @country
@postal @citywords @country
@postal @citywords @region
@postal @citywords

[citywords]
@city @citywords
@city

[placename]
PLACEN -> BLDNG -> 0.7
PLACEN WORD -> BLDNG BLDNG -> 0.6
PLACEN WORD WORD -> BLDNG BLDNG BLDNG -> 0.5
PLACEN WORD WORD WORD -> BLDNG BLDNG BLDNG BLDNG -> 0.4
BUILDT -> BLDNG -> 0.7
BUILDT WORD -> BLDNG BLDNG -> 0.6
BUILDT WORD WORD -> BLDNG BLDNG BLDNG -> 0.5
BUILDT WORD WORD WORD -> BLDNG BLDNG BLDNG BLDNG -> 0.4

[postal]
QUINT -> POSTAL -> 0.7
NUMBER -> POSTAL -> 0.4
SINGLE QUINT -> IGNORE POSTAL -> 0.7
SINGLE NUMBER -> IGNORE POSTAL -> 0.4

[streetname]
WORD TYPE -> STREET SUFTYP -> 0.7
TYPE TYPE -> STREET SUFTYP -> 0.7
WORD WORD TYPE -> STREET STREET SUFTYP -> 0.6
WORD WORD WORD TYPE -> STREET STREET STREET SUFTYP -> 0.5
WORD WORD WORD WORD TYPE -> STREET STREET STREET STREET SUFTYP -> 0.4
WORD -> STREET -> 0.4
WORD WORD -> STREET STREET -> 0.3
WORD WORD WORD -> STREET STREET STREET -> 0.2
WORD WORD WORD WORD -> STREET STREET STREET STREET -> 0.1

[housenumber]
NUMBER -> HOUSE -> 0.5
NUMBER SINGLE -> HOUSE HOUSE -> 0.6
NUMBER DOUBLE -> HOUSE HOUSE -> 0.5
MIXED -> HOUSE -> 0.4
FRACT -> HOUSE -> 0.7
NUMBER SLASH MIXED -> HOUSE HOUSE HOUSE -> 0.7
FRACT SINGLE -> HOUSE HOUSE -> 0.8
FRACT DOUBLE -> HOUSE HOUSE -> 0.7
NUMBER SINGLE SINGLE -> HOUSE HOUSE HOUSE -> 0.7

[unit]
UNITH UNITT -> UNITH UNITT -> 0.8
UNITH WORD -> UNITH UNIT -> 0.7
UNITH NUMBER -> UNITH UNITT -> 0.7
UNITH MIXED -> UNITH UNITT -> 0.7
UNITH WORD WORD -> UNITH UNITT UNITT -> 0.4

[pobox]
BOXH NUMBER -> BOXH BOXT -> 0.7

[city]
DIRECT -> CITY -> 0.5
CITY -> CITY -> 0.9
WORD -> CITY -> 0.5

[region]
PROV -> PROV -> 0.9

[country]
NATION -> NATION -> 0.9


".

(** data/sample/greatbritain.gmr:1-137 *)
Definition gmr_greatbritain : string :=
"# greatbritian.grammar
# Initial grammar for Great Britian
# Author: Stephen Woodbridge <woodbri@imaptools.com>

[ADDRESS]
@micro @macro
@building @micro @macro

[micro]
@housenumber @street
@unit @housenumber @street
@pobox

[macro]
@city @prov @postal @country
@city @prov @country
@city @prov @postal
@city @prov
@city @postal @country
@city @country
@city @postal

#[citywords]
#@city @citywords
#@city

[building]
@buildt @buildn
@buildn @buildt

[buildt]
BUILDT -> BLDNG -> 0.4
PLACEN -> BLDNG -> 0.4

[buildn]
WORD -> BLDNG -> 0.4
WORD WORD -> BLDNG BLDNG -> 0.3
WORD WORD WORD -> BLDNG BLDNG BLDNG -> 0.2
WORD WORD WORD WORD -> BLDNG BLDNG BLDNG BLDNG -> 0.1

[pobox]
BOXH NUMBER -> BOXH BOXT -> 0.7

[housenumber]
NUMBER -> HOUSE -> 0.6
NUMBER SINGLE -> HOUSE HOUSE -> 0.7
MIXED -> HOUSE -> 0.7
NUMBER DASH NUMBER -> HOUSE IGNORE IGNORE -> 0.7

[street]
@prefixtype @basename @suffixtype
@prefix @road @basename @suffix
@prefix @road @basename
@road @basename @suffix
@prefixtype @basename
@road @basename
@basename @suffixtype
@basename

[basename]
SINGLE AMPERS SINGLE WORD WORD -> STREET STREET STREET STREET STREET -> 0.5
SINGLE AMPERS SINGLE WORD -> STREET STREET STREET STREET -> 0.5
SINGLE AMPERS SINGLE -> STREET STREET STREET -> 0.5
WORD AMPERS WORD -> STREET STREET STREET -> 0.5
WORD WORD WORD WORD WORD -> STREET STREET STREET STREET STREET -> 0.1
WORD WORD WORD WORD -> STREET STREET STREET STREET -> 0.1
WORD WORD WORD -> STREET STREET STREET -> 0.1
WORD WORD -> STREET STREET -> 0.1
ORD -> STREET -> 0.4
NUMBER SINGLE -> STREET STREET -> 0.3
NUMBER DOUBLE -> STREET STREET -> 0.3
NUMBER -> STREET -> 0.3
SINGLE -> STREET -> 0.3
DOUBLE -> STREET -> 0.3
MIXED -> STREET -> 0.3
WORD -> STREET -> 0.2

[prefixtype]
@prefix @ptype
@prefix
@ptype

[suffixtype]
@stype @suffix
@stype
@suffix

[prefix]
QUALIF DIRECT -> QUALIF PREDIR -> 0.8
DIRECT QUALIF -> PREDIR QUALIF -> 0.8
QUALIF -> QUALIF -> 0.8
DIRECT -> PREDIR -> 0.7

[suffix]
DIRECT QUALIF -> SUFDIR QUALIF -> 0.8
QUALIF DIRECT -> QUALIF SUFDIR -> 0.8
DIRECT -> SUFDIR -> 0.7
QUALIF -> QUALIF -> 0.8

[ptype]
TYPE -> PRETYP -> 0.7

[stype]
TYPE -> SUFTYP -> 0.7

[road]
PROV ROAD -> EXTRA PRETYP -> 0.8
ROAD -> PRETYP -> 0.8

[unit]
ORD UNITH -> UNITT UNITH -> 0.7
UNITT UNITH -> UNITT UNITH -> 0.7
UNITH UNITT -> UNITH UNITT -> 0.7
NUMBER SINGLE WORD PLACEN -> UNITT UNITT UNITH UNITH -> 0.3

[city]
DIRECT CITY -> CITY CITY -> 0.6
CITY -> CITY -> 0.8
DIRECT WORD WORD WORD WORD -> CITY CITY CITY CITY CITY -> 0.3
DIRECT WORD WORD WORD -> CITY CITY CITY CITY -> 0.4
DIRECT WORD WORD -> CITY CITY CITY -> 0.5
DIRECT WORD -> CITY CITY -> 0.5
WORD WORD WORD WORD -> CITY CITY CITY CITY -> 0.3
WORD WORD WORD -> CITY CITY CITY -> 0.2
WORD WORD -> CITY CITY -> 0.2
WORD -> CITY -> 0.2

[postal]
MIXED -> POSTAL -> 0.7
MIXED MIXED -> POSTAL POSTAL -> 0.8

[prov]
PROV -> PROV -> 0.8

[country]
NATION -> NATION -> 0.8

".

(** data/sample/ireland.gmr:1-144 *)
Definition gmr_ireland : string :=
"# ireland.grammar
# Initial grammar for Ireland
# Author: Stephen Woodbridge <woodbri@imaptools.com>

[ADDRESS]
@micro @macro
#@building @micro @macro

[micro]
@housenumber @street
@unit @housenumber @street
@pobox

[macro]
@citywords @prov @postal @country
@citywords @prov @country
@citywords @prov @postal
@citywords @prov
@citywords @postal @country
@citywords @country
@citywords @postal
@citywords

[citywords]
@city @citywords
@city @cityext
@city

[cityext]
NUMBER -> POSTAL -> 0.5
NUMBER SINGLE -> POSTAL POSTAL -> 0.5

[building]
@buildt @buildn
@buildn @buildt
@buildn @buildt @buildt

[buildt]
BUILDT -> BLDNG -> 0.4
PLACEN -> BLDNG -> 0.4

[buildn]
WORD -> BLDNG -> 0.4
WORD WORD -> BLDNG BLDNG -> 0.3
WORD WORD WORD -> BLDNG BLDNG BLDNG -> 0.2
WORD WORD WORD WORD -> BLDNG BLDNG BLDNG BLDNG -> 0.1

[pobox]
BOXH NUMBER -> BOXH BOXT -> 0.7

[housenumber]
NUMBER -> HOUSE -> 0.6
NUMBER SINGLE -> HOUSE HOUSE -> 0.7
MIXED -> HOUSE -> 0.7
NUMBER DASH NUMBER -> HOUSE IGNORE IGNORE -> 0.7

[street]
@prefixtype @basename @suffixtype
@prefix @road @basename @suffix
@prefix @road @basename
@road @basename @suffix
@prefixtype @basename
@road @basename
@basename @suffixtype
@basename

[basename]
SINGLE AMPERS SINGLE WORD WORD -> STREET STREET STREET STREET STREET -> 0.5
SINGLE AMPERS SINGLE WORD -> STREET STREET STREET STREET -> 0.5
SINGLE AMPERS SINGLE -> STREET STREET STREET -> 0.5
WORD AMPERS WORD -> STREET STREET STREET -> 0.5
WORD WORD WORD WORD WORD -> STREET STREET STREET STREET STREET -> 0.1
WORD WORD WORD WORD -> STREET STREET STREET STREET -> 0.1
WORD WORD WORD -> STREET STREET STREET -> 0.1
WORD WORD -> STREET STREET -> 0.1
ORD -> STREET -> 0.4
NUMBER SINGLE -> STREET STREET -> 0.3
NUMBER DOUBLE -> STREET STREET -> 0.3
NUMBER -> STREET -> 0.3
SINGLE -> STREET -> 0.3
DOUBLE -> STREET -> 0.3
MIXED -> STREET -> 0.3
WORD -> STREET -> 0.2

[prefixtype]
@prefix @ptype
@prefix
@ptype

[suffixtype]
@stype @suffix
@stype
@suffix

[prefix]
QUALIF DIRECT -> QUALIF PREDIR -> 0.8
DIRECT QUALIF -> PREDIR QUALIF -> 0.8
QUALIF -> QUALIF -> 0.8
DIRECT -> PREDIR -> 0.7

[suffix]
DIRECT QUALIF -> SUFDIR QUALIF -> 0.8
QUALIF DIRECT -> QUALIF SUFDIR -> 0.8
DIRECT -> SUFDIR -> 0.7
QUALIF -> QUALIF -> 0.8

[ptype]
TYPE -> PRETYP -> 0.7

[stype]
TYPE -> SUFTYP -> 0.7

[road]
PROV ROAD -> EXTRA PRETYP -> 0.8
ROAD -> PRETYP -> 0.8

[unit]
ORD UNITH -> UNITT UNITH -> 0.7
UNITT UNITH -> UNITT UNITH -> 0.7
UNITH UNITT -> UNITH UNITT -> 0.7
NUMBER SINGLE WORD PLACEN -> UNITT UNITT UNITH UNITH -> 0.3

[city]
DIRECT CITY -> CITY CITY -> 0.6
CITY -> CITY -> 0.8
DIRECT WORD WORD WORD WORD -> CITY CITY CITY CITY CITY -> 0.3
DIRECT WORD WORD WORD -> CITY CITY CITY CITY -> 0.4
DIRECT WORD WORD -> CITY CITY CITY -> 0.5
DIRECT WORD -> CITY CITY -> 0.5
WORD WORD WORD WORD -> CITY CITY CITY CITY -> 0.3
WORD WORD WORD -> CITY CITY CITY -> 0.2
WORD WORD -> CITY CITY -> 0.2
WORD -> CITY -> 0.2

[postal]
MIXED -> POSTAL -> 0.7
MIXED MIXED -> POSTAL POSTAL -> 0.8

[prov]
PROV -> PROV -> 0.8

[country]
NATION -> NATION -> 0.8

".

(** data/sample/italy.gmr:1-81 *)
Definition gmr_italy : string :=
"# italy.grammar
# Initial grammar for Italy
# Author: Stephen Woodbridge <woodbri@imaptools.com>

[ADDRESS]
@micro @macro
#@placename @micro @macro

[micro]
@streetname @housenumber
@unit @streetname @housenumber
@pobox

[macro]
@postal @citywords @region @country
@postal @citywords @country
@postal @citywords @region
@postal @citywords

[citywords]
@city @citywords
@city

[city]
CITY -> CITY -> 0.9
WORD -> CITY -> 0.5

[placename]
PLACEN -> BLDNG -> 0.7
PLACEN WORD -> BLDNG BLDNG -> 0.6
PLACEN WORD WORD -> BLDNG BLDNG BLDNG -> 0.5
PLACEN WORD WORD WORD -> BLDNG BLDNG BLDNG BLDNG -> 0.4
BUILDT -> BLDNG -> 0.7
BUILDT WORD -> BLDNG BLDNG -> 0.6
BUILDT WORD WORD -> BLDNG BLDNG BLDNG -> 0.5
BUILDT WORD WORD WORD -> BLDNG BLDNG BLDNG BLDNG -> 0.4

[postal]
QUINT -> POSTAL -> 0.7
NUMBER -> POSTAL -> 0.4
SINGLE QUINT -> IGNORE POSTAL -> 0.7
SINGLE NUMBER -> IGNORE POSTAL -> 0.4

[streetname]
TYPE WORD -> PRETYP STREET -> 0.7
TYPE WORD WORD -> PRETYP STREET STREET -> 0.6
TYPE WORD WORD WORD -> PRETYP STREET STREET STREET -> 0.5
TYPE WORD WORD WORD WORD -> PRETYP STREET STREET STREET STREET -> 0.4
WORD -> STREET -> 0.4
WORD WORD -> STREET STREET -> 0.3
WORD WORD WORD -> STREET STREET STREET -> 0.2
WORD WORD WORD WORD -> STREET STREET STREET STREET -> 0.1

[housenumber]
NUMBER -> HOUSE -> 0.5
NUMBER SINGLE -> HOUSE HOUSE -> 0.6
NUMBER DOUBLE -> HOUSE HOUSE -> 0.5
NUMBER SLASH SINGLE -> HOUSE HOUSE HOUSE -> 0.7
NUMBER DASH NUMBER -> HOUSE HOUSE HOUSE -> 0.7
NUMBER SLASH NUMBER -> HOUSE HOUSE HOUSE -> 0.7
NUMBER SLASH NUMBER SINGLE -> HOUSE HOUSE HOUSE HOUSE -> 0.7
RR NUMBER -> HOUSE HOUSE -> 0.8
RR NUMBER NUMBER -> HOUSE HOUSE HOUSE -> 0.8

[unit]
UNITH NUMBER -> UNITH UNITT -> 0.7
UNITH NUMBER SINGLE -> UNITH UNITT UNITT -> 0.7
UNITH NUMBER UNITH NUMBER -> UNITH UNITT UNITH UNITT -> 0.7
UNITH WORD -> UNITH UNITT -> 0.7
UNITH NUMBER SINGLE UNITH NUMBER -> UNITH UNITT UNITT UNITH UNITT -> 0.7

[pobox]
BOXH NUMBER -> BOXH BOXT -> 0.7

[region]
PROV -> PROV -> 0.9

[country]
NATION -> NATION -> 0.9


".

(** data/sample/liechtenstein.gmr:1-75 *)
Definition gmr_liechtenstein : string :=
"# liechtenstein.grammar
# Initial grammar for Liechtenstein
# Author: Stephen Woodbridge <woodbri@imaptools.com>

[ADDRESS]
@micro @macro
#@placename @micro @macro

[micro]
@streetname @housenumber
@streetname @housenumber @unit
@pobox

[macro]
@postal @citywords @country
@postal @citywords
#@postal @citywords @region @country
#@postal @citywords @region

[citywords]
@city @citywords
@city

[placename]
PLACEN -> BLDNG -> 0.7
PLACEN WORD -> BLDNG BLDNG -> 0.6
PLACEN WORD WORD -> BLDNG BLDNG BLDNG -> 0.5
PLACEN WORD WORD WORD -> BLDNG BLDNG BLDNG BLDNG -> 0.4
BUILDT -> BLDNG -> 0.7
BUILDT WORD -> BLDNG BLDNG -> 0.6
BUILDT WORD WORD -> BLDNG BLDNG BLDNG -> 0.5
BUILDT WORD WORD WORD -> BLDNG BLDNG BLDNG BLDNG -> 0.4

[postal]
QUAD -> POSTAL -> 0.7
NUMBER -> POSTAL -> 0.4
DOUBLE QUAD -> IGNORE POSTAL -> 0.7
DOUBLE NUMBER -> IGNORE POSTAL -> 0.4

[streetname]
WORD TYPE -> STREET SUFTYP -> 0.7
WORD WORD TYPE -> STREET STREET SUFTYP -> 0.6
WORD WORD WORD TYPE -> STREET STREET STREET SUFTYP -> 0.5
WORD WORD WORD WORD TYPE -> STREET STREET STREET STREET SUFTYP -> 0.4
WORD -> STREET -> 0.4
WORD WORD -> STREET STREET -> 0.3
WORD WORD WORD -> STREET STREET STREET -> 0.2
WORD WORD WORD WORD -> STREET STREET STREET STREET -> 0.1

[housenumber]
NUMBER -> HOUSE -> 0.5
NUMBER SINGLE -> HOUSE HOUSE -> 0.6
NUMBER DOUBLE -> HOUSE HOUSE -> 0.5

[unit]
UNITH WORD -> UNITH UNIT -> 0.7
UNITH NUMBER -> UNITH UNITT -> 0.7
UNITH NUMBER SINGLE -> UNITH UNITT UNITT -> 0.7
UNITH NUMBER DOUBLE -> UNITH UNITT UNITT -> 0.7
UNITH WORD WORD -> UNITH UNITT UNITT -> 0.4

[pobox]
BOXH NUMBER -> BOXH BOXT -> 0.7

[city]
CITY -> CITY -> 0.9
WORD -> CITY -> 0.5

#[region]
#PROV -> PROV -> 0.9

[country]
NATION -> NATION -> 0.9


".

(** data/sample/luxembourg.gmr:1-81 *)
Definition gmr_luxembourg : string :=
"# luxembourg.grammar
# Initial grammar for Luxembourg
# Author: Stephen Woodbridge <woodbri@imaptools.com>

[ADDRESS]
@micro @macro
#@placename @micro @macro

[micro]
@housenumber @streetname
@housenumber @streetname @unit
@pobox

[macro]
@postal @citywords @country
@postal @citywords

[citywords]
@city @citywords
@city

[placename]
PLACEN -> BLDNG -> 0.7
PLACEN WORD -> BLDNG BLDNG -> 0.6
PLACEN WORD WORD -> BLDNG BLDNG BLDNG -> 0.5
PLACEN WORD WORD WORD -> BLDNG BLDNG BLDNG BLDNG -> 0.4
BUILDT -> BLDNG -> 0.7
BUILDT WORD -> BLDNG BLDNG -> 0.6
BUILDT WORD WORD -> BLDNG BLDNG BLDNG -> 0.5
BUILDT WORD WORD WORD -> BLDNG BLDNG BLDNG BLDNG -> 0.4

[postal]
QUAD -> POSTAL -> 0.7
NUMBER -> POSTAL -> 0.4
SINGLE QUAD -> IGNORE POSTAL -> 0.7
SINGLE NUMBER -> IGNORE POSTAL -> 0.4
SINGLE DASH QUAD -> IGNORE IGNORE POSTAL -> 0.7
SINGLE DASH NUMBER -> IGNORE IGNORE POSTAL -> 0.4

[streetname]
TYPE WORD -> PRETYP STREET -> 0.7
TYPE WORD WORD -> PRETYP STREET STREET -> 0.6
TYPE WORD WORD WORD -> PRETYP STREET STREET STREET -> 0.5
TYPE WORD WORD WORD WORD -> PRETYP STREET STREET STREET STREET -> 0.4
WORD TYPE -> STREET SUFTYP -> 0.7
WORD WORD TYPE -> STREET STREET SUFTYP -> 0.6
WORD WORD WORD TYPE -> STREET STREET STREET SUFTYP -> 0.5
WORD WORD WORD WORD TYPE -> STREET STREET STREET STREET SUFTYP -> 0.4
WORD -> STREET -> 0.4
WORD WORD -> STREET STREET -> 0.3
WORD WORD WORD -> STREET STREET STREET -> 0.2
WORD WORD WORD WORD -> STREET STREET STREET STREET -> 0.1

[housenumber]
NUMBER -> HOUSE -> 0.5
NUMBER SINGLE -> HOUSE HOUSE -> 0.6
NUMBER DOUBLE -> HOUSE HOUSE -> 0.5
MIXED -> HOUSE -> 0.4
FRACT -> HOUSE -> 0.7
NUMBER SLASH MIXED -> HOUSE HOUSE HOUSE -> 0.7
FRACT SINGLE -> HOUSE HOUSE -> 0.8
FRACT DOUBLE -> HOUSE HOUSE -> 0.7
NUMBER SINGLE SINGLE -> HOUSE HOUSE HOUSE -> 0.7

[unit]
UNITH UNITT -> UNITH UNITT -> 0.8
UNITH WORD -> UNITH UNIT -> 0.7
UNITH NUMBER -> UNITH UNITT -> 0.7
UNITH MIXED -> UNITH UNITT -> 0.7
UNITH WORD WORD -> UNITH UNITT UNITT -> 0.4

[pobox]
BOXH NUMBER -> BOXH BOXT -> 0.7

[city]
CITY -> CITY -> 0.9
WORD -> CITY -> 0.5

[country]
NATION -> NATION -> 0.9

".

(** data/sample/monaco.gmr:1-74 *)
Definition gmr_monaco : string :=
"# monaco.grammar
# Initial grammar for Monaco
# Author: Stephen Woodbridge <woodbri@imaptools.com>

[ADDRESS]
@micro @macro
@pobox @micro @macro
#@placename @micro @macro
#@placename @pobox @micro @macro

[micro]
@housenumber @streetname
@housenumber @streetname @unit
@pobox

[macro]
@postal @citywords @country
@postal @citywords

[citywords]
@city @citywords
@city

[placename]
PLACEN -> BLDNG -> 0.7
PLACEN WORD -> BLDNG BLDNG -> 0.6
PLACEN WORD WORD -> BLDNG BLDNG BLDNG -> 0.5
PLACEN WORD WORD WORD -> BLDNG BLDNG BLDNG BLDNG -> 0.4

[postal]
QUINT -> POSTAL -> 0.7
NUMBER -> POSTAL -> 0.4
NATION QUINT -> IGNORE POSTAL -> 0.7
NATION NUMBER -> IGNORE POSTAL -> 0.4
NATION DASH QUINT -> IGNORE IGNORE POSTAL -> 0.7
NATION DASH NUMBER -> IGNORE IGNORE POSTAL -> 0.4

[streetname]
TYPE WORD -> PRETYP STREET -> 0.7
TYPE WORD WORD -> PRETYP STREET STREET -> 0.6
TYPE WORD WORD WORD -> PRETYP STREET STREET STREET -> 0.5
TYPE WORD WORD WORD WORD -> PRETYP STREET STREET STREET STREET -> 0.4
WORD -> STREET -> 0.4
WORD WORD -> STREET STREET -> 0.3
WORD WORD WORD -> STREET STREET STREET -> 0.2
WORD WORD WORD WORD -> STREET STREET STREET STREET -> 0.1

[housenumber]
NUMBER -> HOUSE -> 0.5
NUMBER SLASH NUMBER -> HOUSE IGNORE UNITT -> 0.7
NUMBER DASH NUMBER -> HOUSE IGNORE UNITT -> 0.7

[unit]
UNITH UNITT -> UNITH UNITT -> 0.8
UNITH WORD -> UNITH UNIT -> 0.7
UNITH NUMBER -> UNITH UNITT -> 0.7
UNITH MIXED -> UNITH UNITT -> 0.7
UNITH WORD WORD -> UNITH UNITT UNITT -> 0.4

[pobox]
BOXH NUMBER -> BOXH BOXT -> 0.7

[city]
CITY -> CITY -> 0.9
WORD -> CITY -> 0.5
CITY BOXH -> CITY EXTRA -> 0.9
WORD BOXH -> CITY EXTRA -> 0.5
CITY BOXH NUMBER -> CITY EXTRA EXTRA -> 0.9
WORD BOXH NUMBER -> CITY EXTRA EXTRA -> 0.5

[country]
NATION -> NATION -> 0.9


".

(** data/sample/netherlands.gmr:1-105 *)
Definition gmr_netherlands : string :=
"# netherlands.grammar
# Initial grammar for Netherlands
# Author: Stephen Woodbridge <woodbri@imaptools.com>

[ADDRESS]
@micro @macro
#@placename @micro @macro

[micro]
@streetname @housenumber
@streetname @housenumber @unit
@pobox

[macro]
@postal @citywords @region @country
@postal @citywords @country
@postal @citywords @region
@postal @citywords

[citywords]
@city @citywords
@city

[placename]
@building
@building @unit

[building]
PLACEN -> BLDNG -> 0.7
WORD PLACEN -> BLDNG BLDNG -> 0.6
WORD WORD PLACEN -> BLDNG BLDNG BLDNG -> 0.5
WORD WORD WORD PLACEN -> BLDNG BLDNG BLDNG BLDNG -> 0.4
PLACEN -> BLDNG -> 0.7
PLACEN WORD -> BLDNG BLDNG -> 0.6
PLACEN WORD WORD -> BLDNG BLDNG BLDNG -> 0.5
PLACEN WORD WORD WORD -> BLDNG BLDNG BLDNG BLDNG -> 0.4

[postal]
QUAD -> POSTAL -> 0.7
QUAD DOUBLE -> POSTAL POSTAL -> 0.7
NUMBER -> POSTAL -> 0.4
NATION QUAD -> IGNORE POSTAL -> 0.7
NATION QUAD DOUBLE -> IGNORE POSTAL POSTAL -> 0.7
NATION NUMBER -> IGNORE POSTAL -> 0.4
NATION DASH QUAD -> IGNORE IGNORE POSTAL -> 0.7
NATION DASH QUAD DOUBLE -> IGNORE IGNORE POSTAL POSTAL -> 0.7
NATION DASH NUMBER -> IGNORE IGNORE POSTAL -> 0.4

[streetname]
@basename
@prefix @basename

[prefix]
NUMBER SINGLE -> STREET STREET -> 0.3
NUMBER -> STREET -> 0.3

[basename]
WORD TYPE -> STREET SUFTYP -> 0.7
WORD WORD TYPE -> STREET STREET SUFTYP -> 0.6
WORD WORD WORD TYPE -> STREET STREET STREET SUFTYP -> 0.5
WORD WORD WORD WORD TYPE -> STREET STREET STREET STREET SUFTYP -> 0.4
WORD -> STREET -> 0.4
WORD WORD -> STREET STREET -> 0.3
WORD WORD WORD -> STREET STREET STREET -> 0.2
WORD WORD WORD WORD -> STREET STREET STREET STREET -> 0.1

[housenumber]
NUMBER -> HOUSE -> 0.5
NUMBER SINGLE -> HOUSE HOUSE -> 0.6
NUMBER DOUBLE -> HOUSE HOUSE -> 0.5
FRACT -> HOUSE -> 0.7
NUMBER SLASH NUMBER -> HOUSE HOUSE HOUSE -> 0.7
NUMBER SLASH SINGLE -> HOUSE HOUSE HOUSE -> 0.7
NUMBER SLASH NUMBER SINGLE -> HOUSE HOUSE HOUSE HOUSE -> 0.7
NUMBER DASH NUMBER -> HOUSE HOUSE HOUSE -> 0.7
NUMBER DASH SINGLE -> HOUSE HOUSE HOUSE -> 0.7
NUMBER DASH NUMBER SINGLE -> HOUSE HOUSE HOUSE HOUSE -> 0.7
FRACT SINGLE -> HOUSE HOUSE -> 0.8
FRACT DOUBLE -> HOUSE HOUSE -> 0.7
NUMBER SINGLE SINGLE -> HOUSE HOUSE HOUSE -> 0.7

[unit]
UNITH UNITT -> UNITH UNITT -> 0.8
UNITH WORD -> UNITH UNIT -> 0.7
UNITH NUMBER -> UNITH UNITT -> 0.7
UNITH MIXED -> UNITH UNITT -> 0.7
UNITH WORD WORD -> UNITH UNITT UNITT -> 0.4
WORD NUMBER SINGLE -> UNITH UNITT UNITT -> 0.3

[pobox]
BOXH NUMBER -> BOXH BOXT -> 0.7
WORD NUMBER -> BOXH BOXT -> 0.3
NUMBER WORD -> BOXT BOXH -> 0.3

[city]
CITY -> CITY -> 0.9
WORD -> CITY -> 0.5

[region]
PROV -> PROV -> 0.9

[country]
NATION -> NATION -> 0.9


".

(** data/sample/newzealand.gmr:1-110 *)
Definition gmr_newzealand : string :=
"# newzealand.grammar
# Initial grammar for New Zealand
# Author: Stephen Woodbridge <woodbri@imaptools.com>

[ADDRESS]
@micro @macro
#@placename @micro @macro

[micro]
@housenumber @streetname
@unit @housenumber @streetname
@housenumber @streetname @pobox
@unit @housenumber @streetname @pobox
@pobox

[streetname]
@prefixtype @basename @suffixtype
@prefixtype @basename
@basename @suffixtype
@basename

[placename]
PLACEN -> BLDNG -> 0.7
PLACEN WORD -> BLDNG BLDNG -> 0.6
PLACEN WORD WORD -> BLDNG BLDNG BLDNG -> 0.5
PLACEN WORD WORD WORD -> BLDNG BLDNG BLDNG BLDNG -> 0.4
BUILDT -> BLDNG -> 0.7
BUILDT WORD -> BLDNG BLDNG -> 0.6
BUILDT WORD WORD -> BLDNG BLDNG BLDNG -> 0.5
BUILDT WORD WORD WORD -> BLDNG BLDNG BLDNG BLDNG -> 0.4

[unit]
NUMBER DASH -> UNITT IGNORE -> 0.7
UNITH -> UNITH -> 0.5
UNITH NUMBER -> UNITH UNITT -> 0.4
UNITH WORD -> UNITH UNITT -> 0.4
UNITH WORD WORD -> UNITH UNITT UNITT -> 0.4

[housenumber]
NUMBER -> HOUSE -> 0.3
NUMBER SINGLE -> HOUSE HOUSE -> 0.3
NUMBER SLASH NUMBER -> IGNORE IGNORE HOUSE -> 0.3
NUMBER DASH NUMBER -> HOUSE IGNORE IGNORE -> 0.3


[basename]
WORD -> STREET -> 0.4
WORD WORD -> STREET STREET -> 0.3
WORD WORD WORD -> STREET STREET STREET -> 0.2
WORD WORD WORD WORD -> STREET STREET STREET STREET -> 0.1

[prefixtype]
@prefix @ptype
@prefix
@ptype

[suffixtype]
@stype @suffix
@stype
@suffix

[prefix]
QUALIF DIRECT -> QUALIF PREDIR -> 0.8
DIRECT QUALIF -> PREDIR QUALIF -> 0.8
QUALIF -> QUALIF -> 0.8
DIRECT -> PREDIR -> 0.7

[suffix]
DIRECT QUALIF -> SUFDIR QUALIF -> 0.8
QUALIF DIRECT -> QUALIF SUFDIR -> 0.8
DIRECT -> SUFDIR -> 0.7
QUALIF -> QUALIF -> 0.8

[ptype]
TYPE -> PRETYP -> 0.7

[stype]
TYPE -> SUFTYP -> 0.7

[pobox]
NUMBER SINGLE TYPE -> BOXT BOXH BOXH -> 0.2
BOXH NUMBER -> BOXH BOXT -> 0.8
BOXH NUMBER NUMBER -> BOXH BOXT BOXT -> 0.8

[macro]
@citywords @prov @postal @nation
@citywords @prov @nation
@citywords @prov @postal
@citywords @prov

[citywords]
@city @citywords
@city

[city]
DIRECT -> CITY -> 0.5
CITY -> CITY -> 0.9
WORD -> CITY -> 0.5

[postal]
QUAD -> POSTAL -> 0.7
NUMBER -> POSTAL -> 0.6

[prov]
PROV -> PROV -> 0.8
WORD -> PROV -> 0.4

[nation]
NATION -> NATION -> 0.8

".

(** data/sample/norway.gmr:1-79 *)
Definition gmr_norway : string :=
"# norway.grammar
# Initial grammar for Norway
# Author: Stephen Woodbridge <woodbri@imaptools.com>

[ADDRESS]
@micro @macro
#@placename @micro @macro

[micro]
@streetname @housenumber
@streetname @housenumber @unit
@pobox

[macro]
@postal @citywords @country
@postal @citywords

[citywords]
@city @citywords
@city

[placename]
PLACEN -> BLDNG -> 0.7
PLACEN WORD -> BLDNG BLDNG -> 0.6
PLACEN WORD WORD -> BLDNG BLDNG BLDNG -> 0.5
PLACEN WORD WORD WORD -> BLDNG BLDNG BLDNG BLDNG -> 0.4
BUILDT -> BLDNG -> 0.7
BUILDT SINGLE NUMBER -> BLDNG BLDNG BLDNG -> 0.6
BUILDT WORD NUMBER -> BLDNG BLDNG BLDNG -> 0.5

[postal]
QUAD -> POSTAL -> 0.7
NUMBER -> POSTAL -> 0.4
NATION QUAD -> IGNORE POSTAL -> 0.7
NATION NUMBER -> IGNORE POSTAL -> 0.4
NATION DASH QUAD -> IGNORE IGNORE POSTAL -> 0.7
NATION DASH NUMBER -> IGNORE IGNORE POSTAL -> 0.4

[streetname]
WORD TYPE -> STREET SUFTYP -> 0.7
WORD WORD TYPE -> STREET STREET SUFTYP -> 0.6
WORD WORD WORD TYPE -> STREET STREET STREET SUFTYP -> 0.5
WORD WORD WORD WORD TYPE -> STREET STREET STREET STREET SUFTYP -> 0.4
WORD -> STREET -> 0.4
WORD WORD -> STREET STREET -> 0.3
WORD WORD WORD -> STREET STREET STREET -> 0.2
WORD WORD WORD WORD -> STREET STREET STREET STREET -> 0.1

[housenumber]
NUMBER -> HOUSE -> 0.5
NUMBER SINGLE -> HOUSE HOUSE -> 0.6
NUMBER DOUBLE -> HOUSE HOUSE -> 0.5
NUMBER SLASH NUMBER -> HOUSE HOUSE HOUSE -> 0.7
NUMBER DASH NUMBER -> HOUSE HOUSE HOUSE -> 0.7
NUMBER SLASH NUMBER SINGLE -> HOUSE HOUSE HOUSE HOUSE -> 0.7
NUMBER DASH NUMBER SINGLE -> HOUSE HOUSE HOUSE HOUSE -> 0.7
NUMBER SINGLE SINGLE -> HOUSE HOUSE HOUSE -> 0.7

[unit]
UNITH UNITT -> UNITH UNITT -> 0.8
UNITH WORD -> UNITH UNIT -> 0.7
UNITH NUMBER -> UNITH UNITT -> 0.7
UNITH MIXED -> UNITH UNITT -> 0.7
UNITH WORD WORD -> UNITH UNITT UNITT -> 0.4

[pobox]
BOXH NUMBER -> BOXH BOXT -> 0.7
BOXH NUMBER WORD -> BOXH BOXT BOXT -> 0.7
BOXH NUMBER WORD WORD -> BOXH BOXT BOXT BOXT -> 0.7

[city]
DIRECT -> CITY -> 0.5
CITY -> CITY -> 0.9
WORD -> CITY -> 0.5

[country]
NATION -> NATION -> 0.9


".

(** data/sample/portugal.gmr:1-92 *)
Definition gmr_portugal : string :=
"# portugal.grammar
# Initial grammar for Portugal
# Author: Stephen Woodbridge <woodbri@imaptools.com>

[ADDRESS]
@micro @macro
#@placename @micro @macro

[micro]
@streetname @housenumber
@unit @streetname @housenumber
@pobox

[macro]
@locality @postal @citywords @region @country
@locality @postal @citywords @country
@locality @postal @citywords @region
@locality @postal @citywords
@postal @citywords @region @country
@postal @citywords @country
@postal @citywords @region
@postal @citywords

[locality]
@word @locality
@word

[word]
WORD -> EXTRA -> 0.3

[citywords]
@city @citywords
@city

[placename]
PLACEN -> BLDNG -> 0.7
PLACEN WORD -> BLDNG BLDNG -> 0.6
PLACEN WORD WORD -> BLDNG BLDNG BLDNG -> 0.5
PLACEN WORD WORD WORD -> BLDNG BLDNG BLDNG BLDNG -> 0.4

[postal]
QUAD -> POSTAL -> 0.7
NUMBER -> POSTAL -> 0.4
QUAD DASH NUMBER -> POSTAL IGNORE POSTAL -> 0.7
NUMBER DASH NUMBER -> POSTAL IGNORE POSTAL -> 0.4
SINGLE QUAD -> IGNORE POSTAL -> 0.7
SINGLE NUMBER -> IGNORE POSTAL -> 0.4
SINGLE QUAD DASH NUMBER -> IGNORE POSTAL IGNORE POSTAL -> 0.7
SINGLE NUMBER DASH NUMBER -> IGNORE POSTAL IGNORE POSTAL -> 0.4

[streetname]
TYPE WORD -> PRETYP STREET -> 0.7
TYPE WORD WORD -> PRETYP STREET STREET -> 0.6
TYPE WORD WORD WORD -> PRETYP STREET STREET STREET -> 0.5
TYPE WORD WORD WORD WORD -> PRETYP STREET STREET STREET STREET -> 0.4
WORD -> STREET -> 0.4
WORD WORD -> STREET STREET -> 0.3
WORD WORD WORD -> STREET STREET STREET -> 0.2
WORD WORD WORD WORD -> STREET STREET STREET STREET -> 0.1

[housenumber]
NUMBER -> HOUSE -> 0.5
NUMBER SINGLE -> HOUSE HOUSE -> 0.6
NUMBER DOUBLE -> HOUSE HOUSE -> 0.5
NUMBER DASH SINGLE -> HOUSE HOUSE HOUSE -> 0.7
NUMBER DASH NUMBER -> HOUSE HOUSE HOUSE -> 0.7
NUMBER DASH NUMBER SINGLE -> HOUSE HOUSE HOUSE HOUSE -> 0.7
NUMBER SLASH SINGLE -> HOUSE HOUSE HOUSE -> 0.7
NUMBER SLASH NUMBER -> HOUSE HOUSE HOUSE -> 0.7
NUMBER SLASH NUMBER SINGLE -> HOUSE HOUSE HOUSE HOUSE -> 0.7

[unit]
UNITH NUMBER -> UNITH UNITT -> 0.7
UNITH NUMBER SINGLE -> UNITH UNITT UNITT -> 0.7
UNITH NUMBER UNITH NUMBER -> UNITH UNITT UNITH UNITT -> 0.7
UNITH WORD -> UNITH UNITT -> 0.7
UNITH NUMBER SINGLE UNITH NUMBER -> UNITH UNITT UNITT UNITH UNITT -> 0.7

[pobox]
BOXH NUMBER -> BOXH BOXT -> 0.7

[city]
CITY -> CITY -> 0.9
WORD -> CITY -> 0.5

[region]
PROV -> PROV -> 0.9

[country]
NATION -> NATION -> 0.9


".

(** data/sample/san_marino.gmr:1-69 *)
Definition gmr_san_marino : string :=
"# italy.grammar
# Initial grammar for Italy
# Author: Stephen Woodbridge <woodbri@imaptools.com>

[ADDRESS]
@micro @macro
#@placename @micro @macro

[micro]
@streetname @housenumber
@pobox

[macro]
@postal @citywords @country
@postal @citywords

[citywords]
@city @citywords
@city

[placename]
PLACEN -> BLDNG -> 0.7
PLACEN WORD -> BLDNG BLDNG -> 0.6
PLACEN WORD WORD -> BLDNG BLDNG BLDNG -> 0.5
PLACEN WORD WORD WORD -> BLDNG BLDNG BLDNG BLDNG -> 0.4
BUILDT -> BLDNG -> 0.7
BUILDT WORD -> BLDNG BLDNG -> 0.6
BUILDT WORD WORD -> BLDNG BLDNG BLDNG -> 0.5
BUILDT WORD WORD WORD -> BLDNG BLDNG BLDNG BLDNG -> 0.4

[postal]
QUINT -> POSTAL -> 0.7
NUMBER -> POSTAL -> 0.4

[streetname]
WORD TYPE -> STREET SUFTYP -> 0.7
WORD WORD TYPE -> STREET STREET SUFTYP -> 0.6
WORD WORD WORD TYPE -> STREET STREET STREET SUFTYP -> 0.5
WORD WORD WORD WORD TYPE -> STREET STREET STREET STREET SUFTYP -> 0.4
TYPE WORD -> PRETYP STREET -> 0.7
TYPE WORD WORD -> PRETYP STREET STREET -> 0.6
TYPE WORD WORD WORD -> PRETYP STREET STREET STREET -> 0.5
TYPE WORD WORD WORD WORD -> PRETYP STREET STREET STREET STREET -> 0.4
WORD -> STREET -> 0.4
WORD WORD -> STREET STREET -> 0.3
WORD WORD WORD -> STREET STREET STREET -> 0.2
WORD WORD WORD WORD -> STREET STREET STREET STREET -> 0.1

[housenumber]
NUMBER -> HOUSE -> 0.5
NUMBER SINGLE -> HOUSE HOUSE -> 0.6
NUMBER DOUBLE -> HOUSE HOUSE -> 0.5
NUMBER NUMBER -> HOUSE HOUSE -> 0.5
NUMBER DASH NUMBER -> HOUSE HOUSE HOUSE -> 0.7
NUMBER SLASH SINGLE -> HOUSE HOUSE HOUSE -> 0.7
NUMBER SLASH NUMBER -> HOUSE HOUSE HOUSE -> 0.7
NUMBER SLASH NUMBER SINGLE -> HOUSE HOUSE HOUSE HOUSE -> 0.7

[pobox]
BOXH NUMBER -> BOXH BOXT -> 0.7

[city]
CITY -> CITY -> 0.9
WORD -> CITY -> 0.5

[country]
NATION -> NATION -> 0.9


".

(** data/sample/spain.gmr:1-94 *)
Definition gmr_spain : string :=
"# spain.grammar
# Initial grammar for Spain
# Author: Stephen Woodbridge <woodbri@imaptools.com>

[ADDRESS]
@micro @macro
#@placename @micro @macro
@locality @micro @macro
@locality @macro

[micro]
@streetname @housenumber
@streetname @housenumber @unit
@streetname @housenumber @unit @unit
@pobox

[macro]
@postal @citywords @prov @nation
@postal @citywords @nation
@postal @citywords @prov
@postal @citywords
@postal @city @prov @nation
@postal @city @nation
@postal @city @prov
@postal @city

[locality]
@locword @locality
@locword

[locword]
WORD -> EXTRA -> 0.3

[citywords]
@c_word @citywords
@c_word

[city]
CITY -> CITY -> 0.8

[c_word]
WORD -> CITY -> 0.5

[placename]
PLACEN -> BLDNG -> 0.7
PLACEN WORD -> BLDNG BLDNG -> 0.6
PLACEN WORD WORD -> BLDNG BLDNG BLDNG -> 0.5
PLACEN WORD WORD WORD -> BLDNG BLDNG BLDNG BLDNG -> 0.4

[postal]
QUINT -> POSTAL -> 0.7
NUMBER -> POSTAL -> 0.4
SINGLE QUINT -> IGNORE POSTAL -> 0.7
SINGLE NUMBER -> IGNORE POSTAL -> 0.4
SINGLE DASH QUINT -> IGNORE IGNORE POSTAL -> 0.7
SINGLE DASH NUMBER -> IGNORE IGNORE POSTAL -> 0.4

[streetname]
TYPE WORD -> PRETYP STREET -> 0.7
TYPE WORD WORD -> PRETYP STREET STREET -> 0.6
TYPE WORD WORD WORD -> PRETYP STREET STREET STREET -> 0.5
TYPE WORD WORD WORD WORD -> PRETYP STREET STREET STREET STREET -> 0.4
WORD -> STREET -> 0.4
WORD WORD -> STREET STREET -> 0.3
WORD WORD WORD -> STREET STREET STREET -> 0.2
WORD WORD WORD WORD -> STREET STREET STREET STREET -> 0.1

[housenumber]
NUMBER -> HOUSE -> 0.5
NUMBER DASH NUMBER -> HOUSE HOUSE HOUSE -> 0.7
NUMBER DASH NUMBER SINGLE -> HOUSE HOUSE HOUSE HOUSE -> 0.7
NUMBER DASH NUMBER UNITH -> HOUSE IGNORE UNITT IGNORE -> 0.7
NUMBER WORD SINGLE -> HOUSE UNITT UNITT -> 0.5

[unit]
UNITH NUMBER -> UNITH UNITT -> 0.7
NUMBER UNITH -> UNITT UNITH -> 0.7
NUMBER UNITH SINGLE -> UNITT UNITH UNITT -> 0.7
UNITH NUMBER NUMBER UNITH -> UNITH UNITT UNITT IGNORE -> 0.7
UNITH NUMBER WORD -> UNITH UNITT UNITT -> 0.7
UNITH NUMBER SINGLE -> UNITH UNITT UNITT -> 0.7
UNITH NUMBER NUMBER UNITH SINGLE -> UNITH UNITT UNITT IGNORE UNITT -> 0.7
UNITH NUMBER WORD SINGLE -> UNITH UNITT UNITT UNITT -> 0.7

[pobox]
BOXH NUMBER -> BOXH BOXT -> 0.7

[prov]
PROV -> PROV -> 0.9

[nation]
NATION -> NATION -> 0.9


".

(** data/sample/sweden.gmr:1-70 *)
Definition gmr_sweden : string :=
"# sweden.grammar
# Initial grammar for Sweden
# Author: Stephen Woodbridge <woodbri@imaptools.com>

[ADDRESS]
@micro @macro
#@placename @micro @macro

[micro]
@streetname @housenumber
@streetname @housenumber @unit
@pobox

[macro]
@postal @citywords @country
@postal @citywords

[citywords]
@city @citywords
@city

[placename]
PLACEN -> BLDNG -> 0.7
PLACEN WORD -> BLDNG BLDNG -> 0.6
PLACEN WORD WORD -> BLDNG BLDNG BLDNG -> 0.5
PLACEN WORD WORD WORD -> BLDNG BLDNG BLDNG BLDNG -> 0.4
BUILDT -> BLDNG -> 0.7
BUILDT WORD -> BLDNG BLDNG -> 0.6
BUILDT WORD WORD -> BLDNG BLDNG BLDNG -> 0.5
BUILDT WORD WORD WORD -> BLDNG BLDNG BLDNG BLDNG -> 0.4

[postal]
QUINT -> POSTAL -> 0.7
NUMBER -> POSTAL -> 0.4
NUMBER NUMBER -> POSTAL POSTAL -> 0.4
NATION DASH QUINT -> IGNORE IGNORE POSTAL -> 0.7
NATION DASH NUMBER -> IGNORE IGNORE POSTAL -> 0.4
NATION DASH NUMBER NUMBER -> IGNORE IGNORE POSTAL POSTAL -> 0.4

[streetname]
WORD TYPE -> STREET SUFTYP -> 0.7
WORD WORD TYPE -> STREET STREET SUFTYP -> 0.6
WORD WORD WORD TYPE -> STREET STREET STREET SUFTYP -> 0.5
WORD WORD WORD WORD TYPE -> STREET STREET STREET STREET SUFTYP -> 0.4
WORD -> STREET -> 0.4
WORD WORD -> STREET STREET -> 0.3
WORD WORD WORD -> STREET STREET STREET -> 0.2
WORD WORD WORD WORD -> STREET STREET STREET STREET -> 0.1

[housenumber]
NUMBER -> HOUSE -> 0.5

[unit]
UNITH UNITT -> UNITH UNITT -> 0.8
UNITH WORD -> UNITH UNIT -> 0.7
UNITH NUMBER -> UNITH UNITT -> 0.7
UNITH MIXED -> UNITH UNITT -> 0.7
UNITH WORD WORD -> UNITH UNITT UNITT -> 0.4

[pobox]
BOXH NUMBER -> BOXH BOXT -> 0.7

[city]
CITY -> CITY -> 0.9
WORD -> CITY -> 0.5

[country]
NATION -> NATION -> 0.9


".

(** data/sample/switzerland.gmr:1-76 *)
Definition gmr_switzerland : string :=
"# switzerland.grammar
# Initial grammar for Switzerland
# Author: Stephen Woodbridge <woodbri@imaptools.com>

[ADDRESS]
@micro @macro
@micro @pobox @macro
#@placename @micro @macro

[micro]
@streetname @housenumber
@streetname @housenumber @unit
@pobox

[macro]
@postal @citywords @region @country
@postal @citywords @country
@postal @citywords @region
@postal @citywords

[citywords]
@city @citywords
@city

[city]
DIRECT -> CITY -> 0.5
CITY -> CITY -> 0.9
WORD -> CITY -> 0.5

[placename]
PLACEN -> BLDNG -> 0.7
PLACEN WORD -> BLDNG BLDNG -> 0.6
PLACEN WORD WORD -> BLDNG BLDNG BLDNG -> 0.5
PLACEN WORD WORD WORD -> BLDNG BLDNG BLDNG BLDNG -> 0.4

[postal]
QUAD -> POSTAL -> 0.7
NUMBER -> POSTAL -> 0.4

[streetname]
TYPE WORD -> PRETYP STREET -> 0.7
TYPE WORD WORD -> PRETYP STREET STREET -> 0.6
TYPE WORD WORD WORD -> PRETYP STREET STREET STREET -> 0.5
TYPE WORD WORD WORD WORD -> PRETYP STREET STREET STREET STREET -> 0.5
WORD TYPE -> STREET SUFTYP -> 0.7
WORD WORD TYPE -> STREET STREET SUFTYP -> 0.6
WORD WORD WORD TYPE -> STREET STREET STREET SUFTYP -> 0.5
WORD WORD WORD WORD TYPE -> STREET STREET STREET STREET SUFTYP -> 0.4
WORD -> STREET -> 0.4
WORD WORD -> STREET STREET -> 0.3
WORD WORD WORD -> STREET STREET STREET -> 0.2
WORD WORD WORD WORD -> STREET STREET STREET STREET -> 0.1

[housenumber]
NUMBER -> HOUSE -> 0.5
NUMBER SINGLE -> HOUSE HOUSE -> 0.6
NUMBER DOUBLE -> HOUSE HOUSE -> 0.5

[unit]
UNITH UNITT -> UNITH UNITT -> 0.8
UNITH WORD -> UNITH UNIT -> 0.7
UNITH NUMBER -> UNITH UNITT -> 0.7
UNITH MIXED -> UNITH UNITT -> 0.7
UNITH WORD WORD -> UNITH UNITT UNITT -> 0.4

[pobox]
BOXH NUMBER -> BOXH BOXT -> 0.7

[region]
PROV -> PROV -> 0.9
NUMBER -> IGNORE -> 0.3

[country]
NATION -> NATION -> 0.9


".

(** data/sample/usa.gmr:1-180 *)
Definition gmr_usa : string :=
"# usa.grammar
# Initial grammar for United States of America
# Author: Stephen Woodbridge <woodbri@imaptools.com>

[ADDRESS]
@micro @macro
#@building @micro @macro

[building]
@buildt @buildn

[buildt]
BUILDT -> BLDNG -> 0.4
PLACEN -> BLDNG -> 0.4

[buildn]
WORD -> BLDNG -> 0.4
WORD WORD -> BLDNG BLDNG -> 0.3
WORD WORD WORD -> BLDNG BLDNG BLDNG -> 0.2
WORD WORD WORD WORD -> BLDNG BLDNG BLDNG BLDNG -> 0.1

[micro]
@housenum @street @unit
@housenum @street
@ruralroute
@ruralroute @pobox
@pobox

[macro]
@city @prov @postal @nation
@city @prov @postal
@city @prov @nation
@city @prov

[pobox]
BOXH NUMBER -> BOXH BOXT -> 0.7
BOXH NUMBER SINGLE -> BOXH BOXT BOXT -> 0.7

[housenum]
NUMBER SLASH SINGLE -> HOUSE HOUSE HOUSE -> 0.3
NUMBER SLASH DOUBLE -> HOUSE HOUSE HOUSE -> 0.3
NUMBER FRACT -> HOUSE HOUSE -> 0.3
NUMBER SINGLE -> HOUSE HOUSE -> 0.3
NUMBER DOUBLE -> HOUSE HOUSE -> 0.3
MILE NUMBER -> HOUSE HOUSE -> 0.1
NUMBER MILE -> HOUSE HOUSE -> 0.1
NUMBER -> HOUSE -> 0.3
FRACT -> HOUSE -> 0.3
MIXED -> HOUSE -> 0.3
DIRECT NUMBER DIRECT NUMBER -> HOUSE HOUSE HOUSE HOUSE -> 0.4
DIRECT NUMBER NUMBER -> HOUSE HOUSE HOUSE -> 0.4
DIRECT NUMBER -> HOUSE HOUSE -> 0.4

[street]
@prefixtype @basename @suffixtype
@prefix @road @basename @suffix
@prefix @road @basename
@road @basename @suffix
@prefixtype @basename
@road @basename
@basename @suffixtype
@basename

[basename]
SINGLE AMPERS SINGLE WORD WORD -> STREET STREET STREET STREET STREET -> 0.5
SINGLE AMPERS SINGLE WORD -> STREET STREET STREET STREET -> 0.5
SINGLE AMPERS SINGLE -> STREET STREET STREET -> 0.5
WORD AMPERS WORD -> STREET STREET STREET -> 0.5
WORD WORD WORD WORD WORD -> STREET STREET STREET STREET STREET -> 0.1
WORD WORD WORD WORD -> STREET STREET STREET STREET -> 0.1
WORD WORD WORD -> STREET STREET STREET -> 0.1
WORD WORD -> STREET STREET -> 0.1
ORD -> STREET -> 0.4
SINGLE NUMBER -> STREET STREET -> 0.4
DOUBLE NUMBER -> STREET STREET -> 0.4
SINGLE WORD -> STREET STREET -> 0.3
SINGLE SINGLE WORD -> STREET STREET STREET -> 0.3
NUMBER QUALIF -> STREET QUALIF -> 0.5
NUMBER SINGLE -> STREET STREET -> 0.4
NUMBER DOUBLE -> STREET STREET -> 0.3
NUMBER WORD -> STREET STREET -> 0.3
NUMBER -> STREET -> 0.3
SINGLE -> STREET -> 0.3
DOUBLE -> STREET -> 0.3
MIXED -> STREET -> 0.3
WORD -> STREET -> 0.2
NUMBER FRACT -> STREET STREET -> 0.1
TYPE -> STREET -> 0.1

[prefixtype]
@prefix @ptype
@prefix
@ptype

[suffixtype]
@stype @suffix
@stype
@suffix

[prefix]
QUALIF DIRECT -> QUALIF PREDIR -> 0.8
DIRECT QUALIF -> PREDIR QUALIF -> 0.8
QUALIF -> QUALIF -> 0.8
DIRECT -> PREDIR -> 0.7

[suffix]
DIRECT QUALIF -> SUFDIR QUALIF -> 0.8
QUALIF DIRECT -> QUALIF SUFDIR -> 0.8
DIRECT -> SUFDIR -> 0.7
QUALIF -> QUALIF -> 0.8

[ptype]
TYPE -> PRETYP -> 0.7

[stype]
TYPE -> SUFTYP -> 0.7

[ruralroute]
RR NUMBER SINGLE -> RR RR RR -> 0.3
RR NUMBER DOUBLE -> RR RR RR -> 0.3
RR NUMBER MIXED -> RR RR RR -> 0.3
#RR NUMBER WORD -> RR RR RR -> 0.2
RR SINGLE NUMBER -> RR RR RR -> 0.3
RR DOUBLE NUMBER -> RR RR RR -> 0.3
RR MIXED NUMBER -> RR RR RR -> 0.3
RR WORD NUMBER -> RR RR RR -> 0.2
RR NUMBER -> RR RR -> 0.3
RR SINGLE -> RR RR -> 0.3
RR DOUBLE -> RR RR -> 0.3
RR MIXED -> RR RR -> 0.3
#RR WORD -> RR RR -> 0.1
RR -> RR -> 0.8

[road]
PROV ROAD -> EXTRA PRETYP -> 0.8
ROAD -> PRETYP -> 0.8
WORD ROAD -> EXTRA PRETYP -> 0.6

[unit]
UNITH NUMBER -> UNITH UNITT -> 0.6
UNITH NUMBER WORD -> UNITH UNITT UNITT -> 0.6
UNITH UNITH -> UNITH UNITT -> 0.6
UNITH WORD WORD WORD -> UNITH UNITT UNITT UNITT -> 0.4
UNITH WORD WORD -> UNITH UNITT UNITT -> 0.4
UNITH WORD -> UNITH UNITT -> 0.4

[city]
CITY -> CITY -> 0.8
DIRECT CITY -> CITY CITY -> 0.6
DIRECT WORD WORD WORD WORD -> CITY CITY CITY CITY CITY -> 0.3
DIRECT WORD WORD WORD -> CITY CITY CITY CITY -> 0.4
DIRECT WORD WORD -> CITY CITY CITY -> 0.5
DIRECT WORD -> CITY CITY -> 0.5
WORD WORD WORD WORD -> CITY CITY CITY CITY -> 0.2
WORD WORD WORD -> CITY CITY CITY -> 0.2
WORD WORD -> CITY CITY -> 0.1
WORD -> CITY -> 0.1

[postal]
QUINT -> POSTAL -> 0.5
NUMBER -> POSTAL -> 0.3
QUINT DASH QUAD -> POSTAL IGNORE POSTAL -> 0.7
NUMBER DASH NUMBER -> POSTAL IGNORE POSTAL -> 0.4
QUINT QUAD -> POSTAL POSTAL -> 0.7
NUMBER NUMBER -> POSTAL POSTAL -> 0.4
PCH PCT -> POSTAL POSTAL -> 0.7
PCH -> POSTAL -> 0.6

[prov]
PROV -> PROV -> 0.8

[nation]
NATION -> NATION -> 0.8

#[atsign]
#ATSIGN -> ATSIGN -> 0.8

#[ampersand]
#AMPERS -> STREET -> 0.7

".

(** data/sample/vatican.gmr:1-55 *)
Definition gmr_vatican : string :=
"# vatican.grammar
# Initial grammar for Vatican
# Author: Stephen Woodbridge <woodbri@imaptools.com>

[ADDRESS]
@micro @macro
@placename @micro @macro
@placename @macro
@placename @streetname @macro

[micro]
@streetname @housenumber
@pobox

[macro]
@postal @city @country
@postal @city

[placename]
PLACEN -> BLDNG -> 0.7
PLACEN WORD -> BLDNG BLDNG -> 0.6
PLACEN WORD WORD -> BLDNG BLDNG BLDNG -> 0.5
PLACEN WORD WORD WORD -> BLDNG BLDNG BLDNG BLDNG -> 0.4

[postal]
QUINT -> POSTAL -> 0.7
NUMBER -> POSTAL -> 0.4

[streetname]
TYPE WORD -> PRETYP STREET -> 0.7
TYPE WORD WORD -> PRETYP STREET STREET -> 0.6
TYPE WORD WORD WORD -> PRETYP STREET STREET STREET -> 0.5
TYPE WORD WORD WORD WORD -> PRETYP STREET STREET STREET STREET -> 0.4
WORD -> STREET -> 0.4
WORD WORD -> STREET STREET -> 0.3
WORD WORD WORD -> STREET STREET STREET -> 0.2
WORD WORD WORD WORD -> STREET STREET STREET STREET -> 0.1

[housenumber]
NUMBER -> HOUSE -> 0.5
NUMBER SINGLE -> HOUSE HOUSE -> 0.6
NUMBER DOUBLE -> HOUSE HOUSE -> 0.5
NUMBER DASH NUMBER -> HOUSE HOUSE HOUSE -> 0.7

[pobox]
BOXH NUMBER -> BOXH BOXT -> 0.7

[city]
CITY -> CITY -> 0.9
WORD -> CITY -> 0.5

[country]
NATION -> NATION -> 0.9


".

(** data/sample/austria.lex:1-113 *)
Definition lex_austria : string :=
"LEXICON:	lex-austria.txt	GER	de_AT
LEXENTRY:	AG	AG	PLACEN	DETACH
LEXENTRY:	AKTIEN	AKTIEN	PLACEN	DETACH
LEXENTRY:	AKTIEN-GESELLSCHAFT	AKTIEN-GESELLSCHAFT	PLACEN	DETACH
LEXENTRY:	AKTIENGESELLSCHAFT	AKTIENGESELLSCHAFT	PLACEN	DETACH
LEXENTRY:	ALLEE	ALLEE	TYPE	ATT_SUF,DET_SUF
LEXENTRY:	ANSCHLUSSSTELLE	ANSCHLUSSSTELLE	TYPE	DET_PRE
LEXENTRY:	AT	AUSTRIA	NATION	DETACH
LEXENTRY:	AUSTRIA	AUSTRIA	NATION	DETACH
LEXENTRY:	AUT	AUSTRIA	NATION	DETACH
LEXENTRY:	AUTOBAHNDREIECK	AUTOBAHNDREIECK	TYPE	DET_PRE
LEXENTRY:	AUTOBAHNKREUZ	AUTOBAHNKREUZ	TYPE	DET_PRE
LEXENTRY:	AVENUE	AVENUE	TYPE	DET_SUF
LEXENTRY:	BACH	BACH	TYPE	ATT_SUF,DET_SUF
LEXENTRY:	BD	BOULEVARD	TYPE	ATT_SUF
LEXENTRY:	BD.	BOULEVARD	TYPE	ATT_SUF
LEXENTRY:	BERG	BERG	TYPE	ATT_SUF,DET_SUF
LEXENTRY:	BERGWEG	BERGWEG	TYPE	ATT_SUF,DET_SUF
LEXENTRY:	BETRIEB	BETRIEB	PLACEN	DETACH
LEXENTRY:	BGB	BGB	PLACEN	DETACH
LEXENTRY:	BOGEN	BOGEN	TYPE	ATT_SUF
LEXENTRY:	BOULEVARD	BOULEVARD	TYPE	ATT_SUF
LEXENTRY:	BRUCH	BRUCH	TYPE	ATT_SUF
LEXENTRY:	BRUCKE	BRÜCKE	TYPE	DET_SUF
LEXENTRY:	BRÜCKE	BRÜCKE	TYPE	ATT_SUF,DET_SUF
LEXENTRY:	BURG	BURG	TYPE	ATT_SUF,DET_SUF
LEXENTRY:	BÜHL	BÜHL	TYPE	ATT_SUF
LEXENTRY:	BÜHL 	BÜHL	TYPE	ATT_SUF
LEXENTRY:	CH	CHAUSSEE	TYPE	ATT_SUF
LEXENTRY:	CH.	CHAUSSEE	TYPE	ATT_SUF
LEXENTRY:	CHAUSSEE	CHAUSSEE	TYPE	ATT_SUF
LEXENTRY:	CO	CO	PLACEN	DETACH
LEXENTRY:	DAMM	DAMM	TYPE	ATT_SUF,DET_SUF
LEXENTRY:	DOKTOR	DOKTOR	WORD	DETACH
LEXENTRY:	Dr.	DOKTOR	WORD	DETACH
LEXENTRY:	EG	EG	PLACEN	DETACH
LEXENTRY:	EINZELFIRMA	EINZELFIRMA	PLACEN	DETACH
LEXENTRY:	EINZELUNTERNEHMEN	EINZELUNTERNEHMEN	PLACEN	DETACH
LEXENTRY:	ENGETRAGENER	ENGETRAGENER	PLACEN	DETACH
LEXENTRY:	EV	EV	PLACEN	DETACH
LEXENTRY:	FELD	FELD	TYPE	ATT_SUF,DET_SUF
LEXENTRY:	FIRMA	FIRMA	PLACEN	DETACH
LEXENTRY:	GANG	GANG	TYPE	ATT_SUF
LEXENTRY:	GARTEN	GARTEN	TYPE	ATT_SUF,DET_SUF
LEXENTRY:	GASSCHEN	GÄSSCHEN	TYPE	ATT_SUF
LEXENTRY:	GASSE	GASSE	TYPE	ATT_SUF,DET_SUF
LEXENTRY:	GBR	GBR	PLACEN	DETACH
LEXENTRY:	GENOSSENSCHAFT	GENOSSENSCHAFT	PLACEN	DETACH
LEXENTRY:	GESELLSCHAFT	GESELLSCHAFT	PLACEN	DETACH
LEXENTRY:	GMBH	GMBH	PLACEN	DETACH
LEXENTRY:	GRABEN	GRABEN	TYPE	ATT_SUF,DET_SUF
LEXENTRY:	GUTERWEG	GÜTERWEG	TYPE	DET_PRE
LEXENTRY:	GÄSSCHEN	GÄSSCHEN	TYPE	ATT_SUF
LEXENTRY:	GÜTERWEG	GÜTERWEG	TYPE	DET_PRE
LEXENTRY:	HAFEN	HAFEN	TYPE	ATT_SUF
LEXENTRY:	HANDELSGESELLSCHAFT	HANDELSGESELLSCHAFT	PLACEN	DETACH
LEXENTRY:	HEIDE	HEIDE	TYPE	DET_SUF
LEXENTRY:	HOF	HOF	TYPE	ATT_SUF,DET_SUF
LEXENTRY:	HOFWEG	HOFWEG	TYPE	DET_SUF
LEXENTRY:	HOHE	HÖHE	TYPE	ATT_SUF,DET_SUF
LEXENTRY:	HÖHE	HÖHE	TYPE	ATT_SUF,DET_SUF
LEXENTRY:	KAI	KAI	TYPE	ATT_SUF,DET_SUF
LEXENTRY:	KAMP	KAMP	TYPE	ATT_SUF
LEXENTRY:	KANAL	KANAL	TYPE	ATT_SUF,DET_SUF
LEXENTRY:	KEHRE	KEHRE	TYPE	ATT_SUF
LEXENTRY:	KG	KG	PLACEN	DETACH
LEXENTRY:	KGAA	KGAA	PLACEN	DETACH
LEXENTRY:	KOMMANDITGESELLSCHAFT	KOMMANDITGESELLSCHAFT	PLACEN	DETACH
LEXENTRY:	KREMS AN DER DONAU	KREMS AN DER DONAU	WORD	DETACH
LEXENTRY:	KREMS/DONAU	KREMS AN DER DONAU	WORD	DETACH
LEXENTRY:	LANDSTRASSE	LANDSTRASSE	TYPE	DET_SUF
LEXENTRY:	MARKT	MARKT	TYPE	ATT_SUF,DET_SUF
LEXENTRY:	MBH	MBH	PLACEN	DETACH
LEXENTRY:	OBER-GRAFENDORF	OBER-GRAFENDORF	WORD	DETACH
LEXENTRY:	OBERGRAFENDORF	OBER-GRAFENDORF	WORD	DETACH
LEXENTRY:	OHG	OHG	PLACEN	DETACH
LEXENTRY:	PARK	PARK	TYPE	ATT_SUF,DET_SUF
LEXENTRY:	PASSAGE	PASSAGE	TYPE	ATT_SUF
LEXENTRY:	PFAD	PFAD	TYPE	ATT_SUF
LEXENTRY:	PL	PLATZ	TYPE	ATT_PRE,ATT_SUF,DET_PRE,DET_SUF
LEXENTRY:	PL.	PLATZ	TYPE	ATT_PRE,ATT_SUF,DET_PRE,DET_SUF
LEXENTRY:	PLATZ	PLATZ	TYPE	ATT_PRE,ATT_SUF,DET_PRE,DET_SUF
LEXENTRY:	POSTFACH	POSTFACH	BOXH	DETACH
LEXENTRY:	PROMENADE	PROMENADE	TYPE	ATT_SUF,DET_SUF
LEXENTRY:	RING	RING	TYPE	ATT_SUF,DET_SUF
LEXENTRY:	STEG	STEG	TYPE	ATT_SUF,DET_SUF
LEXENTRY:	STEIG	STEIG	TYPE	ATT_SUF,DET_SUF
LEXENTRY:	STEIGE	STEIGE	TYPE	ATT_SUF
LEXENTRY:	STEIN	STEIN	TYPE	ATT_SUF,DET_SUF
LEXENTRY:	STIEG	STIEG	TYPE	ATT_SUF
LEXENTRY:	STIEGE	STIEGE	TYPE	ATT_SUF,DET_SUF
LEXENTRY:	STIFTUNG	STIFTUNG	PLACEN	DETACH
LEXENTRY:	STR	STRASSE	TYPE	ATT_PRE,ATT_SUF,DET_PRE,DET_SUF
LEXENTRY:	STR.	STRASSE	TYPE	ATT_PRE,ATT_SUF,DET_PRE,DET_SUF
LEXENTRY:	STRA	STRASSE	TYPE	ATT_PRE,ATT_SUF
LEXENTRY:	STRA.	STRASSE	TYPE	ATT_PRE,ATT_SUF
LEXENTRY:	STRASSE	STRASSE	TYPE	ATT_PRE,ATT_SUF,DET_PRE,DET_SUF
LEXENTRY:	STRAßE	STRASSE	TYPE	ATT_PRE,ATT_SUF,DET_PRE,DET_SUF
LEXENTRY:	TAL	TAL	TYPE	ATT_SUF
LEXENTRY:	TEICH	TEICH	TYPE	ATT_SUF
LEXENTRY:	TOR	TOR	TYPE	ATT_SUF,DET_SUF
LEXENTRY:	TUNNEL	TUNNEL	TYPE	ATT_SUF,DET_SUF
LEXENTRY:	UFER	UFER	TYPE	ATT_SUF
LEXENTRY:	VEB	VEB	PLACEN	DETACH
LEXENTRY:	VEREIN	VEREIN	PLACEN	DETACH
LEXENTRY:	VOLKSEIGNER	VOLKSEIGNER	PLACEN	DETACH
LEXENTRY:	WALL	WALL	TYPE	ATT_SUF
LEXENTRY:	WEG	WEG	TYPE	ATT_PRE,ATT_SUF,DET_PRE,DET_SUF
LEXENTRY:	WIESE	WIESE	TYPE	ATT_SUF
LEXENTRY:	WIESEN	WIESEN	TYPE	ATT_SUF
LEXENTRY:	WINKEL	WINKEL	TYPE	ATT_SUF,DET_SUF
LEXENTRY:	WOHNUNG	WOHNUNG	UNITH	DETACH
LEXENTRY:	ZEILE	ZEILE	TYPE	ATT_SUF,DET_SUF
".

(** data/sample/denmark.lex:1-106 *)
Definition lex_denmark : string :=
"LEXICON:	lex-denmark.txt	DAN	da_DK
LEXENTRY:	AGER	AGER	TYPE	ATT_SUF
LEXENTRY:	AGEREN	AGEREN	TYPE	ATT_SUF
LEXENTRY:	ALL	ALLÉ	TYPE	DET_SUF
LEXENTRY:	ALL.	ALLÉ	TYPE	DET_SUF
LEXENTRY:	ALLE	ALLE	TYPE	DET_SUF
LEXENTRY:	ALLE	ALLÉ	TYPE	ATT_SUF
LEXENTRY:	ALLÉ	ALLÉ	TYPE	ATT_SUF,DET_SUF
LEXENTRY:	ASEN	ÅSEN	TYPE	ATT_SUF
LEXENTRY:	BAG	BAG	TYPE	DET_PRE
LEXENTRY:	BAKKE	BAKKE	TYPE	ATT_SUF,DET_SUF
LEXENTRY:	BAKKEN	BAKKEN	TYPE	ATT_SUF
LEXENTRY:	BJERG	BJERG	TYPE	ATT_SUF
LEXENTRY:	BJERGET	BJERGET	TYPE	ATT_SUF
LEXENTRY:	BO	BO	TYPE	ATT_SUF
LEXENTRY:	BOULEVARD	BOULEVARD	TYPE	DET_SUF
LEXENTRY:	BRINKEN	BRINKEN	TYPE	ATT_SUF
LEXENTRY:	BRO	BRO	TYPE	ATT_SUF
LEXENTRY:	BRYGGE	BRYGGE	TYPE	DET_SUF
LEXENTRY:	BUEN	BUEN	TYPE	ATT_SUF
LEXENTRY:	BYGADE	BYGADE	TYPE	DET_SUF
LEXENTRY:	C	C 	WORD	DETACH
LEXENTRY:	DAL	DAL	TYPE	ATT_SUF
LEXENTRY:	DALEN	DALEN	TYPE	ATT_SUF
LEXENTRY:	DAMMEN	DAMMEN	TYPE	ATT_SUF
LEXENTRY:	DENMARK	DENMARK	NATION	DETACH
LEXENTRY:	DK	DENMARK	NATION	DETACH
LEXENTRY:	DNK	DENMARK	NATION	DETACH
LEXENTRY:	DRAGET	DRAGET	TYPE	ATT_SUF
LEXENTRY:	ENG	ENG	TYPE	ATT_SUF
LEXENTRY:	ENGEN	ENGEN	TYPE	ATT_SUF
LEXENTRY:	FALDET	FALDET	TYPE	ATT_SUF
LEXENTRY:	FOLDEN	FOLDEN	TYPE	ATT_SUF
LEXENTRY:	GADE	GADE	TYPE	ATT_SUF,DET_SUF
LEXENTRY:	GANGEN	GANGEN	TYPE	ATT_SUF
LEXENTRY:	GARD	GÅRD	TYPE	ATT_SUF
LEXENTRY:	GARDEN	GÅRDEN	TYPE	ATT_SUF
LEXENTRY:	GRÆNSEN	GRÆNSEN	TYPE	ATT_SUF
LEXENTRY:	GÅRD	GÅRD	TYPE	ATT_SUF
LEXENTRY:	GÅRDEN	GÅRDEN	TYPE	ATT_SUF
LEXENTRY:	HAVE	HAVE	TYPE	ATT_SUF
LEXENTRY:	HAVEN	HAVEN	TYPE	ATT_SUF
LEXENTRY:	HEGNET	HEGNET	TYPE	ATT_SUF
LEXENTRY:	HOJ	HØJ	TYPE	ATT_SUF
LEXENTRY:	HOLM	HOLM	TYPE	ATT_SUF
LEXENTRY:	HOLMEN	HOLMEN	TYPE	ATT_SUF
LEXENTRY:	HUSENE	HUSENE	TYPE	ATT_SUF
LEXENTRY:	HØJ	HØJ	TYPE	ATT_SUF
LEXENTRY:	K	K 	WORD	DETACH
LEXENTRY:	KAJ	KAJ	TYPE	ATT_SUF
LEXENTRY:	KANAL	KANAL	TYPE	DET_SUF
LEXENTRY:	KRATTET	KRATTET	TYPE	ATT_SUF
LEXENTRY:	KROGEN	KROGEN	TYPE	ATT_SUF
LEXENTRY:	KÆR	KÆR	TYPE	ATT_SUF
LEXENTRY:	KÆRET	KÆRET	TYPE	ATT_SUF,DET_SUF
LEXENTRY:	LEDET	LEDET	TYPE	ATT_SUF
LEXENTRY:	LODDEN	LODDEN	TYPE	ATT_SUF
LEXENTRY:	LOKKEN	LØKKEN	TYPE	ATT_SUF
LEXENTRY:	LUND	LUND	TYPE	ATT_SUF
LEXENTRY:	LÆNGEN	LÆNGEN	TYPE	ATT_SUF
LEXENTRY:	LØKKEN	LØKKEN	TYPE	ATT_SUF
LEXENTRY:	MARKEN	MARKEN	TYPE	ATT_SUF
LEXENTRY:	MOSEN	MOSEN	TYPE	ATT_SUF
LEXENTRY:	N	N	WORD	DETACH
LEXENTRY:	NV	NV	WORD	DETACH
LEXENTRY:	NØ	NØ	WORD	DETACH
LEXENTRY:	OE	OE	WORD	DETACH
LEXENTRY:	PARK	PARK	TYPE	ATT_SUF,DET_SUF
LEXENTRY:	PARKEN	PARKEN	TYPE	ATT_SUF
LEXENTRY:	PASSAGEN	PASSAGEN	TYPE	ATT_SUF
LEXENTRY:	PB	POSTBOKS	BOXH	DETACH
LEXENTRY:	PB.	POSTBOKS	BOXH	DETACH
LEXENTRY:	PLADS	PLADS	TYPE	DET_SUF
LEXENTRY:	PLADSEN	PLADSEN	TYPE	ATT_SUF
LEXENTRY:	PORTEN	PORTEN	TYPE	ATT_SUF
LEXENTRY:	POSTBOKS	POSTBOKS	BOXH	DETACH
LEXENTRY:	POSTBOX	POSTBOKS	BOXH	DETACH
LEXENTRY:	PROMENADEN	PROMENADEN	TYPE	ATT_SUF
LEXENTRY:	RÆKKEN	RÆKKEN	TYPE	ATT_SUF
LEXENTRY:	S	S	WORD	DETACH
LEXENTRY:	SIDEVEJ	SIDEVEJ	TYPE	DET_SUF
LEXENTRY:	SKELLET	SKELLET	TYPE	ATT_SUF
LEXENTRY:	SKOVEN	SKOVEN	TYPE	ATT_SUF
LEXENTRY:	SKRÆNTEN	SKRÆNTEN	TYPE	ATT_SUF
LEXENTRY:	SLETTEN	SLETTEN	TYPE	ATT_SUF
LEXENTRY:	SLIPPEN	SLIPPEN	TYPE	ATT_SUF
LEXENTRY:	STEDET	STEDET	TYPE	ATT_SUF
LEXENTRY:	STIEN	STIEN	TYPE	ATT_SUF
LEXENTRY:	STRÆDE	STRÆDE	TYPE	ATT_SUF
LEXENTRY:	SV	SV	WORD	DETACH
LEXENTRY:	SVINGET	SVINGET	TYPE	ATT_SUF
LEXENTRY:	SØ	SØ	WORD	DETACH
LEXENTRY:	TOFTEN	TOFTEN	TYPE	ATT_SUF
LEXENTRY:	TOPPEN	TOPPEN	TYPE	ATT_SUF
LEXENTRY:	TORV	TORV	TYPE	ATT_SUF
LEXENTRY:	TORVET	TORVET	TYPE	ATT_SUF
LEXENTRY:	V	V	WORD	DETACH
LEXENTRY:	VANG	VANG	TYPE	ATT_SUF,DET_SUF
LEXENTRY:	VANGEN	VANGEN	TYPE	ATT_SUF
LEXENTRY:	VED	VED	TYPE	DET_PRE
LEXENTRY:	VEJ	VEJ	TYPE	ATT_SUF,DET_SUF
LEXENTRY:	VOLDEN	VOLDEN	TYPE	ATT_SUF
LEXENTRY:	VÆNGE	VÆNGE	TYPE	DET_SUF
LEXENTRY:	VÆNGET	VÆNGET	TYPE	ATT_SUF
LEXENTRY:	ÅSEN	ÅSEN	TYPE	ATT_SUF
LEXENTRY:	Ø	Ø	WORD	DETACH
".

(** All grammars. *)
Definition shipped_grammars : list string :=
  [gmr_andorra; gmr_australia; gmr_austria; gmr_belgium; gmr_canada; gmr_denmark; gmr_finland; gmr_france; gmr_germany; gmr_greatbritain; gmr_ireland; gmr_italy; gmr_liechtenstein; gmr_luxembourg; gmr_monaco; gmr_netherlands; gmr_newzealand; gmr_norway; gmr_portugal; gmr_san_marino; gmr_spain; gmr_sweden; gmr_switzerland; gmr_usa; gmr_vatican].
