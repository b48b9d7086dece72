(** Outputs shown in DOCUMENTATION.md of /repo, and the addresses of data/test-usa-patterns, on the model.

    DOCUMENTATION.md:105-168: as_parse with the lexicon of the USA; the tables shown there are what the model gives.  The one
    of lines 175-199, without a filter, is the first of 32 tokenizations now: it was made before phrases were split (C18).
    DOCUMENTATION.md:586-596: a phrase hides a word that overlaps it.

    data/test-usa-patterns lists 226 addresses with the output classes its author wants.  The grammar shipped gives them for
    97; for the others it gives a match with other classes or none (C81 and C82: it has none). *)
From Coq Require Import String List NArith ZArith Bool.
From Verif Require Import Base_model Class_model Uni_model Token_model Rule_model Grammar_model Search_model Sample_model Lexicon_model
  Lexicon_spec Tokenizer_model Archive_model Wrapper_model Shipped_model Shipped_spec.
Import ListNotations.
Local Open Scope string_scope.

(** Lines of data/sample/usa.lex: all that consist of words of the addresses below. *)
Definition lex_usa_words : string :=
"LEXICON:	lex-usa-txt	USA	en_US	
LEXENTRY:	&	AND	AMPERS,WORD,STOPWORD	
LEXENTRY:	-	-	DASH	
LEXENTRY:	1 / 2	1/2	FRACT	
LEXENTRY:	1 / 3	1/3	FRACT	
LEXENTRY:	1 / 4	1/4	FRACT	
LEXENTRY:	1/2	1/2	FRACT	
LEXENTRY:	3 / 4	3/4	FRACT	
LEXENTRY:	3 / 8	3/8	FRACT	
LEXENTRY:	A	A	SINGLE,STOPWORD	
LEXENTRY:	A	ALTERNATE	QUALIF	
LEXENTRY:	APT	APARTMENT	UNITH	
LEXENTRY:	AVE	AVENUE	TYPE	
LEXENTRY:	AVENIDA	AVENIDA	TYPE	
LEXENTRY:	B C	BRITISH COLUMBIA	PROV,WORD,ROAD	
LEXENTRY:	BLVD	BOULEVARD	TYPE	
LEXENTRY:	BOX	BOX	BOXH,WORD	
LEXENTRY:	BUSINESS	BUSINESS	QUALIF,WORD	
LEXENTRY:	BUSINESS PARK	BUSINESS PARK	BUILDT	
LEXENTRY:	C	C	SINGLE	
LEXENTRY:	C / O	CARE OF	DASH	
LEXENTRY:	C D O	COMMERCIAL DEALERSHIP	BUILDT	
LEXENTRY:	C M C	COMMUNITY MAIL CENTRE	BUILDT	
LEXENTRY:	CALIFORNIA	CALIFORNIA	PROV,WORD	
LEXENTRY:	CALLE	CALLE	TYPE	
LEXENTRY:	CIRCLE	CIRCLE	TYPE,WORD	
LEXENTRY:	CLUB	CLUB	TYPE,BUILDT,WORD	
LEXENTRY:	COUNTY	COUNTY	WORD	
LEXENTRY:	COUNTY	COUNTY ROAD	ROAD	
LEXENTRY:	COUNTY HWY	COUNTY HIGHWAY	ROAD	
LEXENTRY:	COUNTY RD	COUNTY ROAD	ROAD,TYPE	
LEXENTRY:	COUNTY ROAD	COUNTY ROAD	ROAD,TYPE	
LEXENTRY:	COUNTY ROUTE	COUNTY ROUTE	ROAD	
LEXENTRY:	COUNTY RT	COUNTY ROUTE	ROAD	
LEXENTRY:	COVE	COVE	TYPE	
LEXENTRY:	CT	CONNECTICUT	PROV,PROV,WORD,ROAD	
LEXENTRY:	CT	COURT	TYPE	
LEXENTRY:	D	D	SINGLE,STOPWORD	
LEXENTRY:	D B A	DBA	WORD	
LEXENTRY:	DR	DOCTOR	WORD	
LEXENTRY:	DR	DRIVE	TYPE	
LEXENTRY:	DRIVE	DRIVE	TYPE	
LEXENTRY:	E	E	SINGLE	
LEXENTRY:	E	EAST	DIRECT	
LEXENTRY:	EAST	EAST	DIRECT	
LEXENTRY:	EAST & WEST	EAST & WEST	WORD	
LEXENTRY:	EAST WEST	EAST WEST	WORD	
LEXENTRY:	EXPY	EXPRESSWAY	TYPE	
LEXENTRY:	FIFTH	5	WORD,ORD	
LEXENTRY:	FOREST	FOREST	WORD	
LEXENTRY:	GREEN	GREEN	WORD,TYPE	
LEXENTRY:	H C	HIGHWAY CONTRACT ROUTE	RR	
LEXENTRY:	HILL	HILL	WORD,TYPE	
LEXENTRY:	HWY	HIGHWAY	ROAD,TYPE	
LEXENTRY:	I	I	SINGLE	
LEXENTRY:	I	INTERSTATE HIGHWAY	ROAD	
LEXENTRY:	I H	INTERSTATE HIGHWAY	ROAD	
LEXENTRY:	LANE	LANE	TYPE	
LEXENTRY:	MA	MANOR	TYPE	
LEXENTRY:	MA	MASSACHUSETTS	PROV,WORD,ROAD	
LEXENTRY:	MANOR	MANOR	TYPE,BUILDT,WORD	
LEXENTRY:	N	N	SINGLE	
LEXENTRY:	N	NORTH	DIRECT	
LEXENTRY:	N A B	NAVAL AIR STATION	WORD,BUILDT	
LEXENTRY:	N A S	NAVAL AIR STATION	WORD,BUILDT	
LEXENTRY:	N E	NORTHEAST	DIRECT	
LEXENTRY:	N W	NORTHWEST	DIRECT	
LEXENTRY:	NORTH	NORTH	DIRECT	
LEXENTRY:	NORTH & SOUTH	NORTH & SOUTH	WORD	
LEXENTRY:	NORTH EAST	NORTHEAST	DIRECT	
LEXENTRY:	NORTH SOUTH	NORTH SOUTH	WORD	
LEXENTRY:	NORTH WEST	NORTHWEST	DIRECT	
LEXENTRY:	O	0	SINGLE	
LEXENTRY:	O	O	STOPWORD	
LEXENTRY:	OF	OF	STOPWORD	
LEXENTRY:	OLD	OLD	QUALIF,WORD	
LEXENTRY:	PARK	PARK	WORD,BUILDT,TYPE	
LEXENTRY:	PIKE	PIKE	TYPE	
LEXENTRY:	PKY	PARKWAY	TYPE	
LEXENTRY:	RD	ROAD	TYPE	
LEXENTRY:	ROAD	ROAD	TYPE	
LEXENTRY:	ROUTE	ROUTE	ROAD,RR,TYPE	
LEXENTRY:	RR	RURAL ROUTE	RR	
LEXENTRY:	RT	ROUTE	ROAD,RR	
LEXENTRY:	RURAL	RURAL	WORD	
LEXENTRY:	RURAL	RURAL ROUTE	RR	
LEXENTRY:	RURAL ROUTE	RURAL ROUTE	RR	
LEXENTRY:	RURAL RT	RURAL ROUTE	RR	
LEXENTRY:	S	S	SINGLE	
LEXENTRY:	S	SOUTH	DIRECT	
LEXENTRY:	S / C	SHOPPING CENTER	BUILDT	
LEXENTRY:	S C	SHOPPING CENTER	BUILDT	
LEXENTRY:	S E	SOUTH EAST	DIRECT	
LEXENTRY:	S RT	STAR ROUTE	ROAD,RR	
LEXENTRY:	S W	SOUTHWEST	DIRECT	
LEXENTRY:	SOUTH	SOUTH	DIRECT	
LEXENTRY:	SOUTH EAST	SOUTHEAST	DIRECT	
LEXENTRY:	SOUTH WEST	SOUTHWEST	DIRECT	
LEXENTRY:	SOUTHWEST	SOUTHWEST	DIRECT	
LEXENTRY:	ST	SAINT	WORD	
LEXENTRY:	ST	STREET	TYPE	
LEXENTRY:	ST EDWARD	SAINT EDWARD	CITY	
LEXENTRY:	ST HWY	STATE HIGHWAY	ROAD	
LEXENTRY:	ST RD	STATE ROAD	ROAD	
LEXENTRY:	ST ROAD	STATE ROAD	ROAD	
LEXENTRY:	ST ROUTE	STAR ROUTE	RR	
LEXENTRY:	ST ROUTE	STATE ROUTE	ROAD	
LEXENTRY:	ST RT	STAR ROUTE	RR	
LEXENTRY:	ST RT	STATE ROUTE	ROAD	
LEXENTRY:	STATE	STATE	WORD	
LEXENTRY:	STATE	STATE ROAD	ROAD	
LEXENTRY:	STATE HWY	STATE HIGHWAY	ROAD	
LEXENTRY:	STATE RD	STATE ROAD	ROAD	
LEXENTRY:	STATE ROAD	STATE ROAD	ROAD	
LEXENTRY:	STATE ROUTE	STATE ROUTE	ROAD	
LEXENTRY:	STATE RT	STATE ROUTE	ROAD	
LEXENTRY:	STREET	STREET	TYPE	
LEXENTRY:	TERRACE	TERRACE	TYPE	
LEXENTRY:	THE	THE	STOPWORD	
LEXENTRY:	TOWER	TOWER	BUILDH,WORD	
LEXENTRY:	TOWER	TOWERS	BUILDT	
LEXENTRY:	US	US	WORD	
LEXENTRY:	US	US ROUTE	ROAD	
LEXENTRY:	US	USA	NATION	
LEXENTRY:	US HWY	US HIGHWAY	ROAD	
LEXENTRY:	US ROUTE	US ROUTE	ROAD	
LEXENTRY:	US RT	US ROUTE	ROAD	
LEXENTRY:	USA	USA	NATION	
LEXENTRY:	W	W	SINGLE	
LEXENTRY:	W	WEST	DIRECT	
LEXENTRY:	WEST	WEST	DIRECT	
".
Definition ok_or {A} (d : A) (o : outcome A) : A := match o with Ok x => x | _ => d end.
Definition usa_x : lexicon := ok_or (new_lexicon []) (get_lexicon ascii_env (utf8 lex_usa_words)).
Definition usa_g : grammar := ok_or (mkGrammar [] [] []) (get_grammar ascii_env sample_atof (s2t gmr_usa)).
Definition en_US : text := s2t "en_US".
Definition as_parse (x : lexicon) (filt a : string) : list (N * text * text * text) :=
  match parse_table (parse_addr ascii_env x en_US (s2t filt) (s2t a)) with
  | Ok l => map (fun r => (pr_seq r, pr_word r, pr_class r, pr_att r)) l
  | _ => []
  end.
Definition row (n : N) (w c : string) := (n, s2t w, s2t c, @nil N).
Definition shown_1 := [row 1 "1/1" "FRACT"; row 2 "RADCLIFF" "WORD"; row 3 "RD" "TYPE"; row 4 "NORTH" "DIRECT"; row 5 "CHELMSFORD" "WORD";
  row 6 "MA" "WORD,TYPE,ROAD,PROV"; row 7 "01863" "NUMBER,QUINT"; row 8 "USA" "NATION"].
Definition shown_2 := [row 1 "1" "NUMBER"; row 2 "/" "SLASH"; row 3 "A" "QUALIF,STOPWORD,SINGLE"; row 4 "RADCLIFF" "WORD"; row 5 "RD" "TYPE";
  row 6 "NORTH" "DIRECT"; row 7 "CHELMSFORD" "WORD"; row 8 "MA" "WORD,TYPE,ROAD,PROV"; row 9 "01863" "NUMBER,QUINT"; row 10 "USA" "NATION"].
Definition shown_3 := [row 1 "1" "NUMBER"; row 2 "/" "SLASH"; row 3 "1" "NUMBER"; row 4 "RADCLIFF" "WORD"; row 5 "RD" "TYPE";
  row 6 "NORTH" "DIRECT"; row 7 "CHELMSFORD" "WORD"; row 8 "MA" "WORD,TYPE,ROAD,PROV"; row 9 "01863" "NUMBER,QUINT"; row 10 "USA" "NATION"].
Definition shown_4 := [row 1 "1" "NUMBER"; row 2 "/" "SLASH"; row 3 "1" "NUMBER"; row 4 " " "SPACE"; row 5 "RADCLIFF" "WORD"; row 6 " " "SPACE";
  row 7 "RD" "TYPE"; row 8 "," "PUNCT"; row 9 "NORTH" "DIRECT"; row 10 " " "SPACE"; row 11 "CHELMSFORD" "WORD"; row 12 "," "PUNCT";
  row 13 "MA" "WORD,TYPE,ROAD,PROV"; row 14 " " "SPACE"; row 15 "01863" "NUMBER,QUINT"; row 16 " " "SPACE"; row 17 "USA" "NATION"].
Example documented_1 : as_parse usa_x "PUNCT,SPACE" "1/1 radcliff rd, north chelmsford, ma 01863 usa" = shown_1.
Proof. vm_compute. reflexivity. Qed.
Example documented_2 : as_parse usa_x "PUNCT,SPACE" "1/a radcliff rd, north chelmsford, ma 01863 usa" = shown_2.
Proof. vm_compute. reflexivity. Qed.
Example documented_3 : as_parse usa_x "PUNCT,SPACE" "1 /1 radcliff rd, north chelmsford, ma 01863 usa" = shown_3.
Proof. vm_compute. reflexivity. Qed.
Example documented_4 :
  firstn 17 (as_parse usa_x "" "1 /1 radcliff rd, north chelmsford, ma 01863 usa") = shown_4 /\
  List.length (ok_or [] (make_phrases ascii_env usa_x en_US [] (s2t "1 /1 radcliff rd, north chelmsford, ma 01863 usa"))) = 32.
Proof. vm_compute. split; reflexivity. Qed.
Definition tab : string := String (Ascii.ascii_of_nat 9) EmptyString.
Definition nl : string := String (Ascii.ascii_of_nat 10) EmptyString.
Definition phrase_x : lexicon :=
  ok_or (new_lexicon []) (get_lexicon ascii_env (s2t ("LEXICON:" ++ tab ++ "p" ++ tab ++ "USA" ++ tab ++ "en_US" ++ tab ++ nl ++
    "LEXENTRY:" ++ tab ++ "AAA BBB" ++ tab ++ "X" ++ tab ++ "CITY" ++ tab ++ nl ++
    "LEXENTRY:" ++ tab ++ "BBB CCC" ++ tab ++ "Y" ++ tab ++ "CITY" ++ tab ++ nl))).
Example documented_5 :
  map (map t_text) (ok_or [] (make_phrases ascii_env phrase_x en_US (s2t "PUNCT,SPACE") (s2t "AAA DDD AAA BBB CCC")))
  = [map s2t ["AAA"; "DDD"; "AAA BBB"; "CCC"]; map s2t ["AAA"; "DDD"; "AAA"; "BBB"; "CCC"]].
Proof. vm_compute. reflexivity. Qed.

(** data/test-usa-patterns:6-459 *)
Definition wanted : list (string * string) := [
("1/2 N Oak ave chelmsford ma usa", "HOUSE PREDIR STREET SUFTYP CITY PROV NATION");
("1/2 Oak Street chelmsford ma usa", "HOUSE STREET SUFTYP CITY PROV NATION");
("10609 southwest California hwy 2 chelmsford ma usa", "HOUSE PREDIR EXTRA PRETYP STREET CITY PROV NATION");
("10609 southwest California hwy 2a chelmsford ma usa", "HOUSE PREDIR EXTRA PRETYP STREET STREET CITY PROV NATION");
("10609 southwest hwy 2 chelmsford ma usa", "HOUSE PREDIR PRETYP STREET CITY PROV NATION");
("10609 southwest hwy 2a chelmsford ma usa", "HOUSE PREDIR PRETYP STREET STREET CITY PROV NATION");
("10609 southwest hwy a chelmsford ma usa", "HOUSE PREDIR PRETYP STREET CITY PROV NATION");
("11YY North main Street chelmsford ma usa", "HOUSE HOUSE PREDIR STREET SUFTYP CITY PROV NATION");
("123 & 27 Oak Street chelmsford ma usa", "HOUSE EXTRA EXTRA STREET SUFTYP CITY PROV NATION");
("123 1 Street chelmsford ma usa", "HOUSE STREET SUFTYP CITY PROV NATION");
("123 1 chelmsford ma usa", "HOUSE STREET CITY PROV NATION");
("123 1/2 Ave of the americas blvd chelmsford ma usa", "HOUSE HOUSE STREET STREET SUFTYP CITY PROV NATION");
("123 1/2 Avenida 1 chelmsford ma usa", "HOUSE HOUSE PRETYP STREET CITY PROV NATION");
("123 1/2 Avenida B chelmsford ma usa", "HOUSE HOUSE PRETYP STREET CITY PROV NATION");
("123 1/2 Avenida Oak chelmsford ma usa", "HOUSE HOUSE PRETYP STREET CITY PROV NATION");
("123 1/2 B Street chelmsford ma usa", "HOUSE HOUSE STREET SUFTYP CITY PROV NATION");
("123 1/2 B chelmsford ma usa", "HOUSE HOUSE STREET CITY PROV NATION");
("123 1/2 Street chelmsford ma usa", "HOUSE STREET SUFTYP CITY PROV NATION");
("123 1/2 Terrace Street chelmsford ma usa", "HOUSE HOUSE STREET SUFTYP CITY PROV NATION");
("123 8 1/2 street chelmsford ma usa", "HOUSE STREET STREET SUFTYP CITY PROV NATION");
("123 Avenida 1 & Green Cove chelmsford ma usa", "HOUSE PRETYP STREET EXTRA EXTRA EXTRA CITY PROV NATION");
("123 Avenida 1 B chelmsford ma usa", "HOUSE PRETYP STREET STREET CITY PROV NATION");
("123 Avenida 1 Oak chelmsford ma usa", "HOUSE PRETYP STREET STREET CITY PROV NATION");
("123 Avenida 1 chelmsford ma usa", "HOUSE PRETYP STREET CITY PROV NATION");
("123 Avenida B 1 chelmsford ma usa", "HOUSE PRETYP STREET STREET CITY PROV NATION");
("123 Avenida B D Oak chelmsford ma usa", "HOUSE PRETYP STREET STREET STREET CITY PROV NATION");
("123 Avenida B Oak chelmsford ma usa", "HOUSE PRETYP STREET STREET CITY PROV NATION");
("123 Avenida B chelmsford ma usa", "HOUSE PRETYP STREET CITY PROV NATION");
("123 Avenida Oak B Park chelmsford ma usa", "HOUSE PRETYP STREET STREET STREET CITY PROV NATION");
("123 Avenida Oak B chelmsford ma usa", "HOUSE PRETYP STREET STREET CITY PROV NATION");
("123 Avenida Oak Street chelmsford ma usa", "HOUSE STREET STREET SUFTYP CITY PROV NATION");
("123 B 1 Street chelmsford ma usa", "HOUSE HOUSE STREET SUFTYP CITY PROV NATION");
("123 B 1 chelmsford ma usa", "HOUSE HOUSE STREET CITY PROV NATION");
("123 B Avenida 1 chelmsford ma usa", "HOUSE HOUSE PRETYP STREET CITY PROV NATION");
("123 B Avenida D Oak chelmsford ma usa", "HOUSE HOUSE PRETYP STREET STREET CITY PROV NATION");
("123 B Avenida D chelmsford ma usa", "HOUSE HOUSE PRETYP STREET CITY PROV NATION");
("123 B Avenida Oak D chelmsford ma usa", "HOUSE HOUSE PRETYP STREET STREET CITY PROV NATION");
("123 B Avenida Oak chelmsford ma usa", "HOUSE HOUSE PRETYP STREET CITY PROV NATION");
("123 B Beck chelmsford ma usa", "HOUSE HOUSE STREET CITY PROV NATION");
("123 B D Oak Street chelmsford ma usa", "HOUSE HOUSE STREET STREET SUFTYP CITY PROV NATION");
("123 B D Oak chelmsford ma usa", "HOUSE HOUSE STREET STREET CITY PROV NATION");
("123 B D Street chelmsford ma usa", "HOUSE HOUSE STREET SUFTYP CITY PROV NATION");
("123 B D chelmsford ma usa", "HOUSE HOUSE STREET CITY PROV NATION");
("123 B North Street chelmsford ma usa", "HOUSE HOUSE STREET SUFTYP CITY PROV NATION");
("123 B North chelmsford ma usa", "HOUSE HOUSE STREET CITY PROV NATION");
("123 B Oak & Park Street chelmsford ma usa", "HOUSE HOUSE STREET STREET STREET SUFTYP CITY PROV NATION");
("123 B Oak D chelmsford ma usa", "HOUSE HOUSE STREET STREET CITY PROV NATION");
("123 B Oak North Street chelmsford ma usa", "HOUSE HOUSE STREET STREET SUFTYP CITY PROV NATION");
("123 B Oak Street chelmsford ma usa", "HOUSE HOUSE STREET SUFTYP CITY PROV NATION");
("123 B Oak Terrace Street chelmsford ma usa", "HOUSE HOUSE STREET STREET SUFTYP CITY PROV NATION");
("123 B Oak West chelmsford ma usa", "HOUSE HOUSE STREET SUFDIR CITY PROV NATION");
("123 B South 1 Street chelmsford ma usa", "HOUSE HOUSE PREDIR STREET SUFTYP CITY PROV NATION");
("123 B South 1 chelmsford ma usa", "HOUSE HOUSE PREDIR STREET CITY PROV NATION");
("123 B South Avenida 1 chelmsford ma usa", "HOUSE HOUSE PREDIR PRETYP STREET CITY PROV NATION");
("123 B South Avenida D chelmsford ma usa", "HOUSE HOUSE PREDIR PRETYP STREET CITY PROV NATION");
("123 B South Avenida Oak chelmsford ma usa", "HOUSE HOUSE PREDIR PRETYP STREET CITY PROV NATION");
("123 B South D Oak Street chelmsford ma usa", "HOUSE HOUSE PREDIR STREET STREET SUFTYP CITY PROV NATION");
("123 B South D Street chelmsford ma usa", "HOUSE HOUSE PREDIR STREET SUFTYP CITY PROV NATION");
("123 B South D chelmsford ma usa", "HOUSE HOUSE PREDIR STREET CITY PROV NATION");
("123 B South North Street chelmsford ma usa", "HOUSE HOUSE PREDIR STREET SUFTYP CITY PROV NATION");
("123 B South North chelmsford ma usa", "HOUSE HOUSE PREDIR STREET CITY PROV NATION");
("123 B South Oak Street chelmsford ma usa", "HOUSE HOUSE PREDIR STREET SUFTYP CITY PROV NATION");
("123 B South Oak Terrace Street chelmsford ma usa", "HOUSE HOUSE PREDIR STREET STREET SUFTYP CITY PROV NATION");
("123 B South Oak chelmsford ma usa", "HOUSE HOUSE PREDIR STREET CITY PROV NATION");
("123 B South Terrace Street chelmsford ma usa", "HOUSE HOUSE PREDIR STREET SUFTYP CITY PROV NATION");
("123 B Street chelmsford ma usa", "HOUSE STREET SUFTYP CITY PROV NATION");
("123 B Terrace Street chelmsford ma usa", "HOUSE HOUSE STREET SUFTYP CITY PROV NATION");
("123 B Terrace West Street chelmsford ma usa", "HOUSE HOUSE STREET SUFDIR SUFTYP CITY PROV NATION");
("123 B Tower Street chelmsford ma usa", "HOUSE HOUSE STREET SUFTYP CITY PROV NATION");
("123 Box road chelmsford ma usa", "HOUSE STREET SUFTYP CITY PROV NATION");
("123 C circle hill drive chelmsford ma usa", "HOUSE HOUSE STREET STREET SUFTYP CITY PROV NATION");
("123 California state route 1 chelmsford ma usa", "HOUSE EXTRA PRETYP STREET CITY PROV NATION");
("123 California state route 1a chelmsford ma usa", "HOUSE EXTRA PRETYP STREET CITY PROV NATION");
("123 California state route B chelmsford ma usa", "HOUSE EXTRA PRETYP STREET CITY PROV NATION");
("123 Calle anything chelmsford ma usa", "HOUSE PRETYP STREET CITY PROV NATION");
("123 Circle hill chelmsford ma usa", "HOUSE PRETYP STREET CITY PROV NATION");
("123 County rd aa chelmsford ma usa", "HOUSE PRETYP STREET CITY PROV NATION");
("123 E 40 N st chelmsford ma usa", "HOUSE PREDIR STREET SUFDIR SUFTYP CITY PROV NATION");
("123 E 40N st chelmsford ma usa", "HOUSE PREDIR STREET SUFDIR SUFTYP CITY PROV NATION");
("123 Forest Park Rd chelmsford ma usa", "HOUSE STREET STREET SUFTYP CITY PROV NATION");
("123 Karen e. lane dr chelmsford ma usa", "HOUSE STREET STREET STREET SUFTYP CITY PROV NATION");
("123 M & M road chelmsford ma usa", "HOUSE STREET STREET STREET SUFTYP CITY PROV NATION");
("123 N business 80 chelmsford ma usa", "HOUSE PREDIR QUALIF STREET CITY PROV NATION");
("123 N old hwy 80 chelmsford ma usa", "HOUSE PREDIR QUALIF PRETYP STREET CITY PROV NATION");
("123 N old hwy 80a chelmsford ma usa", "HOUSE PREDIR QUALIF PRETYP STREET CITY PROV NATION");
("123 North Street chelmsford ma usa", "HOUSE STREET SUFTYP CITY PROV NATION");
("123 North ave of the americas chelmsford ma usa", "HOUSE PREDIR PRETYP STREET CITY PROV NATION");
("123 North chelmsford ma usa", "HOUSE STREET CITY PROV NATION");
("123 Oak & Green chelmsford ma usa", "HOUSE STREET EXTRA EXTRA CITY PROV NATION");
("123 Oak 1 Street chelmsford ma usa", "HOUSE STREET STREET SUFTYP CITY PROV NATION");
("123 Oak B Park Street chelmsford ma usa", "HOUSE STREET STREET STREET SUFTYP CITY PROV NATION");
("123 Oak B Park West chelmsford ma usa", "HOUSE STREET STREET STREET SUFDIR CITY PROV NATION");
("123 Oak B Park chelmsford ma usa", "HOUSE STREET STREET STREET CITY PROV NATION");
("123 Oak B Street chelmsford ma usa", "HOUSE STREET STREET SUFTYP CITY PROV NATION");
("123 Oak B chelmsford ma usa", "HOUSE STREET STREET CITY PROV NATION");
("123 Oak North Street chelmsford ma usa", "HOUSE STREET STREET SUFTYP CITY PROV NATION");
("123 Oak Street chelmsford ma usa", "HOUSE STREET SUFTYP CITY PROV NATION");
("123 Oak Tower Manor Street chelmsford ma usa", "HOUSE STREET STREET STREET SUFTYP CITY PROV NATION");
("123 Oak Tower Park Street chelmsford ma usa", "HOUSE STREET STREET STREET SUFTYP CITY PROV NATION");
("123 Oak Tower Street chelmsford ma usa", "HOUSE STREET STREET SUFTYP CITY PROV NATION");
("123 Oak chelmsford ma usa", "HOUSE STREET CITY PROV NATION");
("123 S 20th w ave chelmsford ma usa", "HOUSE PREDIR STREET SUFDIR SUFTYP CITY PROV NATION");
("123 South 1 Street chelmsford ma usa", "HOUSE PREDIR STREET SUFTYP CITY PROV NATION");
("123 South 1 chelmsford ma usa", "HOUSE PREDIR STREET CITY PROV NATION");
("123 South 1/2 Street chelmsford ma usa", "HOUSE PREDIR STREET SUFTYP CITY PROV NATION");
("123 South 3 1/2 Street chelmsford ma usa", "HOUSE PREDIR STREET STREET SUFTYP CITY PROV NATION");
("123 South Avenida 1 West chelmsford ma usa", "HOUSE PREDIR PRETYP STREET SUFDIR CITY PROV NATION");
("123 South Avenida 1 chelmsford ma usa", "HOUSE PREDIR PRETYP STREET CITY PROV NATION");
("123 South Avenida B Oak chelmsford ma usa", "HOUSE PREDIR PRETYP STREET STREET CITY PROV NATION");
("123 South Avenida Oak B chelmsford ma usa", "HOUSE PREDIR PRETYP STREET STREET CITY PROV NATION");
("123 South B D Oak Street chelmsford ma usa", "HOUSE PREDIR STREET STREET STREET SUFTYP CITY PROV NATION");
("123 South B D Oak chelmsford ma usa", "HOUSE PREDIR STREET STREET STREET CITY PROV NATION");
("123 South B Oak Street chelmsford ma usa", "HOUSE PREDIR STREET STREET SUFTYP CITY PROV NATION");
("123 South B Oak chelmsford ma usa", "HOUSE PREDIR STREET STREET CITY PROV NATION");
("123 South B Street chelmsford ma usa", "HOUSE PREDIR STREET SUFTYP CITY PROV NATION");
("123 South B Terrace Street chelmsford ma usa", "HOUSE PREDIR STREET STREET SUFTYP CITY PROV NATION");
("123 South B chelmsford ma usa", "HOUSE PREDIR STREET CITY PROV NATION");
("123 South North Oak Street chelmsford ma usa", "HOUSE PREDIR STREET STREET SUFTYP CITY PROV NATION");
("123 South North Oak chelmsford ma usa", "HOUSE PREDIR STREET STREET CITY PROV NATION");
("123 South North Street chelmsford ma usa", "HOUSE PREDIR STREET SUFTYP CITY PROV NATION");
("123 South North chelmsford ma usa", "HOUSE PREDIR STREET CITY PROV NATION");
("123 South Oak & East Green chelmsford ma usa", "HOUSE PREDIR STREET EXTRA EXTRA EXTRA CITY PROV NATION");
("123 South Oak & Green chelmsford ma usa", "HOUSE PREDIR STREET EXTRA EXTRA CITY PROV NATION");
("123 South Oak & Park Street chelmsford ma usa", "HOUSE PREDIR STREET STREET STREET SUFTYP CITY PROV NATION");
("123 South Oak B Park Street chelmsford ma usa", "HOUSE PREDIR STREET STREET STREET SUFTYP CITY PROV NATION");
("123 South Oak B Park chelmsford ma usa", "HOUSE PREDIR STREET STREET STREET CITY PROV NATION");
("123 South Oak B Street chelmsford ma usa", "HOUSE PREDIR STREET STREET SUFTYP CITY PROV NATION");
("123 South Oak North Street chelmsford ma usa", "HOUSE PREDIR STREET STREET SUFTYP CITY PROV NATION");
("123 South Oak Street chelmsford ma usa", "HOUSE PREDIR STREET SUFTYP CITY PROV NATION");
("123 South Oak Terrace Street chelmsford ma usa", "HOUSE PREDIR STREET STREET SUFTYP CITY PROV NATION");
("123 South Oak Tower Street chelmsford ma usa", "HOUSE PREDIR STREET STREET SUFTYP CITY PROV NATION");
("123 South Oak chelmsford ma usa", "HOUSE PREDIR STREET CITY PROV NATION");
("123 South Terrace 1 Street chelmsford ma usa", "HOUSE PREDIR STREET STREET SUFTYP CITY PROV NATION");
("123 South Terrace Street chelmsford ma usa", "HOUSE PREDIR STREET SUFTYP CITY PROV NATION");
("123 South Tower Manor Street chelmsford ma usa", "HOUSE PREDIR STREET STREET SUFTYP CITY PROV NATION");
("123 South Tower Oak Street chelmsford ma usa", "HOUSE PREDIR STREET STREET SUFTYP CITY PROV NATION");
("123 South Tower Street chelmsford ma usa", "HOUSE PREDIR STREET SUFTYP CITY PROV NATION");
("123 South Tower Terrace Street chelmsford ma usa", "HOUSE PREDIR STREET STREET SUFTYP CITY PROV NATION");
("123 South box hill road chelmsford ma usa", "HOUSE PREDIR STREET STREET SUFTYP CITY PROV NATION");
("123 South cardboard box road chelmsford ma usa", "HOUSE PREDIR STREET STREET SUFTYP CITY PROV NATION");
("123 State Route 1 chelmsford ma usa", "HOUSE PRETYP STREET CITY PROV NATION");
("123 State Route 1a chelmsford ma usa", "HOUSE PRETYP STREET CITY PROV NATION");
("123 State Route B chelmsford ma usa", "HOUSE PRETYP STREET CITY PROV NATION");
("123 Terrace 1 Street chelmsford ma usa", "HOUSE STREET STREET SUFTYP CITY PROV NATION");
("123 Terrace Street chelmsford ma usa", "HOUSE STREET SUFTYP CITY PROV NATION");
("123 Terrace West Street chelmsford ma usa", "HOUSE STREET SUFDIR SUFTYP CITY PROV NATION");
("123 Tower Manor Street chelmsford ma usa", "HOUSE STREET STREET SUFTYP CITY PROV NATION");
("123 Tower Oak Street chelmsford ma usa", "HOUSE STREET STREET SUFTYP CITY PROV NATION");
("123 Tower Street chelmsford ma usa", "HOUSE STREET SUFTYP CITY PROV NATION");
("123 Tower Terrace Street chelmsford ma usa", "HOUSE STREET STREET SUFTYP CITY PROV NATION");
("123 box hill road chelmsford ma usa", "HOUSE STREET STREET SUFTYP CITY PROV NATION");
("123 business 80 chelmsford ma usa", "HOUSE QUALIF STREET CITY PROV NATION");
("123 cardboard box road chelmsford ma usa", "HOUSE STREET STREET SUFTYP CITY PROV NATION");
("123 circle 10 chelmsford ma usa", "HOUSE PRETYP STREET CITY PROV NATION");
("123 e circle hill drive chelmsford ma usa", "HOUSE PREDIR STREET STREET SUFTYP CITY PROV NATION");
("123 hwy i80 chelmsford ma usa", "HOUSE EXTRA PRETYP STREET CITY PROV NATION");
("123 main st hwy 4 chelmsford ma usa", "HOUSE STREET SUFTYP EXTRA EXTRA CITY PROV NATION");
("123 n main w chelmsford ma usa", "HOUSE PREDIR STREET UNITT CITY PROV NATION");
("123 north box road chelmsford ma usa", "HOUSE PREDIR STREET SUFTYP CITY PROV NATION");
("123 old California hwy 80 chelmsford ma usa", "HOUSE QUALIF EXTRA PRETYP STREET CITY PROV NATION");
("123 old California hwy 80a chelmsford ma usa", "HOUSE QUALIF EXTRA PRETYP STREET CITY PROV NATION");
("123 old hwy 80 chelmsford ma usa", "HOUSE QUALIF PRETYP STREET CITY PROV NATION");
("123 old hwy 80a chelmsford ma usa", "HOUSE QUALIF PRETYP STREET CITY PROV NATION");
("123 old north stamford rd chelmsford ma usa", "HOUSE STREET STREET STREET SUFTYP CITY PROV NATION");
("123 s ave n chelmsford ma usa", "HOUSE STREET SUFTYP SUFDIR CITY PROV NATION");
("123 us rt 56w chelmsford ma usa", "HOUSE PRETYP STREET SUFDIR CITY PROV NATION");
("123A edward h ross drive chelmsford ma usa", "HOUSE HOUSE STREET STREET STREET SUFTYP CITY PROV NATION");
("123E 40 N st chelmsford ma usa", "HOUSE PREDIR STREET SUFDIR SUFTYP CITY PROV NATION");
("123E 40N st chelmsford ma usa", "HOUSE PREDIR STREET SUFDIR SUFTYP CITY PROV NATION");
("123a California state route 1 chelmsford ma usa", "HOUSE HOUSE EXTRA PRETYP STREET CITY PROV NATION");
("123a California state route 1a chelmsford ma usa", "HOUSE HOUSE EXTRA PRETYP STREET CITY PROV NATION");
("123a state route 1 chelmsford ma usa", "HOUSE HOUSE PRETYP STREET CITY PROV NATION");
("123a state route 1a chelmsford ma usa", "HOUSE HOUSE PRETYP STREET CITY PROV NATION");
("16 will o wisp street expy chelmsford ma usa", "HOUSE STREET STREET STREET STREET SUFTYP CITY PROV NATION");
("20YY11 North main Street chelmsford ma usa", "HOUSE HOUSE HOUSE PREDIR STREET SUFTYP CITY PROV NATION");
("26 w 415 oak dr chelmsford ma usa", "HOUSE HOUSE HOUSE STREET SUFTYP CITY PROV NATION");
("26 w 415 pky dr chelmsford ma usa", "HOUSE HOUSE HOUSE STREET SUFTYP CITY PROV NATION");
("26w415 oak dr chelmsford ma usa", "HOUSE HOUSE HOUSE STREET SUFTYP CITY PROV NATION");
("26w415 pky dr chelmsford ma usa", "HOUSE HOUSE HOUSE STREET SUFTYP CITY PROV NATION");
("3643 apt 16 n main st chelmsford ma usa", "HOUSE UNITH UNITT PREDIR STREET SUFTYP CITY PROV NATION");
("3643 apt 16 southmont dr chelmsford ma usa", "HOUSE UNITH UNITT STREET SUFTYP CITY PROV NATION");
("3643 rr 1 southmont drive chelmsford ma usa", "HOUSE RR RR STREET SUFTYP CITY PROV NATION");
("4268 1 hwy 2 chelmsford ma usa", "HOUSE HOUSE PRETYP STREET CITY PROV NATION");
("5439 S 500 Harriet chelmsford ma usa", "HOUSE HOUSE HOUSE STREET CITY PROV NATION");
("5439 S 500 W chelmsford ma usa", "HOUSE PREDIR STREET SUFDIR CITY PROV NATION");
("5439 S 500W chelmsford ma usa", "HOUSE PREDIR STREET SUFDIR CITY PROV NATION");
("5439 S fifth w chelmsford ma usa", "HOUSE PREDIR STREET SUFDIR CITY PROV NATION");
("5439S 500 W chelmsford ma usa", "HOUSE PREDIR STREET SUFDIR CITY PROV NATION");
("5439S 500W chelmsford ma usa", "HOUSE PREDIR STREET SUFDIR CITY PROV NATION");
("5439S fifth w chelmsford ma usa", "HOUSE PREDIR STREET SUFDIR CITY PROV NATION");
("800 N 400 E 1 E chelmsford ma usa", "HOUSE PREDIR STREET SUFDIR UNITT UNITT CITY PROV NATION");
("800 N 400 E E 1 chelmsford ma usa", "HOUSE PREDIR STREET SUFDIR UNITT UNITT CITY PROV NATION");
("800N 400E 1 E chelmsford ma usa", "HOUSE PREDIR STREET SUFDIR UNITT UNITT CITY PROV NATION");
("800N 400E E 1 chelmsford ma usa", "HOUSE PREDIR STREET SUFDIR UNITT UNITT CITY PROV NATION");
("806 n march d sea ave pike chelmsford ma usa", "HOUSE PREDIR STREET STREET STREET STREET SUFTYP CITY PROV NATION");
("A2-1 s springdale rd chelmsford ma usa", "HOUSE HOUSE HOUSE PREDIR STREET SUFTYP CITY PROV NATION");
("N 108 W 60 country club ct chelmsford ma usa", "HOUSE HOUSE HOUSE HOUSE STREET STREET SUFTYP CITY PROV NATION");
("N 108 W 60 hwy 55 chelmsford ma usa", "HOUSE HOUSE HOUSE HOUSE PRETYP STREET CITY PROV NATION");
("N 108 W 60 hwy 8a chelmsford ma usa", "HOUSE HOUSE HOUSE HOUSE PRETYP STREET CITY PROV NATION");
("N 108 W 60 hwy k chelmsford ma usa", "HOUSE HOUSE HOUSE HOUSE PRETYP STREET CITY PROV NATION");
("N 108 W 60 main chelmsford ma usa", "HOUSE HOUSE HOUSE HOUSE STREET CITY PROV NATION");
("N 108 W 60 main st chelmsford ma usa", "HOUSE HOUSE HOUSE HOUSE STREET SUFTYP CITY PROV NATION");
("N 108 W 60 n hwy 44 chelmsford ma usa", "HOUSE HOUSE HOUSE HOUSE PREDIR PRETYP STREET CITY PROV NATION");
("N 108 W 60 n main st chelmsford ma usa", "HOUSE HOUSE HOUSE HOUSE PREDIR STREET SUFTYP CITY PROV NATION");
("N 108 W60 main st chelmsford ma usa", "HOUSE HOUSE HOUSE HOUSE STREET SUFTYP CITY PROV NATION");
("N108 W 60 main st chelmsford ma usa", "HOUSE HOUSE HOUSE HOUSE STREET SUFTYP CITY PROV NATION");
("N108 W 60 s main st chelmsford ma usa", "HOUSE HOUSE HOUSE HOUSE PREDIR STREET SUFTYP CITY PROV NATION");
("N108 W60 country club ct chelmsford ma usa", "HOUSE HOUSE HOUSE HOUSE STREET STREET SUFTYP CITY PROV NATION");
("N108 W60 hwy 55 chelmsford ma usa", "HOUSE HOUSE HOUSE HOUSE PRETYP STREET CITY PROV NATION");
("N108 W60 hwy aa chelmsford ma usa", "HOUSE HOUSE HOUSE HOUSE PRETYP STREET CITY PROV NATION");
("N108 W60 hwy k chelmsford ma usa", "HOUSE HOUSE HOUSE HOUSE PRETYP STREET CITY PROV NATION");
("N108 W60 main chelmsford ma usa", "HOUSE HOUSE HOUSE HOUSE STREET CITY PROV NATION");
("N108 W60 main st chelmsford ma usa", "HOUSE HOUSE HOUSE HOUSE STREET SUFTYP CITY PROV NATION");
("N108 W60 n hwy 55 chelmsford ma usa", "HOUSE HOUSE HOUSE HOUSE PREDIR PRETYP STREET CITY PROV NATION");
("N108 W60 n main st chelmsford ma usa", "HOUSE HOUSE HOUSE HOUSE PREDIR STREET SUFTYP CITY PROV NATION");
("Rural Route chelmsford ma usa", "RR CITY PROV NATION");
("South 123 B Oak chelmsford ma usa", "PREDIR HOUSE STREET STREET CITY PROV NATION");
("South 123 B chelmsford ma usa", "PREDIR HOUSE STREET CITY PROV NATION");
("YY11 North main Street chelmsford ma usa", "HOUSE HOUSE PREDIR STREET SUFTYP CITY PROV NATION");
("e 101 n 103 chelmsford ma usa", "HOUSE HOUSE PREDIR STREET CITY PROV NATION");
("e101 n103 chelmsford ma usa", "HOUSE HOUSE PREDIR STREET CITY PROV NATION");
("us rt 1 280 lafayette rd chelmsford ma usa", "EXTRA EXTRA HOUSE STREET SUFTYP CITY PROV NATION");
("w 220 1551 s springdale rd chelmsford ma usa", "HOUSE HOUSE HOUSE PREDIR STREET SUFTYP CITY PROV NATION");
("w 220 1551 springdale rd chelmsford ma usa", "HOUSE HOUSE HOUSE STREET SUFTYP CITY PROV NATION");
("w220 1551 s springdale rd chelmsford ma usa", "HOUSE HOUSE HOUSE PREDIR STREET SUFTYP CITY PROV NATION");
("w220 1551 springdale rd chelmsford ma usa", "HOUSE HOUSE HOUSE STREET SUFTYP CITY PROV NATION")].
(** data/test-usa-patterns:466-506, with the tester src/tester/t2.cpp: the output classes of the best match. *)
Definition best_outputs (x : lexicon) (g : grammar) (a : string) : option text :=
  match make_phrases ascii_env x en_US (s2t "PUNCT,SPACE,EMDASH") (s2t a) with
  | Ok phs => match search_best g phs with Ok b => Some (join [SP] (map (fun k => out_str (t_out k)) (b_tokens b))) | _ => None end
  | _ => None
  end.
Definition agrees x g (p : string * string) : bool :=
  match best_outputs x g (fst p) with Some t => teqb t (s2t (snd p)) | None => false end.
Definition fails x g (p : string * string) : bool := match best_outputs x g (fst p) with Some _ => false | None => true end.
Example wanted_given :
  List.length wanted = 226 /\ List.length (filter (agrees usa_x usa_g) wanted) = 97 /\ existsb (fails usa_x usa_g) wanted = false.
Proof. vm_compute. repeat split. Qed.
