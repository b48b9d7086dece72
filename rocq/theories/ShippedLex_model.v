(** The lexicons of data/sample/, byte by byte; each is the concatenation of its pieces (long literals are too much for the
    parser). *)
From Coq Require Import String List.
From Verif Require Import Shipped_model.
Import ListNotations.
Local Open Scope string_scope.

(** data/sample/andorra.lex *)
Definition slex_andorra : list string :=
[
"LEXICON:	lex-andorra.txt	CAT	ca_AD
LEXENTRY:	AD	ANDORRA	NATION,DOUBLE	DETACH
LEXENTRY:	AND	ANDORRA	NATION	DETACH
LEXENTRY:	ANDORRA	ANDORRA	NATION	DETACH
LEXENTRY:	ANDORRE	ANDORRE	NATION	DETACH
LEXENTRY:	ANDORRA LA VELLA	ANDORRA LA VELLA	CITY	DETACH
LEXENTRY:	AV	AVINGUDA	TYPE	DET_PRE
LEXENTRY:	AV.	AVINGUDA	TYPE	DET_PRE
LEXENTRY:	AVDA	AVINGUDA	TYPE	DET_PRE
LEXENTRY:	AVDA.	AVINGUDA	TYPE	DET_PRE
LEXENTRY:	AVENIDA	AVINGUDA	TYPE	DET_PRE
LEXENTRY:	AVINGUDA	AVINGUDA	TYPE	ATT_PRE,DET_PRE
LEXENTRY:	AVINGUDA D'	AVINGUDA	TYPE	DET_PRE
LEXENTRY:	AVINGUDA D' 	AVINGUDA	TYPE	ATT_PRE
LEXENTRY:	AVINGUDA DE	AVINGUDA	TYPE	DET_PRE
LEXENTRY:	AVINGUDA DE LES	AVINGUDA	TYPE	DET_PRE
LEXENTRY:	AVINGUDA DEL	AVINGUDA	TYPE	DET_PRE
LEXENTRY:	AVINGUDA DELS	AVINGUDA	TYPE	DET_PRE
LEXENTRY:	BAIXADA	BAIXADA	TYPE	DET_PRE
LEXENTRY:	BAIXADA DEL	BAIXADA	TYPE	DET_PRE
LEXENTRY:	BAJADA	BAIXADA	TYPE	DET_PRE
LEXENTRY:	BDA	BAIXADA	TYPE	DET_PRE
LEXENTRY:	BDA.	BAIXADA	TYPE	DET_PRE
LEXENTRY:	BP	BP	BOXH	DETATCH
LEXENTRY:	C.	CALLE	TYPE	DET_PRE
LEXENTRY:	C/	CALLE	TYPE	DET_PRE
LEXENTRY:	CALLE	CALLE	TYPE	DET_PRE
LEXENTRY:	CAMINO	CAMINO	TYPE	DET_PRE
LEXENTRY:	CANILLO	CANILLO	CITY	DETACH
LEXENTRY:	CARRER	CARRER	TYPE	DET_PRE
LEXENTRY:	CARRER DE	CARRER	TYPE	DET_PRE
LEXENTRY:	CARRER DE LA	CARRER	TYPE	DET_PRE
LEXENTRY:	CARRER DE LES	CARRER	TYPE	DET_PRE
LEXENTRY:	CARRETERA	CARRETERA	TYPE	ATT_PRE,DET_PRE
LEXENTRY:	CARRETERA D'	CARRETERA	TYPE	ATT_PRE,DET_PRE
LEXENTRY:	CARRETERA DE	CARRETERA	TYPE	DET_PRE
LEXENTRY:	CARRETERA DE L'	CARRETERA	TYPE	ATT_PRE,DET_PRE
LEXENTRY:	CARRETERA DEL	CARRETERA	TYPE	DET_PRE
LEXENTRY:	CO	CAMINO	TYPE	DET_PRE
LEXENTRY:	CO.	CAMINO	TYPE	DET_PRE
LEXENTRY:	COMERCIANTE	COMERCIANTE	PLACEN	DETACH
LEXENTRY:	COOPERATIVA	COOPERATIVA	PLACEN	DETACH
LEXENTRY:	CTA	CUESTA	TYPE	DET_PRE
LEXENTRY:	CTA.	CUESTA	TYPE	DET_PRE
LEXENTRY:	CTRA	CARRETERA	TYPE	DET_PRE
LEXENTRY:	CTRA.	CARRETERA	TYPE	DET_PRE
LEXENTRY:	CUESTA	CUESTA	TYPE	DET_PRE
LEXENTRY:	Cª	CARRETERA	TYPE	DET_PRE
LEXENTRY:	C°	CAMINO	TYPE	DET_PRE
LEXENTRY:	ENCAMP	ENCAMP	CITY	DETACH
LEXENTRY:	ESCALDES ENGODANY	ESCALDES ENGORDANY	CITY	DETACH
LEXENTRY:	ESCALDES-ENGODANY	ESCALDES ENGORDANY	CITY	DETACH
LEXENTRY:	ESCALDES-ENGORDANY	ESCALDES ENGORDANY	CITY	DETACH
LEXENTRY:	FUNDACION	FUNDACION	PLACEN	DETACH
LEXENTRY:	GLORIETA	GLORIETA	TYPE	DET_PRE
LEXENTRY:	GTA	GLORIETA	TYPE	DET_PRE
LEXENTRY:	GTA.	GLORIETA	TYPE	DET_PRE
LEXENTRY:	LA MASSANA	LA MASSANA	CITY	DETACH
LEXENTRY:	ORDINO	ORDINO	CITY	DETACH
LEXENTRY:	PARC	PARC	TYPE	DET_PRE
";
"LEXENTRY:	PARC DE LA 	PARC	TYPE	DET_PRE
LEXENTRY:	PASAJE	PASAJE	TYPE	DET_PRE
LEXENTRY:	PASEO	PASEO	TYPE	DET_PRE
LEXENTRY:	PJE	PASAJE	TYPE	DET_PRE
LEXENTRY:	PJE.	PASAJE	TYPE	DET_PRE
LEXENTRY:	PL	PLAÇA	TYPE	DET_PRE
LEXENTRY:	PL.	PLAÇA	TYPE	DET_PRE
LEXENTRY:	PLAZA	PLAÇA	TYPE	DET_PRE
LEXENTRY:	PLAÇA	PLAÇA	TYPE	DET_PRE
LEXENTRY:	PLAÇA DE	PLAÇA	TYPE	DET_PRE
LEXENTRY:	PS	PASEO	TYPE	DET_PRE
LEXENTRY:	PS.	PASEO	TYPE	DET_PRE
LEXENTRY:	PSO	PASEO	TYPE	DET_PRE
LEXENTRY:	PSO.	PASEO	TYPE	DET_PRE
LEXENTRY:	PZA	PLAÇA	TYPE	DET_PRE
LEXENTRY:	PZA.	PLAÇA	TYPE	DET_PRE
LEXENTRY:	P°	PASEO	TYPE	DET_PRE
LEXENTRY:	RAMBLA	RAMBLA	TYPE	DET_PRE
LEXENTRY:	RBLA	RAMBLA	TYPE	DET_PRE
LEXENTRY:	RBLA.	RAMBLA	TYPE	DET_PRE
LEXENTRY:	RDA	RONDA	TYPE	DET_PRE
LEXENTRY:	RDA.	RONDA	TYPE	DET_PRE
LEXENTRY:	RONDA	RONDA	TYPE	DET_PRE
LEXENTRY:	SA	SA	PLACEN	DETACH
LEXENTRY:	SAE	SAE	PLACEN	DETACH
LEXENTRY:	SAL	SAL	PLACEN	DETACH
LEXENTRY:	SANT JULIÀ DE LÒRIA	SANT JULIÀ DE LÒRIA	CITY	DETACH
LEXENTRY:	SC	SC	PLACEN	DETACH
LEXENTRY:	SCL	SCL	PLACEN	DETACH
LEXENTRY:	SL	SL	PLACEN	DETACH
LEXENTRY:	SNC	SNC	PLACEN	DETACH
LEXENTRY:	SOCIEDAD	SOCIEDAD	PLACEN	DETACH
LEXENTRY:	SRL	SRL	PLACEN	DETACH
LEXENTRY:	TRAVESSIA	TRAVESSIA	TYPE	DET_PRE
"].
(** data/sample/australia.lex *)
Definition slex_australia : list string :=
[
"LEXICON:	lex-australia.txt	ENG	en_AU
LEXENTRY:	1	1	NUMBER	DETACH
LEXENTRY:	10	10	NUMBER	DETACH
LEXENTRY:	10TH	10TH	WORD,ORD	DETACH
LEXENTRY:	11	11	NUMBER	DETACH
LEXENTRY:	11TH	11TH	WORD,ORD	DETACH
LEXENTRY:	12	12	NUMBER	DETACH
LEXENTRY:	12TH	12TH	WORD,ORD	DETACH
LEXENTRY:	13	13	NUMBER	DETACH
LEXENTRY:	13TH	13TH	WORD,ORD	DETACH
LEXENTRY:	14	14	NUMBER	DETACH
LEXENTRY:	14TH	14TH	WORD,ORD	DETACH
LEXENTRY:	15	15	NUMBER	DETACH
LEXENTRY:	15TH	15TH	WORD,ORD	DETACH
LEXENTRY:	16	16	NUMBER	DETACH
LEXENTRY:	16TH	16TH	WORD,ORD	DETACH
LEXENTRY:	17	17	NUMBER	DETACH
LEXENTRY:	17TH	17TH	WORD,ORD	DETACH
LEXENTRY:	18	18	NUMBER	DETACH
LEXENTRY:	18TH	18TH	WORD,ORD	DETACH
LEXENTRY:	19	19	NUMBER	DETACH
LEXENTRY:	19TH	19TH	WORD,ORD	DETACH
LEXENTRY:	1ST	1ST	WORD,ORD	DETACH
LEXENTRY:	2	2	NUMBER	DETACH
LEXENTRY:	20	20	NUMBER	DETACH
LEXENTRY:	20TH	20TH	WORD,ORD	DETACH
LEXENTRY:	2ND	2ND	WORD,ORD	DETACH
LEXENTRY:	3	3	NUMBER	DETACH
LEXENTRY:	30	30	NUMBER	DETACH
LEXENTRY:	30TH	30TH	WORD,ORD	DETACH
LEXENTRY:	3RD	3RD	WORD,ORD	DETACH
LEXENTRY:	4	4	NUMBER	DETACH
LEXENTRY:	40	40	NUMBER	DETACH
LEXENTRY:	40TH	40TH	WORD,ORD	DETACH
LEXENTRY:	4TH	4TH	WORD,ORD	DETACH
LEXENTRY:	5	5	NUMBER	DETACH
LEXENTRY:	50	50	NUMBER	DETACH
LEXENTRY:	50TH	50TH	WORD,ORD	DETACH
LEXENTRY:	5TH	5TH	WORD,ORD	DETACH
LEXENTRY:	6	6	NUMBER	DETACH
LEXENTRY:	60	60	NUMBER	DETACH
LEXENTRY:	60TH	60TH	WORD,ORD	DETACH
LEXENTRY:	6TH	6TH	WORD,ORD	DETACH
LEXENTRY:	7	7	NUMBER	DETACH
LEXENTRY:	70	70	NUMBER	DETACH
LEXENTRY:	70TH	70TH	WORD,ORD	DETACH
LEXENTRY:	7TH	7TH	WORD,ORD	DETACH
LEXENTRY:	8	8	NUMBER	DETACH
LEXENTRY:	80	80	NUMBER	DETACH
LEXENTRY:	80TH	80TH	WORD,ORD	DETACH
LEXENTRY:	8TH	8TH	WORD,ORD	DETACH
LEXENTRY:	9	9	NUMBER	DETACH
LEXENTRY:	90	90	NUMBER	DETACH
LEXENTRY:	90TH	90TH	WORD,ORD	DETACH
LEXENTRY:	9TH	9TH	WORD,ORD	DETACH
LEXENTRY:	ACADEMY	ACADEMY	PLACEN	DETACH
LEXENTRY:	ACT	AUSTRALIAN CAPITAL TERRITORY	PROV	DETACH
LEXENTRY:	AGENCY	AGENCY	PLACEN	DETACH
LEXENTRY:	AIRPORT	AIRPORT	PLACEN	DETACH
LEXENTRY:	ALLEY	ALLY	TYPE	DET_SUF
LEXENTRY:	ALLY	ALLY	TYPE	DET_SUF
LEXENTRY:	APARTMENT	APT	UNITH	DETACH
LEXENTRY:	APT	APT	UNITH	DETACH
LEXENTRY:	ARC	ARC	TYPE	DET_SUF
LEXENTRY:	ARCADE	ARC	TYPE	DET_SUF
LEXENTRY:	AU	AUSTRALIA	NATION	DETACH
LEXENTRY:	AUS	AUSTRALIA	NATION	DETACH
LEXENTRY:	AUSTRALIA	AUSTRALIA	NATION	DETACH
LEXENTRY:	AVE	AVE	TYPE	DET_SUF
LEXENTRY:	AVENUE	AVE	TYPE	DET_SUF
LEXENTRY:	B	B	UNITH	DETACH
LEXENTRY:	BAKERY	BAKERY	PLACEN	DETACH
LEXENTRY:	BANK	BANK	PLACEN	DETACH
LEXENTRY:	BASEMENT	B	UNITH	DETACH
";
"LEXENTRY:	BLDG	BLDG	UNITH	DETACH
LEXENTRY:	BOULEVARD	BVD	TYPE	DET_SUF
LEXENTRY:	BUILDING	BLDG	UNITH	DETACH
LEXENTRY:	BUREAU	BUREAU	PLACEN	DETACH
LEXENTRY:	BVD	BVD	TYPE	DET_SUF
LEXENTRY:	CAFE	CAFE	PLACEN	DETACH
LEXENTRY:	CAFÉ	CAFÉ	PLACEN	DETACH
LEXENTRY:	CARE OF POST OFFICE	CARE PO	BOXH	DETACH
LEXENTRY:	CARE PO	CARE PO	BOXH	DETACH
LEXENTRY:	CENTER	CENTER	PLACEN	DETACH
LEXENTRY:	CENTRE	CENTRE	PLACEN	DETACH
LEXENTRY:	CINEMA	CINEMA	PLACEN	DETACH
LEXENTRY:	CL	CL	TYPE	DET_SUF
LEXENTRY:	CLOSE	CL	TYPE	DET_SUF
LEXENTRY:	CMA	CMA	BOXH	DETACH
LEXENTRY:	CMB	CMB	BOXH	DETACH
LEXENTRY:	CO	CO	PLACEN	DETACH
LEXENTRY:	COLLEGE	COLLEGE	PLACEN	DETACH
LEXENTRY:	COMMUNITY MAIL BAG	CMB	BOXH	DETACH
LEXENTRY:	COMMUNITY POSTAL AGENT	CPA	BOXH	DETACH
LEXENTRY:	COMPANY	COMPANY	PLACEN	DETACH
LEXENTRY:	COMUNITY MAIL AGENT	CMA	BOXH	DETACH
LEXENTRY:	CONSERVATORY	CONSERVATORY	PLACEN	DETACH
LEXENTRY:	CORP	CORP	PLACEN	DETACH
LEXENTRY:	CORPORATION	CORPORATION	PLACEN	DETACH
LEXENTRY:	COURT	CT	TYPE	DET_SUF
LEXENTRY:	CPA	CPA	BOXH	DETACH
LEXENTRY:	CRES	CRES	TYPE	DET_SUF
LEXENTRY:	CRESCENT	CRES	TYPE	DET_SUF
LEXENTRY:	CT	CT	TYPE	DET_SUF
LEXENTRY:	DR	DR	TYPE	DET_SUF
LEXENTRY:	DRIVE	DR	TYPE	DET_SUF
LEXENTRY:	E	E	DIRECT	DETACH
LEXENTRY:	EAST	E	DIRECT	DETACH
LEXENTRY:	EIGHT	8	NUMBER	DETACH
LEXENTRY:	EIGHTEEN	18	NUMBER	DETACH
LEXENTRY:	EIGHTEENTH	18TH	WORD,ORD	DETACH
LEXENTRY:	EIGHTH	8TH	WORD,ORD	DETACH
LEXENTRY:	EIGHTIETH	80TH	WORD,ORD	DETACH
LEXENTRY:	EIGHTY	80	NUMBER	DETACH
LEXENTRY:	ELEVEN	11	NUMBER	DETACH
LEXENTRY:	ELEVENTH	11TH	WORD,ORD	DETACH
LEXENTRY:	ESP	ESP	TYPE	DET_SUF
LEXENTRY:	ESPLANADE	ESP	TYPE	DET_SUF
LEXENTRY:	F	F	UNITH	DETACH
LEXENTRY:	FACTORY	FY	UNITH	DETACH
LEXENTRY:	FIFTEEN	15	NUMBER	DETACH
LEXENTRY:	FIFTEENTH	15TH	WORD,ORD	DETACH
LEXENTRY:	FIFTH	5TH	WORD,ORD	DETACH
LEXENTRY:	FIFTIETH	50TH	WORD,ORD	DETACH
LEXENTRY:	FIFTY	50	NUMBER	DETACH
LEXENTRY:	FIRST	1ST	WORD,ORD	DETACH
LEXENTRY:	FIVE	5	NUMBER	DETACH
LEXENTRY:	FL	FL	UNITH	DETACH
LEXENTRY:	FLAT	F	UNITH	DETACH
LEXENTRY:	FLOOR	FL	UNITH	DETACH
LEXENTRY:	FORTIETH	40TH	WORD,ORD	DETACH
LEXENTRY:	FORTY	40	NUMBER	DETACH
LEXENTRY:	FOUR	4	NUMBER	DETACH
LEXENTRY:	FOURTEEN	14	NUMBER	DETACH
LEXENTRY:	FOURTEENTH	14TH	WORD,ORD	DETACH
LEXENTRY:	FOUTH	4TH	WORD,ORD	DETACH
LEXENTRY:	FUND	FUND	PLACEN	DETACH
LEXENTRY:	FY	FY	UNITH	DETACH
LEXENTRY:	G	GROUND FLOOR	UNITH	DETACH
LEXENTRY:	LG	LOWER GROUND FLOOR	UNITH	DETACH
LEXENTRY:	UG	UPPER GROUND FLOOR	UNITH	DETACH
LEXENTRY:	GROUND FLOOR	GROUND FLOOR	UNITH	DETACH
";
"LEXENTRY:	LOWER GROUND FLOOR	LOWER GROUND FLOOR	UNITH	DETACH
LEXENTRY:	UPPER GROUND FLOOR	UPPER GROUND FLOOR	UNITH	DETACH
LEXENTRY:	GALLERY	GALLERY	PLACEN	DETACH
LEXENTRY:	GARDEN	GARDEN	PLACEN	DETACH
LEXENTRY:	GENERAL POST OFFICE BOX 	GPO BOX	BOXH	DETACH
LEXENTRY:	GPO BOX	GPO BOX	BOXH	DETACH
LEXENTRY:	GR	GR	TYPE	DET_SUF
LEXENTRY:	GROUP	GROUP	PLACEN	DETACH
LEXENTRY:	GROVE	GR	TYPE	DET_SUF
LEXENTRY:	GYMNASIUM	GYMNASIUM	PLACEN	DETACH
LEXENTRY:	HALL	HALL	PLACEN	DETACH
LEXENTRY:	HIGHWAY	HWY	TYPE	DET_SUF
LEXENTRY:	HOSPITAL	HOSPITAL	PLACEN	DETACH
LEXENTRY:	HOTEL	HOTEL	PLACEN	DETACH
LEXENTRY:	HOUSE	HOUSE	PLACEN	DETACH
LEXENTRY:	HWY	HWY	TYPE	DET_SUF
LEXENTRY:	INC	INC	PLACEN	DETACH
LEXENTRY:	INCORPORATED	INCORPORATED	PLACEN	DETACH
LEXENTRY:	INSTITUTE	INSTITUTE	PLACEN	DETACH
LEXENTRY:	L	L	UNITH	DETACH
LEXENTRY:	LAB	LAB	PLACEN	DETACH
LEXENTRY:	LABORATORIES	LABORATORIES	PLACEN	DETACH
LEXENTRY:	LABORATORY	LABORATORY	PLACEN	DETACH
LEXENTRY:	LABS	LABS	PLACEN	DETACH
LEXENTRY:	LANE	LANE	TYPE	DET_SUF
LEXENTRY:	LEVEL	L	UNITH	DETACH
LEXENTRY:	LIABILITY	LIABILITY	PLACEN	DETACH
LEXENTRY:	LIBRARY	LIBRARY	PLACEN	DETACH
LEXENTRY:	LIMITED	LIMITED	PLACEN	DETACH
LEXENTRY:	LOCKED BAG	LOCKED BAG	BOXH	DETACH
LEXENTRY:	LTD	LTD	PLACEN	DETACH
LEXENTRY:	M	M	UNITH	DETACH
LEXENTRY:	MAIL SERVICE	MS	BOXH	DETACH
LEXENTRY:	MALL	MALL	PLACEN	DETACH
LEXENTRY:	MARINE BERTH	MB	UNITH	DETACH
LEXENTRY:	MARKET	MARKET	PLACEN	DETACH
LEXENTRY:	MB	MB	UNITH	DETACH
LEXENTRY:	MEZZANINE	M	UNITH	DETACH
LEXENTRY:	MS	MS	BOXH	DETACH
LEXENTRY:	MUSEUM	MUSEUM	PLACEN	DETACH
LEXENTRY:	N	N	DIRECT	DETACH
LEXENTRY:	NE	NE	DIRECT	DETACH
LEXENTRY:	NINE	9	NUMBER	DETACH
LEXENTRY:	NINETEEN	19	NUMBER	DETACH
LEXENTRY:	NINETEENTH	19TH	WORD,ORD	DETACH
LEXENTRY:	NINETIETH	90TH	WORD,ORD	DETACH
LEXENTRY:	NINETY	90	NUMBER	DETACH
LEXENTRY:	NINTH	9TH	WORD,ORD	DETACH
LEXENTRY:	NL	NL	PLACEN	DETACH
LEXENTRY:	NORTH	N	DIRECT	DETACH
LEXENTRY:	NORTHEAST	NE	DIRECT	DETACH
LEXENTRY:	NORTHWEST	NW	DIRECT	DETACH
LEXENTRY:	NSW	NEW SOUTH WALES	PROV	DETACH
LEXENTRY:	NT	NORTHERN TERRITORY	PROV	DETACH
LEXENTRY:	NW	NW	DIRECT	DETACH
LEXENTRY:	OFF	OFF	UNITH	DETACH
LEXENTRY:	OFFICE	OFF	UNITH	DETACH
LEXENTRY:	ONE	1	NUMBER	DETACH
LEXENTRY:	P/L	P/L	PLACEN	DETACH
LEXENTRY:	PARADE	PDE	TYPE	DET_SUF
LEXENTRY:	PARK	PARK	PLACEN	DETACH
LEXENTRY:	PDE	PDE	TYPE	DET_SUF
LEXENTRY:	PL	PL	PLACEN,TYPE	DETACH,DET_SUF
LEXENTRY:	PLACE	PL	TYPE	DET_SUF
LEXENTRY:	PLC	PLC	PLACEN	DETACH
LEXENTRY:	PO BOX	PO BOX	BOXH	DETACH
LEXENTRY:	POST OFFICE BOX	PO BOX	BOXH	DETACH
";
"LEXENTRY:	PRIVATE BAG	PRIVATE BAG	BOXH	DETACH
LEXENTRY:	PROPRIETARY	PROPRIETARY	PLACEN	DETACH
LEXENTRY:	PTY	PTY	PLACEN	DETACH
LEXENTRY:	QLD	QUEENSLAND	PROV	DETACH
LEXENTRY:	RD	RD	TYPE	DET_SUF
LEXENTRY:	RESTAURANT	RESTAURANT	PLACEN	DETACH
LEXENTRY:	RM	RM	UNITH	DETACH
LEXENTRY:	RMB	RMB	BOXH	DETACH
LEXENTRY:	RMS	RMS	BOXH	DETACH
LEXENTRY:	ROAD	RD	TYPE	DET_SUF
LEXENTRY:	ROADSIDE DELIVERY	RSD	BOXH	DETACH
LEXENTRY:	ROADSIDE MAIL BAG	RMB	BOXH	DETACH
LEXENTRY:	ROADSIDE MAIL BOX	RMB	BOXH	DETACH
LEXENTRY:	ROADSIDE MAIL SERVICE	RMS	BOXH	DETACH
LEXENTRY:	ROOM	RM	UNITH	DETACH
LEXENTRY:	RSD	RSD	BOXH	DETACH
LEXENTRY:	S	S	DIRECT	DETACH
LEXENTRY:	SA	SOUTH AUSTRALIA	PROV	DETACH
LEXENTRY:	SAINT	ST	WORD	DETACH
LEXENTRY:	SCHOOL	SCHOOL	PLACEN	DETACH
LEXENTRY:	SE	SE	DIRECT,UNITH	DETACH
LEXENTRY:	SECOND	2ND	WORD,ORD	DETACH
LEXENTRY:	SEVEN	7	NUMBER	DETACH
LEXENTRY:	SEVENTEEN	17	NUMBER	DETACH
LEXENTRY:	SEVENTEENTH	17TH	WORD,ORD	DETACH
LEXENTRY:	SEVENTH	7TH	WORD,ORD	DETACH
LEXENTRY:	SEVENTIETH	70TH	WORD,ORD	DETACH
LEXENTRY:	SEVENTY	70	NUMBER	DETACH
LEXENTRY:	SHED	SHED	UNITH	DETACH
LEXENTRY:	SHED 	SHED	UNITH	DETACH
LEXENTRY:	SHOP	SHOP	PLACEN,UNITH	DETACH
LEXENTRY:	SITE	SITE	UNITH	DETACH
LEXENTRY:	SITE	SE	UNITH	DETACH
LEXENTRY:	SIX	6	NUMBER	DETACH
LEXENTRY:	SIXTEEN	16	NUMBER	DETACH
LEXENTRY:	SIXTEENTH	16TH	WORD,ORD	DETACH
LEXENTRY:	SIXTH	6TH	WORD,ORD	DETACH
LEXENTRY:	SIXTIETH	60TH	WORD,ORD	DETACH
LEXENTRY:	SIXTY	60	NUMBER	DETACH
LEXENTRY:	SL	SL	UNITH	DETACH
LEXENTRY:	SOUTH	S	DIRECT	DETACH
LEXENTRY:	SOUTHEAST	SE	DIRECT	DETACH
LEXENTRY:	SOUTHWEST	SW	DIRECT	DETACH
LEXENTRY:	SQ	SQ	TYPE	DET_SUF
LEXENTRY:	SQUARE	SQ	TYPE	DET_SUF
LEXENTRY:	ST	ST	TYPE,WORD	DETACH,DET_SUF
LEXENTRY:	STADIUM	STADIUM	PLACEN	DETACH
LEXENTRY:	STALL	SL	UNITH	DETACH
LEXENTRY:	STATION	STATION	PLACEN	DETACH
LEXENTRY:	STE	STE	UNITH	DETACH
LEXENTRY:	STORE	STORE	PLACEN	DETACH
LEXENTRY:	STREET	ST	TYPE	DET_SUF
LEXENTRY:	SUITE	STE	UNITH	DETACH
LEXENTRY:	SW	SW	DIRECT	DETACH
LEXENTRY:	TAS	TASMANIA	PROV	DETACH
LEXENTRY:	TCE	TCE	TYPE	DET_SUF
LEXENTRY:	TEN	10	NUMBER	DETACH
LEXENTRY:	TENTH	10TH	WORD,ORD	DETACH
LEXENTRY:	TERRACE	TCE	TYPE	DET_SUF
LEXENTRY:	THEATER	THEATER	PLACEN	DETACH
LEXENTRY:	THEATRE	THEATRE	PLACEN	DETACH
LEXENTRY:	THIRD	3RD	WORD,ORD	DETACH
LEXENTRY:	THIRTEEN	13	NUMBER	DETACH
LEXENTRY:	THIRTEENTH	13TH	WORD,ORD	DETACH
LEXENTRY:	THIRTIETH	30TH	WORD,ORD	DETACH
LEXENTRY:	THIRTY	30	NUMBER	DETACH
LEXENTRY:	THREE	3	NUMBER	DETACH
LEXENTRY:	TRUST	TRUST	PLACEN	DETACH
LEXENTRY:	TWELFTH	12TH	WORD,ORD	DETACH
";
"LEXENTRY:	TWELVE	12	NUMBER	DETACH
LEXENTRY:	TWENTIETH	20TH	WORD,ORD	DETACH
LEXENTRY:	TWENTY	20	NUMBER	DETACH
LEXENTRY:	TWO	2	NUMBER	DETACH
LEXENTRY:	U	U	UNITH	DETACH
LEXENTRY:	UNIT	U	UNITH	DETACH
LEXENTRY:	UNIVERSITY	UNIVERSITY	PLACEN	DETACH
LEXENTRY:	VIC	VICTORIA	PROV	DETACH
LEXENTRY:	VILLA	VLLA	UNITH	DETACH
LEXENTRY:	VLLA	VLLA	UNITH	DETACH
LEXENTRY:	W	W	DIRECT	DETACH
LEXENTRY:	WA	WESTERN AUSTRALIA	PROV	DETACH
LEXENTRY:	WAREHOUSE	WE	UNITH	DETACH
LEXENTRY:	WE	WE	UNITH	DETACH
LEXENTRY:	WEST	W	DIRECT	DETACH
"].
(** data/sample/austria.lex *)
Definition slex_austria : list string := [lex_austria].
(** data/sample/belgium.lex *)
Definition slex_belgium : list string :=
[
"LEXICON:	lex-belgium.txt	FRE	fr_BE
LEXENTRY:	#	APT	UNITH	DETACH
LEXENTRY:	1	1	NUMBER	DETACH
LEXENTRY:	10	10	NUMBER	DETACH
LEXENTRY:	10TH	10TH	WORD,ORD	DETACH
LEXENTRY:	11	11	NUMBER	DETACH
LEXENTRY:	11TH	11TH	WORD,ORD	DETACH
LEXENTRY:	12	12	NUMBER	DETACH
LEXENTRY:	12TH	12TH	WORD,ORD	DETACH
LEXENTRY:	13	13	NUMBER	DETACH
LEXENTRY:	13TH	13TH	WORD,ORD	DETACH
LEXENTRY:	14	14	NUMBER	DETACH
LEXENTRY:	14TH	14TH	WORD,ORD	DETACH
LEXENTRY:	15	15	NUMBER	DETACH
LEXENTRY:	15TH	15TH	WORD,ORD	DETACH
LEXENTRY:	16	16	NUMBER	DETACH
LEXENTRY:	16TH	16TH	WORD,ORD	DETACH
LEXENTRY:	17	17	NUMBER	DETACH
LEXENTRY:	17TH	17TH	WORD,ORD	DETACH
LEXENTRY:	18	18	NUMBER	DETACH
LEXENTRY:	18TH	18TH	WORD,ORD	DETACH
LEXENTRY:	19	19	NUMBER	DETACH
LEXENTRY:	19TH	19TH	WORD,ORD	DETACH
LEXENTRY:	1ST	1ST	WORD,ORD	DETACH
LEXENTRY:	2	2	NUMBER	DETACH
LEXENTRY:	20	20	NUMBER	DETACH
LEXENTRY:	20TH	20TH	WORD,ORD	DETACH
LEXENTRY:	2ND	2ND	WORD,ORD	DETACH
LEXENTRY:	3	3	NUMBER	DETACH
LEXENTRY:	30	30	NUMBER	DETACH
LEXENTRY:	30TH	30TH	WORD,ORD	DETACH
LEXENTRY:	3RD	3RD	WORD,ORD	DETACH
LEXENTRY:	4	4	NUMBER	DETACH
LEXENTRY:	40	40	NUMBER	DETACH
LEXENTRY:	40TH	40TH	WORD,ORD	DETACH
LEXENTRY:	4TH	4TH	WORD,ORD	DETACH
LEXENTRY:	5	5	NUMBER	DETACH
LEXENTRY:	50	50	NUMBER	DETACH
LEXENTRY:	50TH	50TH	WORD,ORD	DETACH
LEXENTRY:	5TH	5TH	WORD,ORD	DETACH
LEXENTRY:	6	6	NUMBER	DETACH
LEXENTRY:	60	60	NUMBER	DETACH
LEXENTRY:	60TH	60TH	WORD,ORD	DETACH
LEXENTRY:	6TH	6TH	WORD,ORD	DETACH
LEXENTRY:	7	7	NUMBER	DETACH
LEXENTRY:	70	70	NUMBER	DETACH
LEXENTRY:	70TH	70TH	WORD,ORD	DETACH
LEXENTRY:	7TH	7TH	WORD,ORD	DETACH
LEXENTRY:	8	8	NUMBER	DETACH
LEXENTRY:	80	80	NUMBER	DETACH
LEXENTRY:	80TH	80TH	WORD,ORD	DETACH
LEXENTRY:	8TH	8TH	WORD,ORD	DETACH
LEXENTRY:	9	9	NUMBER	DETACH
LEXENTRY:	90	90	NUMBER	DETACH
LEXENTRY:	90TH	90TH	WORD,ORD	DETACH
LEXENTRY:	9TH	9TH	WORD,ORD	DETACH
LEXENTRY:	A.	ANDRÉ	WORD	DETACH
LEXENTRY:	ACADEMIE	ACADEMIE	PLACEN	DETACH
LEXENTRY:	AEROPORT	AEROPORT	PLACEN	DETACH
LEXENTRY:	AFZETGEBIED	AFZETGEBIED	PLACEN	DETACH
LEXENTRY:	AGENTUUR	AGENTUUR	PLACEN	DETACH
LEXENTRY:	AKKER	AKKER	TYPE	ATT_SUF,DET_SUF
LEXENTRY:	AKKERS	AKKERS	TYPE	ATT_SUF,DET_SUF
LEXENTRY:	ALLEE	ALLEE	TYPE	ATT_SUF,DET_SUF
LEXENTRY:	ALLÉE	ALLÉE	TYPE	DET_PRE
LEXENTRY:	ALLÉE D'	ALLÉE D'	TYPE	ATT_PRE
LEXENTRY:	ALLÉE DE	ALLÉE DE	TYPE	DET_PRE
LEXENTRY:	ALLÉE DE L'	ALLÉE DE L'	TYPE	ATT_PRE
LEXENTRY:	ALLÉE DE LA	ALLÉE DE LA	TYPE	DET_PRE
LEXENTRY:	ALLÉE DES	ALLÉE DES	TYPE	DET_PRE
LEXENTRY:	ALLÉE DU	ALLÉE DU	TYPE	DET_PRE
LEXENTRY:	ALLÉE LE	ALLÉE LE	TYPE	DET_PRE
";
"LEXENTRY:	ALLÉES DES	ALLÉES DES	TYPE	DET_PRE
LEXENTRY:	ANCIEN CHEMIN	ANCIEN CHEMIN	TYPE	DET_PRE
LEXENTRY:	ANCIEN CHEMIN DE	ANCIEN CHEMIN DE	TYPE	DET_PRE
LEXENTRY:	ANCIENNE ROUTE DE	ANCIENNE ROUTE DE	TYPE	DET_PRE
LEXENTRY:	ANDRÉ	ANDRÉ	WORD	DETACH
LEXENTRY:	APARTMENT	APT	UNITH	DETACH
LEXENTRY:	APT	APT	UNITH	DETACH
LEXENTRY:	ASBL	ASBL	PLACEN	DETACH
LEXENTRY:	ASSOCIATION	ASSOCIATION	PLACEN	DETACH
LEXENTRY:	AUTOROUTE	AUTOROUTE	TYPE	DET_PRE
LEXENTRY:	AVE	AVENUE	TYPE	DET_PRE,DET_SUF
LEXENTRY:	AVENUE	AVENUE	TYPE	DET_PRE,DET_SUF
LEXENTRY:	AVENUE D'	AVENUE D'	TYPE	ATT_PRE
LEXENTRY:	AVENUE DE	AVENUE DE	TYPE	DET_PRE
LEXENTRY:	AVENUE DE L'	AVENUE DE L'	TYPE	ATT_PRE
LEXENTRY:	AVENUE DE LA	AVENUE DE LA	TYPE	DET_PRE
LEXENTRY:	AVENUE DES	AVENUE DES	TYPE	DET_PRE
LEXENTRY:	AVENUE DU	AVENUE DU	TYPE	DET_PRE
LEXENTRY:	BAAN	BAAN	TYPE	ATT_SUF,DET_SUF
LEXENTRY:	BACH	BACH	TYPE	ATT_SUF,DET_SUF
LEXENTRY:	BAKKERIJ	BAKKERIJ	PLACEN	DETACH
LEXENTRY:	BANK	BANK	PLACEN	DETACH
LEXENTRY:	BANQUE	BANQUE	PLACEN	DETACH
LEXENTRY:	BARRIÈRE D'	BARRIÈRE D'	TYPE	ATT_PRE
LEXENTRY:	BAZAAR	BAZAAR	PLACEN	DETACH
LEXENTRY:	BE	BELGIUM	NATION	DETACH
LEXENTRY:	BEEMD	BEEMD	TYPE	ATT_SUF
LEXENTRY:	BEL	BELGIUM	NATION	DETACH
LEXENTRY:	BELGIUM	BELGIUM	NATION	DETACH
LEXENTRY:	BERG	BERG	TYPE	ATT_SUF,DET_SUF
LEXENTRY:	BERGE AU	BERGE AU	TYPE	DET_PRE
LEXENTRY:	BERGWEG	BERGWEG	TYPE	ATT_SUF,DET_SUF
LEXENTRY:	BG	BERG	TYPE	ATT_SUF,DET_SUF
LEXENTRY:	BG.	BERG	TYPE	ATT_SUF
LEXENTRY:	BIBLIOTEEK	BIBLIOTEEK	PLACEN	DETACH
LEXENTRY:	BIBLIOTHÈQUE	BIBLIOTHÈQUE	PLACEN	DETACH
LEXENTRY:	BIOSCOOP	BIOSCOOP	PLACEN	DETACH
LEXENTRY:	BLD	BOULEVARD	TYPE	DET_PRE,DET_SUF
LEXENTRY:	BLDG	BLDG	UNITH	DETACH
LEXENTRY:	BN	BAAN	TYPE	ATT_SUF,DET_SUF
LEXENTRY:	BN.	BAAN	TYPE	ATT_SUF
LEXENTRY:	BOEKERIJ	BOEKERIJ	PLACEN	DETACH
LEXENTRY:	BOEKHANDEL	BOEKHANDEL	PLACEN	DETACH
LEXENTRY:	BOITE	BOITE	UNITH	DETACH
LEXENTRY:	BOITE POSTALE	BOITE POSTALE	BOXH	DETACH
LEXENTRY:	BORG	BORG	TYPE	ATT_SUF
LEXENTRY:	BOUCLE DES	BOUCLE DES	TYPE	DET_PRE
LEXENTRY:	BOUCLE DU	BOUCLE DU	TYPE	DET_PRE
LEXENTRY:	BOULANGERIE	BOULANGERIE	PLACEN	DETACH
LEXENTRY:	BOULEVARD	BOULEVARD	TYPE	DET_PRE,DET_SUF
LEXENTRY:	BOULEVARD D'	BOULEVARD D'	TYPE	ATT_PRE
LEXENTRY:	BOULEVARD DE	BOULEVARD DE	TYPE	DET_PRE
LEXENTRY:	BOULEVARD DE L'	BOULEVARD DE L'	TYPE	ATT_PRE
LEXENTRY:	BOULEVARD DE LA	BOULEVARD DE LA	TYPE	DET_PRE
LEXENTRY:	BOULEVARD DES	BOULEVARD DES	TYPE	DET_PRE
LEXENTRY:	BOULEVARD DU	BOULEVARD DU	TYPE	DET_PRE
LEXENTRY:	BP	BOITE POSTALE	BOXH	DETACH
LEXENTRY:	BRETELLE	BRETELLE	TYPE	DET_PRE
";
"LEXENTRY:	BROOK	BROOK	TYPE	DET_SUF
LEXENTRY:	BRUCH	BRUCH	TYPE	ATT_SUF
LEXENTRY:	BRUG	BRUG	TYPE	ATT_SUF,DET_SUF
LEXENTRY:	BRUSELAS	BRUSELAS	CITY	DETACH
LEXENTRY:	BRUSSEL	BRUSSEL	CITY	DETACH
LEXENTRY:	BRUSSELLE	BRUSSELLE	CITY	DETACH
LEXENTRY:	BRUSSELS	BRUSSELS	CITY	DETACH
LEXENTRY:	BRUXELLES	BRUXELLES	CITY	DETACH
LEXENTRY:	BRÜCKE	BRÜCKE	TYPE	ATT_SUF
LEXENTRY:	BRÜSSEL	BRÜSSEL	CITY	DETACH
LEXENTRY:	BTE	BTE	UNITH	DETACH
LEXENTRY:	BUILDING	BLDG	UNITH	DETACH
LEXENTRY:	BUREAU	BUREAU	PLACEN	DETACH
LEXENTRY:	BURG	BURG	TYPE	ATT_SUF
LEXENTRY:	BUS	BUS	UNITH	DETACH
LEXENTRY:	BV	BV	PLACEN	DETACH
LEXENTRY:	BVBA	BVBA	PLACEN	DETACH
LEXENTRY:	CAFÉ	CAFÉ	PLACEN	DETACH
LEXENTRY:	CARREFOUR	CARREFOUR	TYPE	DET_PRE
LEXENTRY:	CARREFOUR DE	CARREFOUR DE	TYPE	DET_PRE
LEXENTRY:	CARREFOUR DE L'	CARREFOUR DE L'	TYPE	ATT_PRE
LEXENTRY:	CARREFOUR DE LA	CARREFOUR DE LA	TYPE	DET_PRE
LEXENTRY:	CARREFOUR DES	CARREFOUR DES	TYPE	DET_PRE
LEXENTRY:	CARREFOUR DU	CARREFOUR DU	TYPE	DET_PRE
LEXENTRY:	CARRIÈRE	CARRIÈRE	TYPE	DET_PRE
LEXENTRY:	CARRIÈRE D'	CARRIÈRE D'	TYPE	ATT_PRE
LEXENTRY:	CARRIÈRE DES	CARRIÈRE DES	TYPE	DET_PRE
LEXENTRY:	CARRIÈRE DU	CARRIÈRE DU	TYPE	DET_PRE
LEXENTRY:	CARRÉ	CARRÉ	TYPE	DET_PRE
LEXENTRY:	CARRÉ DES	CARRÉ DES	TYPE	DET_PRE
LEXENTRY:	CARRÉ DU	CARRÉ DU	TYPE	DET_PRE
LEXENTRY:	CENTER	CENTER	PLACEN	DETACH
LEXENTRY:	CENTRE	CENTRE	PLACEN	DETACH
LEXENTRY:	CENTRUM	CENTRUM	PLACEN,TYPE	ATT_SUF,DETACH,DET_SUF
LEXENTRY:	CHAUSSEE	CHAUSSEE	TYPE	ATT_SUF
LEXENTRY:	CHAUSSÉE	CHAUSSÉE	TYPE	DET_PRE
LEXENTRY:	CHAUSSÉE D'	CHAUSSÉE D'	TYPE	ATT_PRE
LEXENTRY:	CHAUSSÉE DE	CHAUSSÉE DE	TYPE	DET_PRE
LEXENTRY:	CHAUSSÉE DE L'	CHAUSSÉE DE L'	TYPE	ATT_PRE
LEXENTRY:	CHAUSSÉE DE LA	CHAUSSÉE DE LA	TYPE	DET_PRE
LEXENTRY:	CHAUSSÉE DES	CHAUSSÉE DES	TYPE	DET_PRE
LEXENTRY:	CHAUSSÉE DU	CHAUSSÉE DU	TYPE	DET_PRE
LEXENTRY:	CHEMIN	CHEMIN	TYPE	DET_PRE
LEXENTRY:	CHEMIN AU	CHEMIN AU	TYPE	DET_PRE
LEXENTRY:	CHEMIN AUX	CHEMIN AUX	TYPE	DET_PRE
LEXENTRY:	CHEMIN D'	CHEMIN D'	TYPE	ATT_PRE
LEXENTRY:	CHEMIN DE	CHEMIN DE	TYPE	DET_PRE
LEXENTRY:	CHEMIN DE L'	CHEMIN DE L'	TYPE	ATT_PRE
LEXENTRY:	CHEMIN DE LA	CHEMIN DE LA	TYPE	DET_PRE
LEXENTRY:	CHEMIN DES	CHEMIN DES	TYPE	DET_PRE
LEXENTRY:	CHEMIN DU	CHEMIN DU	TYPE	DET_PRE
LEXENTRY:	CHEMIN LES	CHEMIN LES	TYPE	DET_PRE
LEXENTRY:	CHEMIN À	CHEMIN À	TYPE	DET_PRE
LEXENTRY:	CHÂTEAU	CHÂTEAU	PLACEN	DETACH
LEXENTRY:	CINEMA	CINEMA	PLACEN	DETACH
LEXENTRY:	CINÉMA	CINÉMA	PLACEN	DETACH
LEXENTRY:	CITÉ	CITÉ	TYPE	DET_PRE
LEXENTRY:	CITÉ AU	CITÉ AU	TYPE	DET_PRE
LEXENTRY:	CITÉ D'	CITÉ D'	TYPE	ATT_PRE
";
"LEXENTRY:	CITÉ DE	CITÉ DE	TYPE	DET_PRE
LEXENTRY:	CITÉ DE L'	CITÉ DE L'	TYPE	ATT_PRE
LEXENTRY:	CITÉ DE LA	CITÉ DE LA	TYPE	DET_PRE
LEXENTRY:	CITÉ DES	CITÉ DES	TYPE	DET_PRE
LEXENTRY:	CITÉ DU	CITÉ DU	TYPE	DET_PRE
LEXENTRY:	CLOS	CLOS	TYPE	DET_PRE
LEXENTRY:	CLOS D'	CLOS D'	TYPE	ATT_PRE
LEXENTRY:	CLOS DE	CLOS DE	TYPE	DET_PRE
LEXENTRY:	CLOS DE L'	CLOS DE L'	TYPE	ATT_PRE
LEXENTRY:	CLOS DE LA	CLOS DE LA	TYPE	DET_PRE
LEXENTRY:	CLOS DES	CLOS DES	TYPE	DET_PRE
LEXENTRY:	CLOS DU	CLOS DU	TYPE	DET_PRE
LEXENTRY:	CLOSERIE DE LA	CLOSERIE DE LA	TYPE	DET_PRE
LEXENTRY:	CO	CO	PLACEN	DETACH
LEXENTRY:	COIN DE L'	COIN DE L'	TYPE	ATT_PRE
LEXENTRY:	COIN DES	COIN DES	TYPE	DET_PRE
LEXENTRY:	COIN DU	COIN DU	TYPE	DET_PRE
LEXENTRY:	COL DE	COL DE	TYPE	DET_PRE
LEXENTRY:	COLLEGE	COLLEGE	PLACEN	DETACH
LEXENTRY:	COLLÈGE	COLLÈGE	PLACEN	DETACH
LEXENTRY:	COMPAGNIE	COMPAGNIE	PLACEN	DETACH
LEXENTRY:	COMPANY	COMPANY	PLACEN	DETACH
LEXENTRY:	CONSERVATORIUM	CONSERVATORIUM	PLACEN	DETACH
LEXENTRY:	CONTOUR DE L'	CONTOUR DE L'	TYPE	ATT_PRE
LEXENTRY:	CONTOUR DU	CONTOUR DU	TYPE	DET_PRE
LEXENTRY:	CORNICHE	CORNICHE	TYPE	DET_PRE
LEXENTRY:	CORNICHE D'	CORNICHE D'	TYPE	ATT_PRE
LEXENTRY:	CORNICHE DE LA	CORNICHE DE LA	TYPE	DET_PRE
LEXENTRY:	CORON	CORON	TYPE	DET_PRE
LEXENTRY:	CORON DES	CORON DES	TYPE	DET_PRE
LEXENTRY:	CORON DU	CORON DU	TYPE	DET_PRE
LEXENTRY:	CORP	CORP	PLACEN	DETACH
LEXENTRY:	CORPORATIE	CORPORATIE	PLACEN	DETACH
LEXENTRY:	COTEAU D'	COTEAU D'	TYPE	ATT_PRE
LEXENTRY:	COUR	COUR	TYPE	DET_PRE
LEXENTRY:	COUR D'	COUR D'	TYPE	ATT_PRE
LEXENTRY:	COUR DE	COUR DE	TYPE	DET_PRE
LEXENTRY:	COUR DE L'	COUR DE L'	TYPE	ATT_PRE
LEXENTRY:	COUR DE LA	COUR DE LA	TYPE	DET_PRE
LEXENTRY:	COUR DES	COUR DES	TYPE	DET_PRE
LEXENTRY:	COUR DU	COUR DU	TYPE	DET_PRE
LEXENTRY:	COURS	COURS	TYPE	DET_PRE
LEXENTRY:	COURS D'	COURS D'	TYPE	ATT_PRE
LEXENTRY:	COURS DE	COURS DE	TYPE	DET_PRE
LEXENTRY:	COURS DE L'	COURS DE L'	TYPE	ATT_PRE
LEXENTRY:	COURS DE LA	COURS DE LA	TYPE	DET_PRE
LEXENTRY:	COURS DES	COURS DES	TYPE	DET_PRE
LEXENTRY:	COURS DU	COURS DU	TYPE	DET_PRE
LEXENTRY:	CROIX	CROIX	TYPE	DET_PRE
LEXENTRY:	CROIX DE	CROIX DE	TYPE	DET_PRE
LEXENTRY:	CROIX DES	CROIX DES	TYPE	DET_PRE
LEXENTRY:	CROIX DU	CROIX DU	TYPE	DET_PRE
LEXENTRY:	CVA	CVA	PLACEN	DETACH
LEXENTRY:	CÔTE	CÔTE	TYPE	DET_PRE
LEXENTRY:	CÔTE DE	CÔTE DE	TYPE	DET_PRE
LEXENTRY:	CÔTE DES	CÔTE DES	TYPE	DET_PRE
LEXENTRY:	DAL	DAL	TYPE	ATT_SUF,DET_SUF
LEXENTRY:	DAM	DAM	TYPE	ATT_SUF,DET_SUF
LEXENTRY:	DAMM	DAMM	TYPE	ATT_SUF
LEXENTRY:	DANS	DANS	TYPE	ATT_SUF
LEXENTRY:	DIEP	DIEP	TYPE	ATT_SUF
";
"LEXENTRY:	DIGUE DE	DIGUE DE	TYPE	DET_PRE
LEXENTRY:	DIGUE DES	DIGUE DES	TYPE	DET_PRE
LEXENTRY:	DIGUE DU	DIGUE DU	TYPE	DET_PRE
LEXENTRY:	DIJK	DIJK	TYPE	ATT_SUF,DET_SUF
LEXENTRY:	DOK	DOK	TYPE	ATT_SUF
LEXENTRY:	DOMAINE	DOMAINE	TYPE	DET_PRE
LEXENTRY:	DOMAINE DE	DOMAINE DE	TYPE	DET_PRE
LEXENTRY:	DOMAINE DE LA	DOMAINE DE LA	TYPE	DET_PRE
LEXENTRY:	DOMAINE DES	DOMAINE DES	TYPE	DET_PRE
LEXENTRY:	DOMAINE DU	DOMAINE DU	TYPE	DET_PRE
LEXENTRY:	DOMEIN	DOMEIN	TYPE	DET_SUF
LEXENTRY:	DONK	DONK	TYPE	ATT_SUF,DET_SUF
LEXENTRY:	DOORGANG	DOORGANG	TYPE	ATT_SUF
LEXENTRY:	DR	DREEF	TYPE	ATT_SUF,DET_SUF
LEXENTRY:	DREEF	DREEF	TYPE	ATT_SUF,DET_SUF
LEXENTRY:	DRÈVE	DRÈVE	TYPE	DET_PRE
LEXENTRY:	DRÈVE AUX	DRÈVE AUX	TYPE	DET_PRE
LEXENTRY:	DRÈVE D'	DRÈVE D'	TYPE	ATT_PRE
LEXENTRY:	DRÈVE DE	DRÈVE DE	TYPE	DET_PRE
LEXENTRY:	DRÈVE DE L'	DRÈVE DE L'	TYPE	ATT_PRE
LEXENTRY:	DRÈVE DE LA	DRÈVE DE LA	TYPE	DET_PRE
LEXENTRY:	DRÈVE DES	DRÈVE DES	TYPE	DET_PRE
LEXENTRY:	DRÈVE DU	DRÈVE DU	TYPE	DET_PRE
LEXENTRY:	DWARSSTRAAT	DWARSSTRAAT	TYPE	ATT_SUF,DET_SUF
LEXENTRY:	DWARSSTRAAT 	DWARSSTRAAT	TYPE	ATT_SUF
LEXENTRY:	E	E	DIRECT	DETACH
LEXENTRY:	EAST	E	DIRECT	DETACH
LEXENTRY:	EENMANSZAAK	EENMANSZAAK	PLACEN	DETACH
LEXENTRY:	EETHUIS	EETHUIS	PLACEN	DETACH
LEXENTRY:	EIGHT	8	NUMBER	DETACH
LEXENTRY:	EIGHTEEN	18	NUMBER	DETACH
LEXENTRY:	EIGHTEENTH	18TH	WORD,ORD	DETACH
LEXENTRY:	EIGHTH	8TH	WORD,ORD	DETACH
LEXENTRY:	EIGHTIETH	80TH	WORD,ORD	DETACH
LEXENTRY:	EIGHTY	80	NUMBER	DETACH
LEXENTRY:	EIND	EIND	TYPE	ATT_SUF,DET_SUF
LEXENTRY:	EINDE	EINDE	TYPE	ATT_SUF,DET_SUF
LEXENTRY:	ELEVEN	11	NUMBER	DETACH
LEXENTRY:	ELEVENTH	11TH	WORD,ORD	DETACH
LEXENTRY:	ENCLOS	ENCLOS	TYPE	DET_PRE
LEXENTRY:	ENCLOS AUX	ENCLOS AUX	TYPE	DET_PRE
LEXENTRY:	ENCLOS DE	ENCLOS DE	TYPE	DET_PRE
LEXENTRY:	ENCLOS DE L'	ENCLOS DE L'	TYPE	ATT_PRE
LEXENTRY:	ENCLOS DES	ENCLOS DES	TYPE	DET_PRE
LEXENTRY:	ENCLOS DU	ENCLOS DU	TYPE	DET_PRE
LEXENTRY:	ERF	ERF	TYPE	ATT_SUF,DET_SUF
LEXENTRY:	ESCALIER DE LA	ESCALIER DE LA	TYPE	DET_PRE
LEXENTRY:	ESCALIER DU	ESCALIER DU	TYPE	DET_PRE
LEXENTRY:	ESPACE	ESPACE	TYPE	DET_PRE
LEXENTRY:	ESPLANADE	ESPLANADE	TYPE	DET_PRE
LEXENTRY:	ESPLANADE DE L'	ESPLANADE DE L'	TYPE	ATT_PRE
LEXENTRY:	ESPLANADE DE LA	ESPLANADE DE LA	TYPE	DET_PRE
LEXENTRY:	ESPLANADE DU	ESPLANADE DU	TYPE	DET_PRE
LEXENTRY:	FACULTÉ	FACULTÉ	PLACEN	DETACH
LEXENTRY:	FAUBOURG	FAUBOURG	TYPE	DET_PRE
LEXENTRY:	FAUBOURG D'	FAUBOURG D'	TYPE	ATT_PRE
LEXENTRY:	FAUBOURG DE	FAUBOURG DE	TYPE	DET_PRE
LEXENTRY:	FAUBOURG DE LA	FAUBOURG DE LA	TYPE	DET_PRE
";
"LEXENTRY:	FAUBOURG DES	FAUBOURG DES	TYPE	DET_PRE
LEXENTRY:	FAUBOURG DU	FAUBOURG DU	TYPE	DET_PRE
LEXENTRY:	FELD	FELD	TYPE	ATT_SUF,DET_SUF
LEXENTRY:	FIFTEEN	15	NUMBER	DETACH
LEXENTRY:	FIFTEENTH	15TH	WORD,ORD	DETACH
LEXENTRY:	FIFTH	5TH	WORD,ORD	DETACH
LEXENTRY:	FIFTIETH	50TH	WORD,ORD	DETACH
LEXENTRY:	FIFTY	50	NUMBER	DETACH
LEXENTRY:	FILMKUNST	FILMKUNST	PLACEN	DETACH
LEXENTRY:	FIRMA	FIRMA	PLACEN	DETACH
LEXENTRY:	FIRST	1ST	WORD,ORD	DETACH
LEXENTRY:	FIVE	5	NUMBER	DETACH
LEXENTRY:	FL	FL	UNITH	DETACH
LEXENTRY:	FLOOR	FL	UNITH	DETACH
LEXENTRY:	FORTIETH	40TH	WORD,ORD	DETACH
LEXENTRY:	FORTY	40	NUMBER	DETACH
LEXENTRY:	FOUR	4	NUMBER	DETACH
LEXENTRY:	FOURTEEN	14	NUMBER	DETACH
LEXENTRY:	FOURTEENTH	14TH	WORD,ORD	DETACH
LEXENTRY:	FOUTH	4TH	WORD,ORD	DETACH
LEXENTRY:	GAANDERIJ	GAANDERIJ	PLACEN	DETACH
LEXENTRY:	GAARD	GAARD	TYPE	ATT_SUF,DET_SUF
LEXENTRY:	GAARDE	GAARDE	TYPE	ATT_SUF,DET_SUF
LEXENTRY:	GALERIE	GALERIE	PLACEN,TYPE	DETACH,DET_PRE
LEXENTRY:	GALERIE D'	GALERIE D'	TYPE	ATT_PRE
LEXENTRY:	GALERIE DE	GALERIE DE	TYPE	DET_PRE
LEXENTRY:	GALERIE DE L'	GALERIE DE L'	TYPE	ATT_PRE
LEXENTRY:	GALERIE DE LA	GALERIE DE LA	TYPE	DET_PRE
LEXENTRY:	GALERIE DES	GALERIE DES	TYPE	DET_PRE
LEXENTRY:	GALERIE DU	GALERIE DU	TYPE	DET_PRE
LEXENTRY:	GALERIJ	GALERIJ	PLACEN,TYPE	ATT_SUF,DETACH
LEXENTRY:	GANG	GANG	TYPE	ATT_SUF
LEXENTRY:	GARE	GARE	PLACEN	DETACH
LEXENTRY:	GASSE	GASSE	TYPE	ATT_SUF,DET_SUF
LEXENTRY:	GCV	GCV	PLACEN	DETACH
LEXENTRY:	GENOOTSCHAP	GENOOTSCHAP	PLACEN	DETACH
LEXENTRY:	GESTICHT	GESTICHT	PLACEN	DETACH
LEXENTRY:	GEZELSCHAP	GEZELSCHAP	PLACEN	DETACH
LEXENTRY:	GILDE	GILDE	PLACEN	DETACH
LEXENTRY:	GRABEN	GRABEN	TYPE	ATT_SUF
LEXENTRY:	GRACHT	GRACHT	TYPE	ATT_SUF,DET_SUF
LEXENTRY:	GRANDE RUE	GRANDE RUE	TYPE	DET_PRE
LEXENTRY:	GROEP	GROEP	PLACEN	DETACH
LEXENTRY:	GROUP	GROUP	PLACEN	DETACH
LEXENTRY:	GROUPE	GROUPE	PLACEN	DETACH
LEXENTRY:	GYMNASIUM	GYMNASIUM	PLACEN	DETACH
LEXENTRY:	GÄSSCHEN	GÄSSCHEN	TYPE	ATT_SUF
LEXENTRY:	HAAG	HAAG	TYPE	ATT_SUF,DET_SUF
LEXENTRY:	HAFEN	HAFEN	TYPE	ATT_SUF
LEXENTRY:	HAGE	HAGE	TYPE	ATT_SUF,DET_SUF
LEXENTRY:	HAL	HAL	PLACEN	DETACH
LEXENTRY:	HALL	HALL	PLACEN	DETACH
LEXENTRY:	HAMEAU	HAMEAU	TYPE	DET_PRE
LEXENTRY:	HAMEAU D'	HAMEAU D'	TYPE	ATT_PRE
LEXENTRY:	HAMEAU DE	HAMEAU DE	TYPE	DET_PRE
LEXENTRY:	HAMEAU DE L'	HAMEAU DE L'	TYPE	ATT_PRE
LEXENTRY:	HAMEAU DE LA	HAMEAU DE LA	TYPE	DET_PRE
LEXENTRY:	HAMEAU DES	HAMEAU DES	TYPE	DET_PRE
LEXENTRY:	HAMEAU DU	HAMEAU DU	TYPE	DET_PRE
LEXENTRY:	HAVEN	HAVEN	TYPE	ATT_SUF
LEXENTRY:	HEI	HEI	TYPE	ATT_SUF
LEXENTRY:	HEIDE	HEIDE	TYPE	DET_SUF
";
"LEXENTRY:	HELLING	HELLING	TYPE	ATT_SUF
LEXENTRY:	HEUVEL	HEUVEL	TYPE	ATT_SUF
LEXENTRY:	HOEK	HOEK	TYPE	ATT_SUF,DET_SUF
LEXENTRY:	HOF	HOF	TYPE	ATT_SUF,DET_SUF
LEXENTRY:	HORST	HORST	TYPE	ATT_SUF,DET_SUF
LEXENTRY:	HOSPITAAL	HOSPITAAL	PLACEN	DETACH
LEXENTRY:	HOTEL	HOTEL	PLACEN	DETACH
LEXENTRY:	HUIS	HUIS	PLACEN	DETACH
LEXENTRY:	HÔPITAL	HÔPITAL	PLACEN	DETACH
LEXENTRY:	HÔTEL	HÔTEL	PLACEN	DETACH
LEXENTRY:	HÖHE	HÖHE	TYPE	ATT_SUF,DET_SUF
LEXENTRY:	IMP	IMPASSE	TYPE	DET_PRE
LEXENTRY:	IMPASSE	IMPASSE	TYPE	DET_PRE
LEXENTRY:	IMPASSE AUX	IMPASSE AUX	TYPE	DET_PRE
LEXENTRY:	IMPASSE D'	IMPASSE D'	TYPE	ATT_PRE
LEXENTRY:	IMPASSE DE	IMPASSE DE	TYPE	DET_PRE
LEXENTRY:	IMPASSE DE L'	IMPASSE DE L'	TYPE	ATT_PRE
LEXENTRY:	IMPASSE DE LA	IMPASSE DE LA	TYPE	DET_PRE
LEXENTRY:	IMPASSE DES	IMPASSE DES	TYPE	DET_PRE
LEXENTRY:	IMPASSE DU	IMPASSE DU	TYPE	DET_PRE
LEXENTRY:	INRICHTING	INRICHTING	PLACEN	DETACH
LEXENTRY:	INSTITUT	INSTITUT	PLACEN	DETACH
LEXENTRY:	INSTITUUT	INSTITUUT	PLACEN	DETACH
LEXENTRY:	JARDIN	JARDIN	PLACEN,TYPE	DETACH,DET_PRE
LEXENTRY:	JARDIN DE	JARDIN DE	TYPE	DET_PRE
LEXENTRY:	JARDIN DES	JARDIN DES	TYPE	DET_PRE
LEXENTRY:	KAAI	KAAI	TYPE	ATT_SUF,DET_SUF
LEXENTRY:	KADE	KADE	TYPE	ATT_SUF,DET_SUF
LEXENTRY:	KAMP	KAMP	TYPE	ATT_SUF,DET_SUF
LEXENTRY:	KANAAL	KANAAL	TYPE	ATT_SUF,DET_SUF
LEXENTRY:	KINA	KINA	PLACEN	DETACH
LEXENTRY:	KINGDOM OF BELGIUM	BELGIUM	NATION	DETACH
LEXENTRY:	KONINKRIJK BELGIË	BELGIUM	NATION	DETACH
LEXENTRY:	KRUISPUNT	KRUISPUNT	TYPE	DET_SUF
LEXENTRY:	KUNSTRICHTING	KUNSTRICHTING	PLACEN	DETACH
LEXENTRY:	KÖNIGREICH BELGIEN	BELGIUM	NATION	DETACH
LEXENTRY:	LAAN	LAAN	TYPE	ATT_SUF,DET_PRE,DET_SUF
LEXENTRY:	LAAN OP	LAAN OP	TYPE	DET_PRE
LEXENTRY:	LABORATOIRE	LABORATOIRE	PLACEN	DETACH
LEXENTRY:	LABORATORIUM	LABORATORIUM	PLACEN	DETACH
LEXENTRY:	LEI	LEI	TYPE	ATT_SUF
LEXENTRY:	LES JARDINS DE	LES JARDINS DE	TYPE	DET_PRE
LEXENTRY:	LES JARDINS DE L'	LES JARDINS DE L'	TYPE	ATT_PRE
LEXENTRY:	LEVÉE DE	LEVÉE DE	TYPE	DET_PRE
LEXENTRY:	LIEU-DIT	LIEU-DIT	TYPE	DET_PRE
LEXENTRY:	LN	LAAN	TYPE	DET_PRE,DET_SUF
LEXENTRY:	LO	LO	TYPE	ATT_SUF
LEXENTRY:	LOOP	LOOP	TYPE	ATT_SUF
LEXENTRY:	LOTISSEMENT	LOTISSEMENT	TYPE	DET_PRE
LEXENTRY:	LOTISSEMENT DE	LOTISSEMENT DE	TYPE	DET_PRE
LEXENTRY:	LOTISSEMENT DES	LOTISSEMENT DES	TYPE	DET_PRE
LEXENTRY:	LOTISSEMENT DU	LOTISSEMENT DU	TYPE	DET_PRE
LEXENTRY:	LUCHTHAVEN	LUCHTHAVEN	PLACEN	DETACH
LEXENTRY:	LYCÉE	LYCÉE	PLACEN	DETACH
LEXENTRY:	MAATSCHAPPIJ	MAATSCHAPPIJ	PLACEN	DETACH
LEXENTRY:	MAIL	MAIL	TYPE	DET_PRE
LEXENTRY:	MAIL DE LA	MAIL DE LA	TYPE	DET_PRE
";
"LEXENTRY:	MANOIR	MANOIR	PLACEN	DETACH
LEXENTRY:	MARCHÉ	MARCHÉ	PLACEN,TYPE	DETACH,DET_PRE
LEXENTRY:	MARCHÉ AU	MARCHÉ AU	TYPE	DET_PRE
LEXENTRY:	MARCHÉ AUX	MARCHÉ AUX	TYPE	DET_PRE
LEXENTRY:	MARKT	MARKT	PLACEN,TYPE	ATT_SUF,DETACH,DET_SUF
LEXENTRY:	MKT	MARKT	TYPE	ATT_SUF
LEXENTRY:	MOLEN	MOLEN	TYPE	ATT_SUF,DET_SUF
LEXENTRY:	MONTÉE DU	MONTÉE DU	TYPE	DET_PRE
LEXENTRY:	MUSEUM	MUSEUM	PLACEN	DETACH
LEXENTRY:	MUSÉE	MUSÉE	PLACEN	DETACH
LEXENTRY:	N	N	DIRECT	DETACH
LEXENTRY:	NE	NE	DIRECT	DETACH
LEXENTRY:	NINE	9	NUMBER	DETACH
LEXENTRY:	NINETEEN	19	NUMBER	DETACH
LEXENTRY:	NINETEENTH	19TH	WORD,ORD	DETACH
LEXENTRY:	NINETIETH	90TH	WORD,ORD	DETACH
LEXENTRY:	NINETY	90	NUMBER	DETACH
LEXENTRY:	NINTH	9TH	WORD,ORD	DETACH
LEXENTRY:	NORTH	N	DIRECT	DETACH
LEXENTRY:	NORTHEAST	NE	DIRECT	DETACH
LEXENTRY:	NORTHWEST	NW	DIRECT	DETACH
LEXENTRY:	NOUVEAU CHEMIN	NOUVEAU CHEMIN	TYPE	DET_PRE
LEXENTRY:	NOUVELLE ROUTE DE	NOUVELLE ROUTE DE	TYPE	DET_PRE
LEXENTRY:	NV	NV	PLACEN	DETACH
LEXENTRY:	NW	NW	DIRECT	DETACH
LEXENTRY:	ONE	1	NUMBER	DETACH
LEXENTRY:	OORD	OORD	TYPE	ATT_SUF
LEXENTRY:	PAD	PAD	TYPE	ATT_SUF,DET_SUF
LEXENTRY:	PARC	PARC	PLACEN,TYPE	DETACH,DET_PRE
LEXENTRY:	PARC DE	PARC DE	TYPE	DET_PRE
LEXENTRY:	PARC DE L'	PARC DE L'	TYPE	ATT_PRE
LEXENTRY:	PARC DE LA	PARC DE LA	TYPE	DET_PRE
LEXENTRY:	PARC DES	PARC DES	TYPE	DET_PRE
LEXENTRY:	PARC DU	PARC DU	TYPE	DET_PRE
LEXENTRY:	PARK	PARK	TYPE	ATT_PRE,ATT_SUF,DET_PRE,DET_SUF
LEXENTRY:	PARVIS	PARVIS	TYPE	DET_PRE
LEXENTRY:	PARVIS DE L'	PARVIS DE L'	TYPE	ATT_PRE
LEXENTRY:	PARVIS DE LA	PARVIS DE LA	TYPE	DET_PRE
LEXENTRY:	PARVIS DES	PARVIS DES	TYPE	DET_PRE
LEXENTRY:	PASSAGE	PASSAGE	TYPE	ATT_SUF,DET_PRE,DET_SUF
LEXENTRY:	PASSAGE DE	PASSAGE DE	TYPE	DET_PRE
LEXENTRY:	PASSAGE DE LA	PASSAGE DE LA	TYPE	DET_PRE
LEXENTRY:	PASSAGE DES	PASSAGE DES	TYPE	DET_PRE
LEXENTRY:	PASSAGE DU	PASSAGE DU	TYPE	DET_PRE
LEXENTRY:	PB	POSTBUS	BOXH	DETACH
LEXENTRY:	PETIT CHEMIN DE	PETIT CHEMIN DE	TYPE	DET_PRE
LEXENTRY:	PETIT SENTIER	PETIT SENTIER	TYPE	DET_PRE
LEXENTRY:	PETITE RUE	PETITE RUE	TYPE	DET_PRE
LEXENTRY:	PETITE RUE AU	PETITE RUE AU	TYPE	DET_PRE
LEXENTRY:	PETITE RUE DE	PETITE RUE DE	TYPE	DET_PRE
LEXENTRY:	PETITE RUE DE L'	PETITE RUE DE L'	TYPE	ATT_PRE
LEXENTRY:	PETITE RUE DE LA	PETITE RUE DE LA	TYPE	DET_PRE
LEXENTRY:	PETITE RUE DES	PETITE RUE DES	TYPE	DET_PRE
LEXENTRY:	PETITE RUE DU	PETITE RUE DU	TYPE	DET_PRE
LEXENTRY:	PETITE RUE L'	PETITE RUE L'	TYPE	ATT_PRE
LEXENTRY:	PF	POSTFACH	BOXH	DETACH
LEXENTRY:	PFAD	PFAD	TYPE	ATT_SUF
LEXENTRY:	PFUHL	PFUHL	TYPE	DET_SUF
";
"LEXENTRY:	PISTE	PISTE	TYPE	DET_PRE
LEXENTRY:	PK	PARK	TYPE	ATT_SUF
LEXENTRY:	PLAATS	PLAATS	TYPE	ATT_SUF,DET_SUF
LEXENTRY:	PLACE	PLACE	TYPE	DET_PRE
LEXENTRY:	PLACE AUX	PLACE AUX	TYPE	DET_PRE
LEXENTRY:	PLACE D'	PLACE D'	TYPE	ATT_PRE
LEXENTRY:	PLACE DE	PLACE DE	TYPE	DET_PRE
LEXENTRY:	PLACE DE L'	PLACE DE L'	TYPE	ATT_PRE
LEXENTRY:	PLACE DE LA	PLACE DE LA	TYPE	DET_PRE
LEXENTRY:	PLACE DES	PLACE DES	TYPE	DET_PRE
LEXENTRY:	PLACE DU	PLACE DU	TYPE	DET_PRE
LEXENTRY:	PLACE L'	PLACE L'	TYPE	ATT_PRE
LEXENTRY:	PLACE À	PLACE À	TYPE	DET_PRE
LEXENTRY:	PLACETTE	PLACETTE	TYPE	DET_PRE
LEXENTRY:	PLACETTE AUX	PLACETTE AUX	TYPE	DET_PRE
LEXENTRY:	PLAINE DE LA	PLAINE DE LA	TYPE	DET_PRE
LEXENTRY:	PLAINE DES	PLAINE DES	TYPE	DET_PRE
LEXENTRY:	PLAINE DU	PLAINE DU	TYPE	DET_PRE
LEXENTRY:	PLANTSOEN	PLANTSOEN	TYPE	ATT_SUF,DET_SUF
LEXENTRY:	PLATEAU	PLATEAU	TYPE	DET_PRE
LEXENTRY:	PLATEAU DE	PLATEAU DE	TYPE	DET_PRE
LEXENTRY:	PLATEAU DE L'	PLATEAU DE L'	TYPE	ATT_PRE
LEXENTRY:	PLATEAU DE LA	PLATEAU DE LA	TYPE	DET_PRE
LEXENTRY:	PLATEAU DU	PLATEAU DU	TYPE	DET_PRE
LEXENTRY:	PLATZ	PLAATS	TYPE	ATT_SUF
LEXENTRY:	PLATZ	PLATZ	TYPE	ATT_PRE,ATT_SUF,DET_SUF
LEXENTRY:	PLEIN	PLEIN	TYPE	ATT_PRE,ATT_SUF,DET_PRE,DET_SUF
LEXENTRY:	PONT	PONT	TYPE	DET_PRE
LEXENTRY:	PONT AUX	PONT AUX	TYPE	DET_PRE
LEXENTRY:	PONT D'	PONT D'	TYPE	ATT_PRE
LEXENTRY:	PONT DE	PONT DE	TYPE	DET_PRE
LEXENTRY:	PONT DE L'	PONT DE L'	TYPE	ATT_PRE
LEXENTRY:	PONT DE LA	PONT DE LA	TYPE	DET_PRE
LEXENTRY:	PONT DES	PONT DES	TYPE	DET_PRE
LEXENTRY:	PONT DU	PONT DU	TYPE	DET_PRE
LEXENTRY:	PONT À	PONT À	TYPE	DET_PRE
LEXENTRY:	POORT	POORT	TYPE	ATT_SUF,DET_SUF
LEXENTRY:	PORTE	PORTE	TYPE	DET_PRE
LEXENTRY:	PORTE D'	PORTE D'	TYPE	ATT_PRE
LEXENTRY:	PORTE DE	PORTE DE	TYPE	DET_PRE
LEXENTRY:	PORTE DE L'	PORTE DE L'	TYPE	ATT_PRE
LEXENTRY:	PORTE DES	PORTE DES	TYPE	DET_PRE
LEXENTRY:	PORTE DU	PORTE DU	TYPE	DET_PRE
LEXENTRY:	POSTBUS	POSTBUS	BOXH	DETACH
LEXENTRY:	POSTE	POSTE	PLACEN	DETACH
LEXENTRY:	POSTFACH	POSTFACH	BOXH	DETACH
LEXENTRY:	PROMENADE	PROMENADE	TYPE	ATT_SUF,DET_PRE
LEXENTRY:	PROMENADE D'	PROMENADE D'	TYPE	ATT_PRE
LEXENTRY:	PROMENADE DE	PROMENADE DE	TYPE	DET_PRE
LEXENTRY:	PROMENADE DE L'	PROMENADE DE L'	TYPE	ATT_PRE
LEXENTRY:	PROMENADE DE LA	PROMENADE DE LA	TYPE	DET_PRE
LEXENTRY:	PROMENADE DES	PROMENADE DES	TYPE	DET_PRE
LEXENTRY:	PROMENADE DU	PROMENADE DU	TYPE	DET_PRE
LEXENTRY:	PVBA	PVBA	PLACEN	DETACH
LEXENTRY:	QUAI	QUAI	TYPE	DET_PRE
LEXENTRY:	QUAI AU	QUAI AU	TYPE	DET_PRE
LEXENTRY:	QUAI AUX	QUAI AUX	TYPE	DET_PRE
LEXENTRY:	QUAI D'	QUAI D'	TYPE	ATT_PRE
";
"LEXENTRY:	QUAI DE	QUAI DE	TYPE	DET_PRE
LEXENTRY:	QUAI DE L'	QUAI DE L'	TYPE	ATT_PRE
LEXENTRY:	QUAI DE LA	QUAI DE LA	TYPE	DET_PRE
LEXENTRY:	QUAI DES	QUAI DES	TYPE	DET_PRE
LEXENTRY:	QUAI DU	QUAI DU	TYPE	DET_PRE
LEXENTRY:	QUAI À	QUAI À	TYPE	DET_PRE
LEXENTRY:	QUARTIER	QUARTIER	TYPE	DET_PRE
LEXENTRY:	QUARTIER AU	QUARTIER AU	TYPE	DET_PRE
LEXENTRY:	QUARTIER DE	QUARTIER DE	TYPE	DET_PRE
LEXENTRY:	QUARTIER DE L'	QUARTIER DE L'	TYPE	ATT_PRE
LEXENTRY:	QUARTIER DE LA	QUARTIER DE LA	TYPE	DET_PRE
LEXENTRY:	QUARTIER DES	QUARTIER DES	TYPE	DET_PRE
LEXENTRY:	QUARTIER DU	QUARTIER DU	TYPE	DET_PRE
LEXENTRY:	RAMPE	RAMPE	TYPE	DET_PRE
LEXENTRY:	RAMPE D'	RAMPE D'	TYPE	ATT_PRE
LEXENTRY:	RAMPE DE	RAMPE DE	TYPE	DET_PRE
LEXENTRY:	RAMPE DES	RAMPE DES	TYPE	DET_PRE
LEXENTRY:	RAMPE DU	RAMPE DU	TYPE	DET_PRE
LEXENTRY:	RANGÉE	RANGÉE	TYPE	DET_PRE
LEXENTRY:	REI	REI	TYPE	ATT_SUF
LEXENTRY:	REMPART	REMPART	TYPE	DET_PRE
LEXENTRY:	REMPART D'	REMPART D'	TYPE	ATT_PRE
LEXENTRY:	REMPART DE L'	REMPART DE L'	TYPE	ATT_PRE
LEXENTRY:	REMPART DE LA	REMPART DE LA	TYPE	DET_PRE
LEXENTRY:	REMPART DES	REMPART DES	TYPE	DET_PRE
LEXENTRY:	REMPART DU	REMPART DU	TYPE	DET_PRE
LEXENTRY:	RESTAURANT	RESTAURANT	PLACEN	DETACH
LEXENTRY:	RESTAURATIE	RESTAURATIE	PLACEN	DETACH
LEXENTRY:	RING	RING	TYPE	ATT_SUF
LEXENTRY:	ROAD	ROAD	TYPE	DET_SUF
LEXENTRY:	ROCADE	ROCADE	TYPE	DET_PRE
LEXENTRY:	ROND-POINT	ROND-POINT	TYPE	DET_PRE
LEXENTRY:	ROND-POINT DE	ROND-POINT DE	TYPE	DET_PRE
LEXENTRY:	ROND-POINT DE L'	ROND-POINT DE L'	TYPE	ATT_PRE
LEXENTRY:	ROND-POINT DE LA	ROND-POINT DE LA	TYPE	DET_PRE
LEXENTRY:	ROND-POINT DES	ROND-POINT DES	TYPE	DET_PRE
LEXENTRY:	ROND-POINT DU	ROND-POINT DU	TYPE	DET_PRE
LEXENTRY:	ROUTE	ROUTE	TYPE	DET_PRE
LEXENTRY:	ROUTE D'	ROUTE D'	TYPE	ATT_PRE
LEXENTRY:	ROUTE DE	ROUTE DE	TYPE	DET_PRE
LEXENTRY:	ROUTE DE L'	ROUTE DE L'	TYPE	ATT_PRE
LEXENTRY:	ROUTE DE LA	ROUTE DE LA	TYPE	DET_PRE
LEXENTRY:	ROUTE DES	ROUTE DES	TYPE	DET_PRE
LEXENTRY:	ROUTE DU	ROUTE DU	TYPE	DET_PRE
LEXENTRY:	ROYAUME DE BELGIQUE	BELGIUM	NATION	DETACH
LEXENTRY:	RTE	ROUTE	TYPE	DET_PRE
LEXENTRY:	RUE	RUE	TYPE	DET_PRE
LEXENTRY:	RUE A.	RUE AUX	TYPE	DET_PRE
LEXENTRY:	RUE AU	RUE AU	TYPE	DET_PRE
LEXENTRY:	RUE AUX	RUE AUX	TYPE	DET_PRE
LEXENTRY:	RUE D'	RUE D'	TYPE	ATT_PRE
LEXENTRY:	RUE DE	RUE DE	TYPE	DET_PRE
LEXENTRY:	RUE DE L'	RUE DE L'	TYPE	ATT_PRE
LEXENTRY:	RUE DE LA	RUE DE LA	TYPE	DET_PRE
LEXENTRY:	RUE DES	RUE DES	TYPE	DET_PRE
LEXENTRY:	RUE DU	RUE DU	TYPE	DET_PRE
LEXENTRY:	RUE L'	RUE L'	TYPE	ATT_PRE
LEXENTRY:	RUE LA	RUE LA	TYPE	DET_PRE
";
"LEXENTRY:	RUE LE	RUE LE	TYPE	DET_PRE
LEXENTRY:	RUE LES	RUE LES	TYPE	DET_PRE
LEXENTRY:	RUE À	RUE À	TYPE	DET_PRE
LEXENTRY:	RUE À LA	RUE À LA	TYPE	DET_PRE
LEXENTRY:	RUELLE	RUELLE	TYPE	DET_PRE
LEXENTRY:	RUELLE AU	RUELLE AU	TYPE	DET_PRE
LEXENTRY:	RUELLE AUX	RUELLE AUX	TYPE	DET_PRE
LEXENTRY:	RUELLE D'	RUELLE D'	TYPE	ATT_PRE
LEXENTRY:	RUELLE DE	RUELLE DE	TYPE	DET_PRE
LEXENTRY:	RUELLE DE L'	RUELLE DE L'	TYPE	ATT_PRE
LEXENTRY:	RUELLE DE LA	RUELLE DE LA	TYPE	DET_PRE
LEXENTRY:	RUELLE DES	RUELLE DES	TYPE	DET_PRE
LEXENTRY:	RUELLE DU	RUELLE DU	TYPE	DET_PRE
LEXENTRY:	RUELLE À	RUELLE À	TYPE	DET_PRE
LEXENTRY:	RUI	RUI	TYPE	ATT_SUF
LEXENTRY:	RÉSIDENCE	RÉSIDENCE	TYPE	DET_PRE
LEXENTRY:	RÉSIDENCE D'	RÉSIDENCE D'	TYPE	ATT_PRE
LEXENTRY:	RÉSIDENCE DE	RÉSIDENCE DE	TYPE	DET_PRE
LEXENTRY:	RÉSIDENCE DE L'	RÉSIDENCE DE L'	TYPE	ATT_PRE
LEXENTRY:	RÉSIDENCE DE LA	RÉSIDENCE DE LA	TYPE	DET_PRE
LEXENTRY:	RÉSIDENCE DES	RÉSIDENCE DES	TYPE	DET_PRE
LEXENTRY:	RÉSIDENCE DU	RÉSIDENCE DU	TYPE	DET_PRE
LEXENTRY:	RÉSIDENCE LA	RÉSIDENCE LA	TYPE	DET_PRE
LEXENTRY:	RÉSIDENCE LE	RÉSIDENCE LE	TYPE	DET_PRE
LEXENTRY:	RÉSIDENCE LES	RÉSIDENCE LES	TYPE	DET_PRE
LEXENTRY:	S	S	DIRECT	DETACH
LEXENTRY:	SA	SA	PLACEN	DETACH
LEXENTRY:	SAINT	ST	WORD	DETACH
LEXENTRY:	SC	SC	PLACEN	DETACH
LEXENTRY:	SCA	SCA	PLACEN	DETACH
LEXENTRY:	SCHANS	SCHANS	TYPE	DET_SUF
LEXENTRY:	SCHOOL	SCHOOL	PLACEN	DETACH
LEXENTRY:	SCHOUWBURG	SCHOUWBURG	PLACEN	DETACH
LEXENTRY:	SCS	SCS	PLACEN	DETACH
LEXENTRY:	SE	SE	DIRECT	DETACH
LEXENTRY:	SECOND	2ND	WORD,ORD	DETACH
LEXENTRY:	SENTE DE	SENTE DE	TYPE	DET_PRE
LEXENTRY:	SENTE DE L'	SENTE DE L'	TYPE	ATT_PRE
LEXENTRY:	SENTE DE LA	SENTE DE LA	TYPE	DET_PRE
LEXENTRY:	SENTE DES	SENTE DES	TYPE	DET_PRE
LEXENTRY:	SENTIER	SENTIER	TYPE	DET_PRE
LEXENTRY:	SENTIER AUX	SENTIER AUX	TYPE	DET_PRE
LEXENTRY:	SENTIER D'	SENTIER D'	TYPE	ATT_PRE
LEXENTRY:	SENTIER DE	SENTIER DE	TYPE	DET_PRE
LEXENTRY:	SENTIER DE L'	SENTIER DE L'	TYPE	ATT_PRE
LEXENTRY:	SENTIER DE LA	SENTIER DE LA	TYPE	DET_PRE
LEXENTRY:	SENTIER DES	SENTIER DES	TYPE	DET_PRE
LEXENTRY:	SENTIER DU	SENTIER DU	TYPE	DET_PRE
LEXENTRY:	SENTIER À	SENTIER À	TYPE	DET_PRE
LEXENTRY:	SENTIERS DES	SENTIERS DES	TYPE	DET_PRE
LEXENTRY:	SEVEN	7	NUMBER	DETACH
LEXENTRY:	SEVENTEEN	17	NUMBER	DETACH
LEXENTRY:	SEVENTEENTH	17TH	WORD,ORD	DETACH
LEXENTRY:	SEVENTH	7TH	WORD,ORD	DETACH
LEXENTRY:	SEVENTIETH	70TH	WORD,ORD	DETACH
LEXENTRY:	SEVENTY	70	NUMBER	DETACH
LEXENTRY:	SINGEL	SINGEL	TYPE	ATT_SUF,DET_SUF
LEXENTRY:	SIX	6	NUMBER	DETACH
LEXENTRY:	SIXTEEN	16	NUMBER	DETACH
";
"LEXENTRY:	SIXTEENTH	16TH	WORD,ORD	DETACH
LEXENTRY:	SIXTH	6TH	WORD,ORD	DETACH
LEXENTRY:	SIXTIETH	60TH	WORD,ORD	DETACH
LEXENTRY:	SIXTY	60	NUMBER	DETACH
LEXENTRY:	SLUIS	SLUIS	TYPE	ATT_SUF,DET_SUF
LEXENTRY:	SNC	SNC	PLACEN	DETACH
LEXENTRY:	SOCIÉTÉ	SOCIÉTÉ	PLACEN	DETACH
LEXENTRY:	SOUTH	S	DIRECT	DETACH
LEXENTRY:	SOUTHEAST	SE	DIRECT	DETACH
LEXENTRY:	SOUTHWEST	SW	DIRECT	DETACH
LEXENTRY:	SPOOR	SPOOR	TYPE	ATT_SUF
LEXENTRY:	SPORTPARK	SPORTPARK	PLACEN	DETACH
LEXENTRY:	SPRL	SPRL	PLACEN	DETACH
LEXENTRY:	SQ	SQUARE	TYPE	ATT_SUF
LEXENTRY:	SQUARE	SQUARE	TYPE	ATT_SUF,DET_PRE,DET_SUF
LEXENTRY:	SQUARE D'	SQUARE D'	TYPE	ATT_PRE
LEXENTRY:	SQUARE DE	SQUARE DE	TYPE	DET_PRE
LEXENTRY:	SQUARE DE L'	SQUARE DE L'	TYPE	ATT_PRE
LEXENTRY:	SQUARE DE LA	SQUARE DE LA	TYPE	DET_PRE
LEXENTRY:	SQUARE DES	SQUARE DES	TYPE	DET_PRE
LEXENTRY:	SQUARE DU	SQUARE DU	TYPE	DET_PRE
LEXENTRY:	ST	ST	WORD	DETACH
LEXENTRY:	STADE	STADE	PLACEN	DETACH
LEXENTRY:	STADIE	STADIE	PLACEN	DETACH
LEXENTRY:	STADION	STADION	PLACEN	DETACH
LEXENTRY:	STADIUM	STADIUM	PLACEN	DETACH
LEXENTRY:	STATION	STATION	PLACEN	DETACH
LEXENTRY:	STE	STE	UNITH	DETACH
LEXENTRY:	STEDE	STEDE	TYPE	ATT_SUF
LEXENTRY:	STEEG	STEEG	TYPE	ATT_SUF,DET_SUF
LEXENTRY:	STEEGJE	STEEGJE	TYPE	ATT_SUF,DET_SUF
LEXENTRY:	STEEN	STEEN	TYPE	ATT_SUF
LEXENTRY:	STEENWEG	STEENWEG	TYPE	ATT_SUF
LEXENTRY:	STEENWEG NAAR	STEENWEG NAAR	TYPE	DET_PRE
LEXENTRY:	STEENWEG OP	STEENWEG OP	TYPE	DET_PRE
LEXENTRY:	STEG	STEG	TYPE	DET_SUF
LEXENTRY:	STEIN	STEIN	TYPE	ATT_SUF,DET_SUF
LEXENTRY:	STR	STRAAT	TYPE	ATT_SUF
LEXENTRY:	STRAAT	STRAAT	TYPE	ATT_SUF,DET_SUF
LEXENTRY:	STRAATJE	STRAATJE	TYPE	ATT_SUF
LEXENTRY:	STRAATWEG	STRAATWEG	TYPE	ATT_SUF
LEXENTRY:	STRASSE	STRASSE	TYPE	ATT_SUF,DET_SUF
LEXENTRY:	STREET	STREET	TYPE	DET_SUF
LEXENTRY:	STWG	STEENWEG	TYPE	ATT_SUF
LEXENTRY:	SUITE 	STE	UNITH	DETACH
LEXENTRY:	SV	SV	PLACEN	DETACH
LEXENTRY:	SW	SW	DIRECT	DETACH
LEXENTRY:	SWG	STEENWEG	TYPE	ATT_SUF
LEXENTRY:	TAL	TAL	TYPE	ATT_SUF
LEXENTRY:	TEN	10	NUMBER	DETACH
LEXENTRY:	TENTH	10TH	WORD,ORD	DETACH
LEXENTRY:	TERRASSE DE LA	TERRASSE DE LA	TYPE	DET_PRE
LEXENTRY:	THEATER	THEATER	PLACEN	DETACH
LEXENTRY:	THIRD	3RD	WORD,ORD	DETACH
LEXENTRY:	THIRTEEN	13	NUMBER	DETACH
LEXENTRY:	THIRTEENTH	13TH	WORD,ORD	DETACH
LEXENTRY:	THIRTIETH	30TH	WORD,ORD	DETACH
LEXENTRY:	THIRTY	30	NUMBER	DETACH
LEXENTRY:	THREE	3	NUMBER	DETACH
LEXENTRY:	THÉÂTRE	THÉÂTRE	PLACEN	DETACH
LEXENTRY:	TONEEL	TONEEL	PLACEN	DETACH
LEXENTRY:	TRAVERSE D'	TRAVERSE D'	TYPE	ATT_PRE
LEXENTRY:	TRAVERSE DES	TRAVERSE DES	TYPE	DET_PRE
";
"LEXENTRY:	TUIN	TUIN	TYPE	ATT_SUF,DET_SUF
LEXENTRY:	TUNNEL	TUNNEL	TYPE	ATT_SUF,DET_SUF
LEXENTRY:	TUNNEL DE	TUNNEL DE	TYPE	DET_PRE
LEXENTRY:	TUNNEL DU	TUNNEL DU	TYPE	DET_PRE
LEXENTRY:	TWELFTH	12TH	WORD,ORD	DETACH
LEXENTRY:	TWELVE	12	NUMBER	DETACH
LEXENTRY:	TWENTIETH	20TH	WORD,ORD	DETACH
LEXENTRY:	TWENTY	20	NUMBER	DETACH
LEXENTRY:	TWO	2	NUMBER	DETACH
LEXENTRY:	UFER	UFER	TYPE	ATT_SUF
LEXENTRY:	UNIVERSITAIRE	UNIVERSITAIRE	PLACEN	DETACH
LEXENTRY:	UNIVERSITEIT	UNIVERSITEIT	PLACEN	DETACH
LEXENTRY:	UNIVERSITÉ	UNIVERSITÉ	PLACEN	DETACH
LEXENTRY:	VAART	VAART	TYPE	ATT_SUF,DET_SUF
LEXENTRY:	VAL	VALLÉE	TYPE	DET_PRE
LEXENTRY:	VALLON D'	VALLON D'	TYPE	ATT_PRE
LEXENTRY:	VALLON DES	VALLON DES	TYPE	DET_PRE
LEXENTRY:	VALLÉE	VALLÉE	TYPE	DET_PRE
LEXENTRY:	VALLÉE DE	VALLÉE DE	TYPE	DET_PRE
LEXENTRY:	VALLÉE DE L'	VALLÉE DE L'	TYPE	ATT_PRE
LEXENTRY:	VALLÉE DES	VALLÉE DES	TYPE	DET_PRE
LEXENTRY:	VALLÉE DU	VALLÉE DU	TYPE	DET_PRE
LEXENTRY:	VALLÉE À	VALLÉE À	TYPE	DET_PRE
LEXENTRY:	VEER	VEER	TYPE	ATT_SUF,DET_SUF
LEXENTRY:	VEG	VEG	PLACEN	DETACH
LEXENTRY:	VELD	VELD	TYPE	ATT_SUF,DET_SUF
LEXENTRY:	VEN	VEN	TYPE	ATT_SUF
LEXENTRY:	VENELLE	VENELLE	TYPE	DET_PRE
LEXENTRY:	VENELLE AU	VENELLE AU	TYPE	DET_PRE
LEXENTRY:	VENELLE AUX	VENELLE AUX	TYPE	DET_PRE
LEXENTRY:	VENELLE DE	VENELLE DE	TYPE	DET_PRE
LEXENTRY:	VENELLE DE L'	VENELLE DE L'	TYPE	ATT_PRE
LEXENTRY:	VENELLE DE LA	VENELLE DE LA	TYPE	DET_PRE
LEXENTRY:	VENELLE DES	VENELLE DES	TYPE	DET_PRE
LEXENTRY:	VENELLE DU	VENELLE DU	TYPE	DET_PRE
LEXENTRY:	VENNOOTSCHAP	VENNOOTSCHAP	PLACEN	DETACH
LEXENTRY:	VERENIGING	VERENIGING	PLACEN	DETACH
LEXENTRY:	VEST	VEST	TYPE	ATT_SUF
LEXENTRY:	VESTING	VESTING	TYPE	DET_SUF
LEXENTRY:	VGN	VGN	PLACEN	DETACH
LEXENTRY:	VIADUC DE L'	VIADUC DE L'	TYPE	ATT_PRE
LEXENTRY:	VIEILLE ROUTE DE	VIEILLE ROUTE DE	TYPE	DET_PRE
LEXENTRY:	VIEUX CHEMIN	VIEUX CHEMIN	TYPE	DET_PRE
LEXENTRY:	VIEUX CHEMIN DE	VIEUX CHEMIN DE	TYPE	DET_PRE
LEXENTRY:	VIEUX CHEMIN DE L'	VIEUX CHEMIN DE L'	TYPE	ATT_PRE
LEXENTRY:	VILLA DES	VILLA DES	TYPE	DET_PRE
LEXENTRY:	VILLE DE	VILLE DE	TYPE	DET_PRE
LEXENTRY:	VLIEGHAVEN	VLIEGHAVEN	PLACEN	DETACH
LEXENTRY:	VLIEGVELD	VLIEGVELD	PLACEN	DETACH
LEXENTRY:	VLIET	VLIET	TYPE	ATT_SUF
LEXENTRY:	VOF	VOF	PLACEN	DETACH
LEXENTRY:	VOIE	VOIE	TYPE	DET_PRE
LEXENTRY:	VOIE AUX	VOIE AUX	TYPE	DET_PRE
LEXENTRY:	VOIE D'	VOIE D'	TYPE	ATT_PRE
LEXENTRY:	VOIE DE	VOIE DE	TYPE	DET_PRE
LEXENTRY:	VOIE DE L'	VOIE DE L'	TYPE	ATT_PRE
LEXENTRY:	VOIE DE LA	VOIE DE LA	TYPE	DET_PRE
LEXENTRY:	VOIE DES	VOIE DES	TYPE	DET_PRE
";
"LEXENTRY:	VOIE DU	VOIE DU	TYPE	DET_PRE
LEXENTRY:	VOIRIE	VOIRIE	TYPE	DET_PRE
LEXENTRY:	VZW	VZW	PLACEN	DETACH
LEXENTRY:	W	W	DIRECT	DETACH
LEXENTRY:	WAL	WAL	TYPE	ATT_SUF
LEXENTRY:	WALL	WALL	TYPE	ATT_SUF
LEXENTRY:	WARANDE	WARANDE	TYPE	ATT_SUF
LEXENTRY:	WEG	WEG	TYPE	ATT_PRE,ATT_SUF,DET_PRE,DET_SUF
LEXENTRY:	WEGEL	WEGEL	TYPE	ATT_SUF,DET_SUF
LEXENTRY:	WEIDE	WEIDE	TYPE	ATT_SUF
LEXENTRY:	WERF	WERF	TYPE	ATT_SUF,DET_SUF
LEXENTRY:	WEST	W	DIRECT	DETACH
LEXENTRY:	WIESEN	WIESEN	TYPE	ATT_SUF
LEXENTRY:	WIJK	WIJK	TYPE	ATT_SUF
LEXENTRY:	WINKEL	WINKEL	PLACEN,TYPE	ATT_SUF,DETACH
LEXENTRY:	ZAAK	ZAAK	PLACEN	DETACH
LEXENTRY:	ZIJDE	ZIJDE	TYPE	ATT_SUF
LEXENTRY:	ÉCHANGEUR	ÉCHANGEUR	TYPE	DET_PRE
LEXENTRY:	ÉCHANGEUR DES	ÉCHANGEUR DES	TYPE	DET_PRE
LEXENTRY:	ÉCOLE	ÉCOLE	PLACEN	DETACH
LEXENTRY:	ÎLE	ÎLE	TYPE	DET_PRE
"].
(** data/sample/canada.lex *)
Definition slex_canada : list string :=
[
"LEXICON:	lex-canada.txt	FRE	fr_CA
LEXENTRY:	PO BOX	PO BOX	BOXH	DETACH
LEXENTRY:	P.O. BOX	PO BOX	BOXH	DETACH
LEXENTRY:	PO	PO BOX	BOXH	DETACH
LEXENTRY:	P.O.	PO BOX	BOXH	DETACH
LEXENTRY:	STN	STN	BOXH	DETACH
LEXENTRY:	STATION	STN	BOXH	DETACH
LEXENTRY:	GD STN	STN	BOXH	DETACH
LEXENTRY:	#	APT	UNITH	DETACH
LEXENTRY:	1	1	NUMBER	DETACH
LEXENTRY:	10	10	NUMBER	DETACH
LEXENTRY:	10E	10E	WORD,ORD	DETACH
LEXENTRY:	10TH	10TH	WORD,ORD	DETACH
LEXENTRY:	11	11	NUMBER	DETACH
LEXENTRY:	11TH	11TH	WORD,ORD	DETACH
LEXENTRY:	12	12	NUMBER	DETACH
LEXENTRY:	12TH	12TH	WORD,ORD	DETACH
LEXENTRY:	13	13	NUMBER	DETACH
LEXENTRY:	13TH	13TH	WORD,ORD	DETACH
LEXENTRY:	14	14	NUMBER	DETACH
LEXENTRY:	14TH	14TH	WORD,ORD	DETACH
LEXENTRY:	15	15	NUMBER	DETACH
LEXENTRY:	15TH	15TH	WORD,ORD	DETACH
LEXENTRY:	16	16	NUMBER	DETACH
LEXENTRY:	16TH	16TH	WORD,ORD	DETACH
LEXENTRY:	17	17	NUMBER	DETACH
LEXENTRY:	17TH	17TH	WORD,ORD	DETACH
LEXENTRY:	18	18	NUMBER	DETACH
LEXENTRY:	18TH	18TH	WORD,ORD	DETACH
LEXENTRY:	19	19	NUMBER	DETACH
LEXENTRY:	19TH	19TH	WORD,ORD	DETACH
LEXENTRY:	1ER	1ER	WORD,ORD	DETACH
LEXENTRY:	1ST	1ST	WORD,ORD	DETACH
LEXENTRY:	1ÈRE	1ER	WORD,ORD	DETACH
LEXENTRY:	1È	1ER	WORD,ORD	DETACH
LEXENTRY:	1E	1ER	WORD,ORD	DETACH
LEXENTRY:	2	2	NUMBER	DETACH
LEXENTRY:	20	20	NUMBER	DETACH
LEXENTRY:	20TH	20TH	WORD,ORD	DETACH
LEXENTRY:	2E	2E	WORD,ORD	DETACH
LEXENTRY:	2ND	2ND	WORD,ORD	DETACH
LEXENTRY:	3	3	NUMBER	DETACH
LEXENTRY:	30	30	NUMBER	DETACH
LEXENTRY:	30TH	30TH	WORD,ORD	DETACH
LEXENTRY:	3E	3E	WORD,ORD	DETACH
LEXENTRY:	3RD	3RD	WORD,ORD	DETACH
LEXENTRY:	4	4	NUMBER	DETACH
LEXENTRY:	40	40	NUMBER	DETACH
LEXENTRY:	40TH	40TH	WORD,ORD	DETACH
LEXENTRY:	4E	4E	WORD,ORD	DETACH
LEXENTRY:	4TH	4TH	WORD,ORD	DETACH
LEXENTRY:	5	5	NUMBER	DETACH
LEXENTRY:	50	50	NUMBER	DETACH
LEXENTRY:	50TH	50TH	WORD,ORD	DETACH
LEXENTRY:	5E	5E	WORD,ORD	DETACH
LEXENTRY:	5TH	5TH	WORD,ORD	DETACH
LEXENTRY:	6	6	NUMBER	DETACH
LEXENTRY:	60	60	NUMBER	DETACH
LEXENTRY:	60TH	60TH	WORD,ORD	DETACH
LEXENTRY:	6E	6E	WORD,ORD	DETACH
LEXENTRY:	6TH	6TH	WORD,ORD	DETACH
LEXENTRY:	7	7	NUMBER	DETACH
LEXENTRY:	70	70	NUMBER	DETACH
LEXENTRY:	70TH	70TH	WORD,ORD	DETACH
LEXENTRY:	7E	7E	WORD,ORD	DETACH
LEXENTRY:	7TH	7TH	WORD,ORD	DETACH
LEXENTRY:	8	8	NUMBER	DETACH
LEXENTRY:	80	80	NUMBER	DETACH
LEXENTRY:	80TH	80TH	WORD,ORD	DETACH
LEXENTRY:	8E	8E	WORD,ORD	DETACH
LEXENTRY:	8TH	8TH	WORD,ORD	DETACH
LEXENTRY:	9	9	NUMBER	DETACH
LEXENTRY:	90	90	NUMBER	DETACH
LEXENTRY:	90TH	90TH	WORD,ORD	DETACH
LEXENTRY:	9E	9E	WORD,ORD	DETACH
LEXENTRY:	9TH	9TH	WORD,ORD	DETACH
";
"LEXENTRY:	AB	ALBERTA	PROV	DETACH
LEXENTRY:	AEROPORT	AEROPORT	PLACEN	DETACH
LEXENTRY:	AGENCY	AGENCY	PLACEN	DETACH
LEXENTRY:	AIRPORT	AIRPORT	PLACEN	DETACH
LEXENTRY:	ALLEE	ALY	TYPE	DET_SUF
LEXENTRY:	ALLEY	ALY	TYPE	DET_SUF
LEXENTRY:	ALLIE	ALLIE	TYPE	ATT_PRE,DET_PRE
LEXENTRY:	ALLIE D'	ALLIE	TYPE	ATT_PRE
LEXENTRY:	ALLIE DE	ALLIE	TYPE	DET_PRE
LEXENTRY:	ALLIE DE L'	ALLIE	TYPE	ATT_PRE
LEXENTRY:	ALLIE DE LA	ALLIE	TYPE	DET_PRE
LEXENTRY:	ALLIE DES	ALLIE	TYPE	DET_PRE
LEXENTRY:	ALLIE L'	ALLIE	TYPE	ATT_PRE
LEXENTRY:	ALLIES	ALLIES	TYPE	DET_PRE
LEXENTRY:	ALLIES DES	ALLIES	TYPE	DET_PRE
LEXENTRY:	ALLY	ALY	TYPE	DET_SUF
LEXENTRY:	ALLÉE	ALLIE	TYPE	DET_PRE
LEXENTRY:	ALLÉE AUX	ALLIE	TYPE	DET_PRE
LEXENTRY:	ALLÉE D'	ALLIE	TYPE	ATT_PRE
LEXENTRY:	ALLÉE DE	ALLIE	TYPE	DET_PRE
LEXENTRY:	ALLÉE DE L'	ALLIE	TYPE	ATT_PRE
LEXENTRY:	ALLÉE DE LA	ALLIE	TYPE	DET_PRE
LEXENTRY:	ALLÉE DES	ALLIE	TYPE	DET_PRE
LEXENTRY:	ALLÉE DU	ALLIE	TYPE	DET_PRE
LEXENTRY:	ALLÉE L'	ALLIE	TYPE	ATT_PRE
LEXENTRY:	ALLÉE LA	ALLIE	TYPE	DET_PRE
LEXENTRY:	ALLÉE LE	ALLIE	TYPE	DET_PRE
LEXENTRY:	ALLÉE LES	ALLIE	TYPE	DET_PRE
LEXENTRY:	ALLÉES	ALLIES	TYPE	DET_PRE
LEXENTRY:	ALLÉES DES	ALLIES	TYPE	DET_PRE
LEXENTRY:	ALY	ALY	TYPE	DET_SUF
LEXENTRY:	ANCIEN CHEMIN	ANCIEN CHEMIN	TYPE	DET_PRE
LEXENTRY:	ANCIEN CHEMIN DE 	ANCIEN CHEMIN	TYPE	DET_PRE
LEXENTRY:	ANCIENNE ROUTE	ANCIENNE ROUTE	TYPE	DET_PRE
LEXENTRY:	ANCIENNE ROUTE DE	ANCIENNE ROUTE	TYPE	DET_PRE
LEXENTRY:	ANCIENNE RUE	ANCIENNE RUE	TYPE	DET_PRE
LEXENTRY:	ANCIENNE RUE AUX	ANCIENNE RUE	TYPE	DET_PRE
LEXENTRY:	ANEX	ANX	TYPE	DET_SUF
LEXENTRY:	ANNEX	ANX	TYPE	DET_SUF
LEXENTRY:	ANNX	ANX	TYPE	DET_SUF
LEXENTRY:	ANX	ANX	TYPE	DET_SUF
LEXENTRY:	APARTMENT	APT	UNITH	DETACH
LEXENTRY:	APP	APP	UNITH	DETACH
LEXENTRY:	APPARTEMENT	APP	UNITH	DETACH
LEXENTRY:	APT	APT	UNITH	DETACH
LEXENTRY:	ARC	ARC	TYPE	DET_SUF
LEXENTRY:	ARCADE	ARC	TYPE	DET_SUF
LEXENTRY:	AUTOROUTE	AUTOROUTE	TYPE	ATT_PRE,DET_PRE
LEXENTRY:	AUTOROUTE DE	AUTOROUTE	TYPE	DET_PRE
LEXENTRY:	AUTOROUTE DE L'	AUTOROUTE	TYPE	ATT_PRE
LEXENTRY:	AUTOROUTE DU	AUTOROUTE	TYPE	DET_PRE
LEXENTRY:	AV	AVENUE	TYPE	DET_PRE,DET_SUF
LEXENTRY:	AV.	AVENUE	TYPE	DET_PRE,DET_SUF
LEXENTRY:	AVE	AVENUE	TYPE	DET_PRE,DET_SUF
LEXENTRY:	AVE.	AVENUE	TYPE	DET_PRE,DET_SUF
LEXENTRY:	AVEN	AVENUE	TYPE	DET_PRE,DET_SUF
LEXENTRY:	AVENU	AVENUE	TYPE	DET_PRE,DET_SUF
LEXENTRY:	AVENUE	AVENUE	TYPE	ATT_PRE,DET_PRE,DET_SUF
LEXENTRY:	AVENUE D'	AVENUE	TYPE	ATT_PRE
LEXENTRY:	AVENUE DE	AVENUE	TYPE	DET_PRE
LEXENTRY:	AVENUE DE L'	AVENUE	TYPE	ATT_PRE
LEXENTRY:	AVENUE DE LA	AVENUE	TYPE	DET_PRE
";
"LEXENTRY:	AVENUE DES	AVENUE	TYPE	DET_PRE
LEXENTRY:	AVENUE DU	AVENUE	TYPE	DET_PRE
LEXENTRY:	AVENUE LA 	AVENUE	TYPE	DET_PRE
LEXENTRY:	AVN	AVENUE	TYPE	DET_PRE,DET_SUF
LEXENTRY:	AVNUE	AVENUE	TYPE	DET_PRE,DET_SUF
LEXENTRY:	BAKERY	BAKERY	PLACEN	DETACH
LEXENTRY:	BANK	BANK	PLACEN	DETACH
LEXENTRY:	BANQUE	BANQUE	PLACEN	DETACH
LEXENTRY:	BAYOO	BYU	TYPE	DET_SUF
LEXENTRY:	BAYOU	BYU	TYPE	DET_SUF
LEXENTRY:	BC	BRITISH COLUMBIA	PROV	DETACH
LEXENTRY:	BCH	BCH	TYPE	DET_SUF
LEXENTRY:	BEACH	BCH	TYPE	DET_SUF
LEXENTRY:	BEND	BND	TYPE	DET_SUF
LEXENTRY:	BERGE	BERGE	TYPE	DET_PRE
LEXENTRY:	BERGE DE	BERGE	TYPE	DET_PRE
LEXENTRY:	BERGE DE LA	BERGE	TYPE	DET_PRE
LEXENTRY:	BG	BG	TYPE	DET_SUF
LEXENTRY:	BGS	BGS	TYPE	DET_SUF
LEXENTRY:	BIBLIOTHÈQUE	BIBLIOTHÈQUE	PLACEN	DETACH
LEXENTRY:	BLDG	BLDG	UNITH	DETACH
LEXENTRY:	BLF	BLF	TYPE	DET_SUF
LEXENTRY:	BLFS	BLFS	TYPE	DET_SUF
LEXENTRY:	BLUF	BLF	TYPE	DET_SUF
LEXENTRY:	BLUFF	BLF	TYPE	DET_SUF
LEXENTRY:	BLUFFS	BLFS	TYPE	DET_SUF
LEXENTRY:	BLVD	BOULEVARD	TYPE	DET_PRE,DET_SUF
LEXENTRY:	BLVD D'	BOULEVARD	TYPE	ATT_PRE
LEXENTRY:	BLVD DE	BOULEVARD	TYPE	DET_PRE,DET_SUF
LEXENTRY:	BLVD DE L'	BOULEVARD	TYPE	ATT_PRE
LEXENTRY:	BLVD DE LA	BOULEVARD	TYPE	DET_PRE,DET_SUF
LEXENTRY:	BLVD DES	BOULEVARD	TYPE	DET_PRE,DET_SUF
LEXENTRY:	BLVD DU	BOULEVARD	TYPE	DET_PRE,DET_SUF
LEXENTRY:	BLVD LE	BOULEVARD	TYPE	DET_PRE,DET_SUF
LEXENTRY:	BLVD LES	BOULEVARD	TYPE	DET_PRE,DET_SUF
LEXENTRY:	BLVD.	BOULEVARD	TYPE	DET_PRE,DET_SUF
LEXENTRY:	BLVD. D'	BOULEVARD	TYPE	ATT_PRE
LEXENTRY:	BLVD. DE	BOULEVARD	TYPE	DET_PRE,DET_SUF
LEXENTRY:	BLVD. DE L'	BOULEVARD	TYPE	ATT_PRE
LEXENTRY:	BLVD. DE LA	BOULEVARD	TYPE	DET_PRE,DET_SUF
LEXENTRY:	BLVD. DES	BOULEVARD	TYPE	DET_PRE,DET_SUF
LEXENTRY:	BLVD. DU	BOULEVARD	TYPE	DET_PRE,DET_SUF
LEXENTRY:	BLVD. LE	BOULEVARD	TYPE	DET_PRE,DET_SUF
LEXENTRY:	BLVD. LES	BOULEVARD	TYPE	DET_PRE,DET_SUF
LEXENTRY:	BND	BND	TYPE	DET_SUF
LEXENTRY:	BOT	BTM	TYPE	DET_SUF
LEXENTRY:	BOTTM	BTM	TYPE	DET_SUF
LEXENTRY:	BOTTOM	BTM	TYPE	DET_SUF
LEXENTRY:	BOUL	BOULEVARD	TYPE	DET_PRE,DET_SUF
LEXENTRY:	BOUL D'	BOULEVARD	TYPE	ATT_PRE
LEXENTRY:	BOUL DE	BOULEVARD	TYPE	DET_PRE,DET_SUF
LEXENTRY:	BOUL DE L'	BOULEVARD	TYPE	ATT_PRE
LEXENTRY:	BOUL DE LA	BOULEVARD	TYPE	DET_PRE,DET_SUF
LEXENTRY:	BOUL DES	BOULEVARD	TYPE	DET_PRE,DET_SUF
LEXENTRY:	BOUL DU	BOULEVARD	TYPE	DET_PRE,DET_SUF
LEXENTRY:	BOUL LE	BOULEVARD	TYPE	DET_PRE,DET_SUF
LEXENTRY:	BOUL LES	BOULEVARD	TYPE	DET_PRE,DET_SUF
LEXENTRY:	BOUL.	BOULEVARD	TYPE	DET_PRE,DET_SUF
LEXENTRY:	BOUL. D'	BOULEVARD	TYPE	ATT_PRE
";
"LEXENTRY:	BOUL. DE	BOULEVARD	TYPE	DET_PRE,DET_SUF
LEXENTRY:	BOUL. DE LA	BOULEVARD	TYPE	DET_PRE,DET_SUF
LEXENTRY:	BOUL. DES	BOULEVARD	TYPE	DET_PRE,DET_SUF
LEXENTRY:	BOUL. DU	BOULEVARD	TYPE	DET_PRE,DET_SUF
LEXENTRY:	BOUL. LE	BOULEVARD	TYPE	DET_PRE,DET_SUF
LEXENTRY:	BOUL. LES	BOULEVARD	TYPE	DET_PRE,DET_SUF
LEXENTRY:	BOULANGERIE	BOULANGERIE	PLACEN	DETACH
LEXENTRY:	BOULEVARD	BOULEVARD	TYPE	ATT_PRE,DET_PRE,DET_SUF
LEXENTRY:	BOULEVARD D'	BOULEVARD	TYPE	ATT_PRE
LEXENTRY:	BOULEVARD DE	BOULEVARD	TYPE	DET_PRE,DET_SUF
LEXENTRY:	BOULEVARD DE L'	BOULEVARD	TYPE	ATT_PRE
LEXENTRY:	BOULEVARD DE LA	BOULEVARD	TYPE	DET_PRE,DET_SUF
LEXENTRY:	BOULEVARD DES	BOULEVARD	TYPE	DET_PRE,DET_SUF
LEXENTRY:	BOULEVARD DU	BOULEVARD	TYPE	DET_PRE,DET_SUF
LEXENTRY:	BOULEVARD LE	BOULEVARD	TYPE	DET_PRE,DET_SUF
LEXENTRY:	BOULEVARD LES	BOULEVARD	TYPE	DET_PRE,DET_SUF
LEXENTRY:	BOULV	BOULEVARD	TYPE	DET_PRE,DET_SUF
LEXENTRY:	BR	BR	TYPE	DET_SUF
LEXENTRY:	BRANCH	BR	TYPE	DET_SUF
LEXENTRY:	BRDGE	BRG	TYPE	DET_SUF
LEXENTRY:	BRETELLE	BRETELLE	TYPE	DET_PRE
LEXENTRY:	BRG	BRG	TYPE	DET_SUF
LEXENTRY:	BRIDGE	BRG	TYPE	DET_SUF
LEXENTRY:	BRK	BRK	TYPE	DET_SUF
LEXENTRY:	BRKS	BRKS	TYPE	DET_SUF
LEXENTRY:	BRNCH	BR	TYPE	DET_SUF
LEXENTRY:	BROOK	BRK	TYPE	DET_SUF
LEXENTRY:	BROOKS	BRKS	TYPE	DET_SUF
LEXENTRY:	BTM	BTM	TYPE	DET_SUF
LEXENTRY:	BUILDING	BLDG	UNITH	DETACH
LEXENTRY:	BUREAU	BUREAU	PLACEN,UNITH	DETACH
LEXENTRY:	BURG	BG	TYPE	DET_SUF
LEXENTRY:	BURGS	BGS	TYPE	DET_SUF
LEXENTRY:	BYP	BYP	TYPE	DET_SUF
LEXENTRY:	BYPA	BYP	TYPE	DET_SUF
LEXENTRY:	BYPAS	BYP	TYPE	DET_SUF
LEXENTRY:	BYPASS	BYP	TYPE	DET_SUF
LEXENTRY:	BYPS	BYP	TYPE	DET_SUF
LEXENTRY:	BYU	BYU	TYPE	DET_SUF
LEXENTRY:	CA	CANADA	NATION	DETACH
LEXENTRY:	CAFE	CAFE	PLACEN	DETACH
LEXENTRY:	CAFÉ	CAFÉ	PLACEN	DETACH
LEXENTRY:	CAMP	CMP	TYPE	DET_SUF
LEXENTRY:	CAN	CANADA	NATION	DETACH
LEXENTRY:	CANADA	CANADA	NATION	DETACH
LEXENTRY:	CANAL	CANAL	TYPE	DET_PRE
LEXENTRY:	CANYN	CYN	TYPE	DET_SUF
LEXENTRY:	CANYON	CYN	TYPE	DET_SUF
LEXENTRY:	CAPE	CPE	TYPE	DET_SUF
LEXENTRY:	CARREFOUR	CARREFOUR	TYPE	DET_PRE
LEXENTRY:	CARREFOUR AUX	CARREFOUR	TYPE	DET_PRE
LEXENTRY:	CARREFOUR DE	CARREFOUR	TYPE	DET_PRE
LEXENTRY:	CARREFOUR DE LA	CARREFOUR	TYPE	DET_PRE
LEXENTRY:	CARREFOUR DES	CARREFOUR	TYPE	DET_PRE
LEXENTRY:	CARREFOUR DU	CARREFOUR	TYPE	DET_PRE
LEXENTRY:	CARRI	CARRI	TYPE	ATT_PRE,DET_PRE
LEXENTRY:	CARRI AU	CARRI	TYPE	DET_PRE
LEXENTRY:	CARRI D'	CARRI	TYPE	ATT_PRE
LEXENTRY:	CARRI DE L'	CARRI	TYPE	ATT_PRE
LEXENTRY:	CARRI DE LA	CARRI	TYPE	DET_PRE
LEXENTRY:	CARRI DES	CARRI	TYPE	DET_PRE
";
"LEXENTRY:	CARRI DU	CARRI	TYPE	DET_PRE
LEXENTRY:	CARRÉ	CARRI	TYPE	DET_PRE
LEXENTRY:	CARRÉ AU	CARRI	TYPE	DET_PRE
LEXENTRY:	CARRÉ DE LA	CARRI	TYPE	DET_PRE
LEXENTRY:	CARRÉ DES	CARRI	TYPE	DET_PRE
LEXENTRY:	CARRÉ DU	CARRI	TYPE	DET_PRE
LEXENTRY:	CARRÉ À LA	CARRI	TYPE	DET_PRE
LEXENTRY:	CAUSEWAY	CSWY	TYPE	DET_SUF
LEXENTRY:	CAUSWAY	CSWY	TYPE	DET_SUF
LEXENTRY:	CEN	CTR	TYPE	DET_SUF
LEXENTRY:	CENT	CTR	TYPE	DET_SUF
LEXENTRY:	CENTER	CTR	TYPE	DET_SUF
LEXENTRY:	CENTER	CENTER	PLACEN	DETACH
LEXENTRY:	CENTERS	CTRS	TYPE	DET_SUF
LEXENTRY:	CENTR	CTR	TYPE	DET_SUF
LEXENTRY:	CENTRE	CENTRE	PLACEN,TYPE	DETACH,DET_PRE,DET_SUF
LEXENTRY:	CERCLE	CERCLE	TYPE	DET_PRE
LEXENTRY:	CERCLE DE LA	CERCLE	TYPE	DET_PRE
LEXENTRY:	CH	CHAUSSÉE	TYPE	DET_PRE
LEXENTRY:	CH.	CHAUSSÉE	TYPE	DET_PRE
LEXENTRY:	CHAMP	CHAMP	TYPE	DET_PRE
LEXENTRY:	CHAMP DE	CHAMP	TYPE	DET_PRE
LEXENTRY:	CHAMP DE LA	CHAMP	TYPE	DET_PRE
LEXENTRY:	CHAMP DU	CHAMP	TYPE	DET_PRE
LEXENTRY:	CHAUSSÉE	CHAUSSÉE	TYPE	DET_PRE
LEXENTRY:	CHAUSSÉE DE	CHAUSSÉE	TYPE	DET_PRE
LEXENTRY:	CHAUSSÉE DE LA	CHAUSSÉE	TYPE	DET_PRE
LEXENTRY:	CHAUSSÉE DES	CHAUSSÉE	TYPE	DET_PRE
LEXENTRY:	CHAUSSÉE DU	CHAUSSÉE	TYPE	DET_PRE
LEXENTRY:	CHEE	CHAUSSÉE	TYPE	DET_PRE
LEXENTRY:	CHEE.	CHAUSSÉE	TYPE	DET_PRE
LEXENTRY:	CHEMIN	CHEMIN	TYPE	ATT_PRE,DET_PRE
LEXENTRY:	CHEMIN AU	CHEMIN	TYPE	DET_PRE
LEXENTRY:	CHEMIN AUX	CHEMIN	TYPE	DET_PRE
LEXENTRY:	CHEMIN D'	CHEMIN	TYPE	ATT_PRE
LEXENTRY:	CHEMIN DE	CHEMIN	TYPE	DET_PRE
LEXENTRY:	CHEMIN DE L'	CHEMIN	TYPE	ATT_PRE
LEXENTRY:	CHEMIN DE LA	CHEMIN	TYPE	DET_PRE
LEXENTRY:	CHEMIN DES	CHEMIN	TYPE	DET_PRE
LEXENTRY:	CHEMIN DU	CHEMIN	TYPE	DET_PRE
LEXENTRY:	CHEMIN LES	CHEMIN	TYPE	DET_PRE
LEXENTRY:	CHEMIN RURAL DE	CHEMIN	TYPE	DET_PRE
LEXENTRY:	CHEMIN À	CHEMIN	TYPE	DET_PRE
LEXENTRY:	CHS	CHAUSSÉE	TYPE	DET_PRE
LEXENTRY:	CHS.	CHAUSSÉE	TYPE	DET_PRE
LEXENTRY:	CINEMA	CINEMA	PLACEN	DETACH
LEXENTRY:	CINQUIÈME	5E	WORD,ORD	DETACH
LEXENTRY:	CINÉMA	CINÉMA	PLACEN	DETACH
LEXENTRY:	CIR	CIR	TYPE	DET_SUF
LEXENTRY:	CIRC	CIR	TYPE	DET_SUF
LEXENTRY:	CIRCL	CIR	TYPE	DET_SUF
LEXENTRY:	CIRCLE	CIR	TYPE	DET_SUF
LEXENTRY:	CIRCLES	CIRS	TYPE	DET_SUF
LEXENTRY:	CIRS	CIRS	TYPE	DET_SUF
LEXENTRY:	CITE	CITE	TYPE	ATT_PRE
LEXENTRY:	CITE D'	CITE	TYPE	ATT_PRE
LEXENTRY:	CITE DE L'	CITE	TYPE	ATT_PRE
LEXENTRY:	CITÉ	CITÉ	TYPE	DET_PRE
LEXENTRY:	CITÉ D'	CITE	TYPE	ATT_PRE
LEXENTRY:	CITÉ DE	CITÉ	TYPE	DET_PRE
LEXENTRY:	CITÉ DE L'	CITE	TYPE	ATT_PRE
LEXENTRY:	CITÉ DE LA	CITÉ	TYPE	DET_PRE
LEXENTRY:	CITÉ DES	CITÉ	TYPE	DET_PRE
LEXENTRY:	CITÉ DU	CITÉ	TYPE	DET_PRE
LEXENTRY:	CK	CRK	TYPE	DET_SUF
";
"LEXENTRY:	CLB	CLB	TYPE	DET_SUF
LEXENTRY:	CLF	CLF	TYPE	DET_SUF
LEXENTRY:	CLFS	CLFS	TYPE	DET_SUF
LEXENTRY:	CLIFF	CLF	TYPE	DET_SUF
LEXENTRY:	CLIFFS	CLFS	TYPE	DET_SUF
LEXENTRY:	CLOS	CLOS	TYPE	ATT_PRE,DET_PRE
LEXENTRY:	CLOS D'	CLOS	TYPE	ATT_PRE
LEXENTRY:	CLOS DE	CLOS	TYPE	DET_PRE
LEXENTRY:	CLOS DE L'	CLOS	TYPE	ATT_PRE
LEXENTRY:	CLOS DE LA	CLOS	TYPE	DET_PRE
LEXENTRY:	CLOS DES	CLOS	TYPE	DET_PRE
LEXENTRY:	CLOS DU	CLOS	TYPE	DET_PRE
LEXENTRY:	CLUB	CLB	TYPE	DET_SUF
LEXENTRY:	CMN	CMN	TYPE	DET_SUF
LEXENTRY:	CMP	CMP	TYPE	DET_SUF
LEXENTRY:	CNTER	CTR	TYPE	DET_SUF
LEXENTRY:	CNTR	CTR	TYPE	DET_SUF
LEXENTRY:	CNYN	CYN	TYPE	DET_SUF
LEXENTRY:	CO	CO	PLACEN	DETACH
LEXENTRY:	COLLÈGE	COLLÈGE	PLACEN	DETACH
LEXENTRY:	COLOMBIE-BRITANNIQUE	BRITISH COLUMBIA	PROV	DETACH
LEXENTRY:	COLUMBIA BRITANICA	BRITISH COLUMBIA	PROV	DETACH
LEXENTRY:	COMMON	CMN	TYPE	DET_SUF
LEXENTRY:	COMP	COMP	UNITH	DETACH
LEXENTRY:	COMPAGNIE	COMPAGNIE	PLACEN	DETACH
LEXENTRY:	COMPANY	COMPANY	PLACEN	DETACH
LEXENTRY:	COMPLEX	COMP	UNITH	DETACH
LEXENTRY:	CONC	CONC	TYPE	DET_SUF
LEXENTRY:	CONCESSION	CONC	TYPE	DET_SUF
LEXENTRY:	COR	COR	TYPE	DET_SUF
LEXENTRY:	CORDON	CORDON	TYPE	DET_PRE
LEXENTRY:	CORDON DE	CORDON	TYPE	DET_PRE
LEXENTRY:	CORNER	COR	TYPE	DET_SUF
LEXENTRY:	CORNERS	CORS	TYPE	DET_SUF
LEXENTRY:	CORP	CORP	PLACEN	DETACH
LEXENTRY:	CORPORATION	CORPORATION	PLACEN	DETACH
LEXENTRY:	CORS	CORS	TYPE	DET_SUF
LEXENTRY:	COTEAU	COTEAU	TYPE	ATT_PRE
LEXENTRY:	COTEAU D'	COTEAU D'	TYPE	DET_PRE
LEXENTRY:	COTEAU D'	COTEAU	TYPE	ATT_PRE
LEXENTRY:	COUR	COUR	TYPE	ATT_PRE,DET_PRE
LEXENTRY:	COUR AUX	COUR	TYPE	DET_PRE
LEXENTRY:	COUR D'	COUR	TYPE	ATT_PRE,DET_PRE
LEXENTRY:	COUR DE	COUR	TYPE	DET_PRE
LEXENTRY:	COUR DE L'	COUR	TYPE	ATT_PRE,DET_PRE
LEXENTRY:	COUR DE LA	COUR	TYPE	DET_PRE
LEXENTRY:	COUR DES	COUR	TYPE	DET_PRE
LEXENTRY:	COUR DU	COUR	TYPE	DET_PRE
LEXENTRY:	COUR À	COUR	TYPE	DET_PRE
LEXENTRY:	COURS	COURS	TYPE	ATT_PRE,DET_PRE
LEXENTRY:	COURS D'	COURS	TYPE	ATT_PRE,DET_PRE
LEXENTRY:	COURS DE	COURS	TYPE	DET_PRE
LEXENTRY:	COURS DE L'	COURS	TYPE	ATT_PRE,DET_PRE
LEXENTRY:	COURS DE LA	COURS	TYPE	DET_PRE
LEXENTRY:	COURS DES	COURS	TYPE	DET_PRE
LEXENTRY:	COURS DU	COURS	TYPE	DET_PRE
LEXENTRY:	COURSE	CRSE	TYPE	DET_SUF
LEXENTRY:	COURT	CT	TYPE	DET_SUF
LEXENTRY:	COURTS	CTS	TYPE	DET_SUF
LEXENTRY:	COVE	CV	TYPE	DET_SUF
LEXENTRY:	COVES	CVS	TYPE	DET_SUF
LEXENTRY:	CP	CMP	TYPE	DET_SUF
LEXENTRY:	CPE	CPE	TYPE	DET_SUF
LEXENTRY:	CR	CRK	TYPE	DET_SUF
LEXENTRY:	CRCL	CIR	TYPE	DET_SUF
LEXENTRY:	CRCLE	CIR	TYPE	DET_SUF
LEXENTRY:	CREEK	CRK	TYPE	DET_SUF
";
"LEXENTRY:	CRES	CRES	TYPE	DET_SUF
LEXENTRY:	CRESCENT	CRES	TYPE	DET_SUF
LEXENTRY:	CRESENT	CRES	TYPE	DET_SUF
LEXENTRY:	CREST	CRES	TYPE	DET_SUF
LEXENTRY:	CRK	CRK	TYPE	DET_SUF
LEXENTRY:	CROISSANT	CROISSANT	TYPE	ATT_PRE,DET_PRE
LEXENTRY:	CROISSANT D'	CROISSANT	TYPE	ATT_PRE,DET_PRE
LEXENTRY:	CROISSANT DE	CROISSANT	TYPE	DET_PRE
LEXENTRY:	CROISSANT DE L'	CROISSANT	TYPE	ATT_PRE,DET_PRE
LEXENTRY:	CROISSANT DE LA	CROISSANT	TYPE	DET_PRE
LEXENTRY:	CROISSANT DES	CROISSANT	TYPE	DET_PRE
LEXENTRY:	CROISSANT DU	CROISSANT	TYPE	DET_PRE
LEXENTRY:	CROIX	CROIX	TYPE	DET_PRE
LEXENTRY:	CROIX DE	CROIX	TYPE	DET_PRE
LEXENTRY:	CROSSING	XING	TYPE	DET_SUF
LEXENTRY:	CROSSROAD	XRD	TYPE	DET_SUF
LEXENTRY:	CRSCNT	CRES	TYPE	DET_SUF
LEXENTRY:	CRSE	CRSE	TYPE	DET_SUF
LEXENTRY:	CRSENT	CRES	TYPE	DET_SUF
LEXENTRY:	CRSNT	CRES	TYPE	DET_SUF
LEXENTRY:	CRSSING	XING	TYPE	DET_SUF
LEXENTRY:	CRSSNG	XING	TYPE	DET_SUF
LEXENTRY:	CRT	CT	TYPE	DET_SUF
LEXENTRY:	CSWY	CSWY	TYPE	DET_SUF
LEXENTRY:	CT	CT	TYPE	DET_SUF
LEXENTRY:	CTR	CTR	TYPE	DET_SUF
LEXENTRY:	CTRS	CTRS	TYPE	DET_SUF
LEXENTRY:	CTS	CTS	TYPE	DET_SUF
LEXENTRY:	CTTE	CTTE	TYPE	ATT_PRE,DET_PRE
LEXENTRY:	CTTE D'	CTTE	TYPE	ATT_PRE
LEXENTRY:	CTTE DE	CTTE	TYPE	DET_PRE
LEXENTRY:	CTTE DE LA	CTTE	TYPE	DET_PRE
LEXENTRY:	CTTE DU	CTTE	TYPE	DET_PRE
LEXENTRY:	CURV	CURV	TYPE	DET_SUF
LEXENTRY:	CURVE	CURV	TYPE	DET_SUF
LEXENTRY:	CV	CV	TYPE	DET_SUF
LEXENTRY:	CVS	CVS	TYPE	DET_SUF
LEXENTRY:	CYN	CYN	TYPE	DET_SUF
LEXENTRY:	CÔTE	CTTE	TYPE	DET_PRE
LEXENTRY:	CÔTE D'	CTTE	TYPE	ATT_PRE,DET_PRE
LEXENTRY:	CÔTE DE	CTTE	TYPE	DET_PRE
LEXENTRY:	CÔTE DE LA	CTTE	TYPE	DET_PRE
LEXENTRY:	CÔTE DES	CTTE	TYPE	DET_PRE
LEXENTRY:	CÔTE DU	CTTE	TYPE	DET_PRE
LEXENTRY:	DALE	DL	TYPE	DET_SUF
LEXENTRY:	DAM	DM	TYPE	DET_SUF
LEXENTRY:	DEMI-ÉCHANGEUR	DEMI-ÉCHANGEUR	TYPE	DET_PRE
LEXENTRY:	DEMI-ÉCHANGEUR DE	DEMI-ÉCHANGEUR	TYPE	DET_PRE
LEXENTRY:	DEMI-ÉCHANGEUR DES	DEMI-ÉCHANGEUR	TYPE	DET_PRE
LEXENTRY:	DESSERTE	DESSERTE	TYPE	DET_PRE
LEXENTRY:	DEUXIÈME	2E	WORD,ORD	DETACH
LEXENTRY:	DIGUE	DIGUE	TYPE	ATT_PRE
LEXENTRY:	DIGUE D'	DIGUE D'	TYPE	DET_PRE
LEXENTRY:	DIGUE D'	DIGUE	TYPE	ATT_PRE
LEXENTRY:	DIV	DV	TYPE	DET_SUF
LEXENTRY:	DIVIDE	DV	TYPE	DET_SUF
LEXENTRY:	DIXIÈME	10E	WORD,ORD	DETACH
LEXENTRY:	DL	DL	TYPE	DET_SUF
LEXENTRY:	DM	DM	TYPE	DET_SUF
LEXENTRY:	DOM	DOMAINE	TYPE	DET_PRE
LEXENTRY:	DOM.	DOMAINE	TYPE	DET_PRE
LEXENTRY:	DOMAINE	DOMAINE	TYPE	ATT_PRE,DET_PRE
LEXENTRY:	DOMAINE DE	DOMAINE	TYPE	DET_PRE
LEXENTRY:	DOMAINE DE L'	DOMAINE	TYPE	ATT_PRE,DET_PRE
LEXENTRY:	DOMAINE DE LA	DOMAINE	TYPE	DET_PRE
";
"LEXENTRY:	DOMAINE DES	DOMAINE	TYPE	DET_PRE
LEXENTRY:	DOMAINE DU	DOMAINE	TYPE	DET_PRE
LEXENTRY:	DR	DR	TYPE	DET_SUF
LEXENTRY:	DRHVE	DRHVE	TYPE	DET_PRE
LEXENTRY:	DRIV	DR	TYPE	DET_SUF
LEXENTRY:	DRIVE	DR	TYPE	DET_SUF
LEXENTRY:	DRIVES	DRS	TYPE	DET_SUF
LEXENTRY:	DRS	DRS	TYPE	DET_SUF
LEXENTRY:	DRV	DR	TYPE	DET_SUF
LEXENTRY:	DV	DV	TYPE	DET_SUF
LEXENTRY:	DVD	DV	TYPE	DET_SUF
LEXENTRY:	E	E	DIRECT	DETACH
LEXENTRY:	E.	E	DIRECT	DETACH
LEXENTRY:	EAST	E	DIRECT	DETACH
LEXENTRY:	EIGHT	8	NUMBER	DETACH
LEXENTRY:	EIGHTEEN	18	NUMBER	DETACH
LEXENTRY:	EIGHTEENTH	18TH	WORD,ORD	DETACH
LEXENTRY:	EIGHTH	8TH	WORD,ORD	DETACH
LEXENTRY:	EIGHTIETH	80TH	WORD,ORD	DETACH
LEXENTRY:	EIGHTY	80	NUMBER	DETACH
LEXENTRY:	ELEVEN	11	NUMBER	DETACH
LEXENTRY:	ELEVENTH	11TH	WORD,ORD	DETACH
LEXENTRY:	ENCLOS	ENCLOS	TYPE	ATT_PRE,DET_PRE
LEXENTRY:	ENCLOS DE L'	ENCLOS	TYPE	ATT_PRE,DET_PRE
LEXENTRY:	ESCALIER	ESCALIER	TYPE	DET_PRE
LEXENTRY:	ESCALIER DE LA	ESCALIER	TYPE	DET_PRE
LEXENTRY:	ESCALIER DES	ESCALIER	TYPE	DET_PRE
LEXENTRY:	ESCALIER DU	ESCALIER	TYPE	DET_PRE
LEXENTRY:	ESPLANADE	ESPLANADE	TYPE	ATT_PRE,DET_PRE
LEXENTRY:	ESPLANADE D'	ESPLANADE	TYPE	ATT_PRE,DET_PRE
LEXENTRY:	ESPLANADE DE	ESPLANADE	TYPE	DET_PRE
LEXENTRY:	ESPLANADE DE L'	ESPLANADE	TYPE	ATT_PRE,DET_PRE
LEXENTRY:	ESPLANADE DE LA	ESPLANADE	TYPE	DET_PRE
LEXENTRY:	ESPLANADE DES	ESPLANADE	TYPE	DET_PRE
LEXENTRY:	ESPLANADE DU	ESPLANADE	TYPE	DET_PRE
LEXENTRY:	EST	EST	TYPE	DET_SUF
LEXENTRY:	EST	E	DIRECT	DETACH
LEXENTRY:	EST.	E	DIRECT	DETACH
LEXENTRY:	ESTATE	EST	TYPE	DET_SUF
LEXENTRY:	ESTATES	ESTS	TYPE	DET_SUF
LEXENTRY:	ESTS	ESTS	TYPE	DET_SUF
LEXENTRY:	EXPR	EXPY	TYPE	DET_SUF
LEXENTRY:	EXPRESS	EXPY	TYPE	DET_SUF
LEXENTRY:	EXPRESSWAY	EXPY	TYPE	DET_SUF
LEXENTRY:	EXPW	EXPY	TYPE	DET_SUF
LEXENTRY:	EXPY	EXPY	TYPE	DET_SUF
LEXENTRY:	EXT	EXT	TYPE	DET_SUF
LEXENTRY:	EXTENSION	EXT	TYPE	DET_SUF
LEXENTRY:	EXTENSIONS	EXTS	TYPE	DET_SUF
LEXENTRY:	EXTN	EXT	TYPE	DET_SUF
LEXENTRY:	EXTNSN	EXT	TYPE	DET_SUF
LEXENTRY:	EXTS	EXTS	TYPE	DET_SUF
LEXENTRY:	FACULTÉ	FACULTÉ	PLACEN	DETACH
LEXENTRY:	FALL	FALL	TYPE	DET_SUF
LEXENTRY:	FALLS	FLS	TYPE	DET_SUF
LEXENTRY:	FAUBOURG	FAUBOURG	TYPE	DET_PRE
LEXENTRY:	FAUBOURG DE	FAUBOURG	TYPE	DET_PRE
LEXENTRY:	FERRY	FRY	TYPE	DET_SUF
LEXENTRY:	FG	FAUBOURG	TYPE	DET_PRE
LEXENTRY:	FG.	FAUBOURG	TYPE	DET_PRE
LEXENTRY:	FIELD	FLD	TYPE	DET_SUF
LEXENTRY:	FIELDS	FLDS	TYPE	DET_SUF
LEXENTRY:	FIFTEEN	15	NUMBER	DETACH
LEXENTRY:	FIFTEENTH	15TH	WORD,ORD	DETACH
LEXENTRY:	FIFTH	5TH	WORD,ORD	DETACH
LEXENTRY:	FIFTIETH	50TH	WORD,ORD	DETACH
LEXENTRY:	FIFTY	50	NUMBER	DETACH
";
"LEXENTRY:	FIRST	1ST	WORD,ORD	DETACH
LEXENTRY:	FIVE	5	NUMBER	DETACH
LEXENTRY:	FL	FL	UNITH	DETACH
LEXENTRY:	FLAT	FLT	TYPE	DET_SUF
LEXENTRY:	FLATS	FLTS	TYPE	DET_SUF
LEXENTRY:	FLD	FLD	TYPE	DET_SUF
LEXENTRY:	FLDS	FLDS	TYPE	DET_SUF
LEXENTRY:	FLOOR	FL	UNITH	DETACH
LEXENTRY:	FLS	FLS	TYPE	DET_SUF
LEXENTRY:	FLT	FLT	TYPE	DET_SUF
LEXENTRY:	FLTS	FLTS	TYPE	DET_SUF
LEXENTRY:	FORD	FRD	TYPE	DET_SUF
LEXENTRY:	FORDS	FRDS	TYPE	DET_SUF
LEXENTRY:	FOREST	FRST	TYPE	DET_SUF
LEXENTRY:	FORESTS	FRST	TYPE	DET_SUF
LEXENTRY:	FORG	FRG	TYPE	DET_SUF
LEXENTRY:	FORGE	FRG	TYPE	DET_SUF
LEXENTRY:	FORGES	FRGS	TYPE	DET_SUF
LEXENTRY:	FORK	FRK	TYPE	DET_SUF
LEXENTRY:	FORKS	FRKS	TYPE	DET_SUF
LEXENTRY:	FORT	FT	TYPE	DET_SUF
LEXENTRY:	FORTIETH	40TH	WORD,ORD	DETACH
LEXENTRY:	FORTY	40	NUMBER	DETACH
LEXENTRY:	FORUM	FORUM	TYPE	DET_PRE
LEXENTRY:	FOUR	4	NUMBER	DETACH
LEXENTRY:	FOURTEEN	14	NUMBER	DETACH
LEXENTRY:	FOURTEENTH	14TH	WORD,ORD	DETACH
LEXENTRY:	FOUTH	4TH	WORD,ORD	DETACH
LEXENTRY:	FRD	FRD	TYPE	DET_SUF
LEXENTRY:	FRDS	FRDS	TYPE	DET_SUF
LEXENTRY:	FREEWAY	FWY	TYPE	DET_SUF
LEXENTRY:	FREEWY	FWY	TYPE	DET_SUF
LEXENTRY:	FRG	FRG	TYPE	DET_SUF
LEXENTRY:	FRGS	FRGS	TYPE	DET_SUF
LEXENTRY:	FRK	FRK	TYPE	DET_SUF
LEXENTRY:	FRKS	FRKS	TYPE	DET_SUF
LEXENTRY:	FRRY	FRY	TYPE	DET_SUF
LEXENTRY:	FRST	FRST	TYPE	DET_SUF
LEXENTRY:	FRT	FT	TYPE	DET_SUF
LEXENTRY:	FRWAY	FWY	TYPE	DET_SUF
LEXENTRY:	FRWY	FWY	TYPE	DET_SUF
LEXENTRY:	FRY	FRY	TYPE	DET_SUF
LEXENTRY:	FT	FT	TYPE	DET_SUF
LEXENTRY:	FUND	FUND	PLACEN	DETACH
LEXENTRY:	RR	RR	ROAD	DETACH
LEXENTRY:	SS	SS	ROAD	DETACH
LEXENTRY:	MRI	MRI	ROAD	DETACH
LEXENTRY:	RT	RT	ROAD	DETACH
LEXENTRY:	CR	CR	ROAD	DETACH
LEXENTRY:	DR	DR	ROAD	DETACH
LEXENTRY:	AUT	AUT	ROAD	DETACH
LEXENTRY:	RTE	RTE	ROAD	DETACH
LEXENTRY:	HWY	HWY	ROAD	DETACH
LEXENTRY:	ROUTE	RTE	ROAD	DETACH
LEXENTRY:	HIGHWAY	HWY	ROAD	DETACH
LEXENTRY:	FWY	FWY	TYPE	DET_SUF
LEXENTRY:	GALERIE	GALERIE	PLACEN,TYPE	ATT_PRE,DETACH,DET_PRE
LEXENTRY:	GALERIE D'	GALERIE	TYPE	ATT_PRE,DET_PRE
LEXENTRY:	GALERIE DE	GALERIE	TYPE	DET_PRE
LEXENTRY:	GALERIE DE LA	GALERIE	TYPE	DET_PRE
LEXENTRY:	GALERIE DES	GALERIE	TYPE	DET_PRE
LEXENTRY:	GALERIE DU	GALERIE	TYPE	DET_PRE
LEXENTRY:	GALLERY	GALLERY	PLACEN	DETACH
LEXENTRY:	GARDEN	GDN	TYPE	DET_SUF
LEXENTRY:	GARDEN	GARDEN	PLACEN	DETACH
LEXENTRY:	GARDENS	GDNS	TYPE	DET_SUF
LEXENTRY:	GARDN	GDN	TYPE	DET_SUF
LEXENTRY:	GARE	GARE	PLACEN	DETACH
LEXENTRY:	GATEWAY	GTWY	TYPE	DET_SUF
LEXENTRY:	GATEWY	GTWY	TYPE	DET_SUF
LEXENTRY:	GATWAY	GTWY	TYPE	DET_SUF
LEXENTRY:	GDN	GDN	TYPE	DET_SUF
LEXENTRY:	GDNS	GDNS	TYPE	DET_SUF
";
"LEXENTRY:	GLEN	GLN	TYPE	DET_SUF
LEXENTRY:	GLENS	GLNS	TYPE	DET_SUF
LEXENTRY:	GLN	GLN	TYPE	DET_SUF
LEXENTRY:	GLNS	GLNS	TYPE	DET_SUF
LEXENTRY:	GRAND SENTIER	GRAND SENTIER	TYPE	DET_PRE
LEXENTRY:	GRANDE ALLÉE	GRANDE ALLÉE	TYPE	DET_PRE
LEXENTRY:	GRANDE ALLÉE DE LA	GRANDE ALLÉE	TYPE	DET_PRE
LEXENTRY:	GRANDE ALLÉE DES	GRANDE ALLÉE	TYPE	DET_PRE
LEXENTRY:	GRANDE ALLÉE DU	GRANDE ALLÉE	TYPE	DET_PRE
LEXENTRY:	GRANDE IMPASSE	GRANDE IMPASSE	TYPE	DET_PRE
LEXENTRY:	GRANDE IMPASSE DES	GRANDE IMPASSE	TYPE	DET_PRE
LEXENTRY:	GRANDE RUE	GRANDE RUE	TYPE	DET_PRE
LEXENTRY:	GRANDE RUE DE	GRANDE RUE	TYPE	DET_PRE
LEXENTRY:	GRANDE RUELLE	GRANDE RUELLE	TYPE	DET_PRE
LEXENTRY:	GRANDE SENTE	GRANDE SENTE	TYPE	DET_PRE
LEXENTRY:	GRANDE SENTE DES	GRANDE SENTE	TYPE	DET_PRE
LEXENTRY:	GRANDE SENTE DU	GRANDE SENTE	TYPE	DET_PRE
LEXENTRY:	GRANDE VOIE	GRANDE VOIE	TYPE	DET_PRE
LEXENTRY:	GRANDE VOIE DES	GRANDE VOIE	TYPE	DET_PRE
LEXENTRY:	GRDEN	GDN	TYPE	DET_SUF
LEXENTRY:	GRDN	GDN	TYPE	DET_SUF
LEXENTRY:	GRDNS	GDNS	TYPE	DET_SUF
LEXENTRY:	GREEN	GRN	TYPE	DET_SUF
LEXENTRY:	GREENS	GRNS	TYPE	DET_SUF
LEXENTRY:	GRN	GRN	TYPE	DET_SUF
LEXENTRY:	GRNS	GRNS	TYPE	DET_SUF
LEXENTRY:	GROUP	GROUP	PLACEN	DETACH
LEXENTRY:	GROUPE	GROUPE	PLACEN	DETACH
LEXENTRY:	GROV	GRV	TYPE	DET_SUF
LEXENTRY:	GROVE	GRV	TYPE	DET_SUF
LEXENTRY:	GROVES	GRVS	TYPE	DET_SUF
LEXENTRY:	GRV	GRV	TYPE	DET_SUF
LEXENTRY:	GRVS	GRVS	TYPE	DET_SUF
LEXENTRY:	GTWAY	GTWY	TYPE	DET_SUF
LEXENTRY:	GTWY	GTWY	TYPE	DET_SUF
LEXENTRY:	HALL	HALL	PLACEN	DETACH
LEXENTRY:	HAMEAU	HAMEAU	TYPE	ATT_PRE,DET_PRE
LEXENTRY:	HAMEAU D'	HAMEAU	TYPE	ATT_PRE,DET_PRE
LEXENTRY:	HAMEAU DE	HAMEAU	TYPE	DET_PRE
LEXENTRY:	HAMEAU DE L'	HAMEAU	TYPE	ATT_PRE,DET_PRE
LEXENTRY:	HAMEAU DE LA	HAMEAU	TYPE	DET_PRE
LEXENTRY:	HAMEAU DES	HAMEAU	TYPE	DET_PRE
LEXENTRY:	HAMEAU DU	HAMEAU	TYPE	DET_PRE
LEXENTRY:	HAMEAU LA	HAMEAU	TYPE	DET_PRE
LEXENTRY:	HARB	HBR	TYPE	DET_SUF
LEXENTRY:	HARBOR	HBR	TYPE	DET_SUF
LEXENTRY:	HARBORS	HBRS	TYPE	DET_SUF
LEXENTRY:	HARBR	HBR	TYPE	DET_SUF
LEXENTRY:	HAVEN	HVN	TYPE	DET_SUF
LEXENTRY:	HAVN	HVN	TYPE	DET_SUF
LEXENTRY:	HBR	HBR	TYPE	DET_SUF
LEXENTRY:	HBRS	HBRS	TYPE	DET_SUF
LEXENTRY:	HEIGHT	HTS	TYPE	DET_SUF
LEXENTRY:	HEIGHTS	HTS	TYPE	DET_SUF
LEXENTRY:	HGTS	HTS	TYPE	DET_SUF
LEXENTRY:	HIGHWAY	HWY	TYPE	DET_SUF
LEXENTRY:	HIGHWY	HWY	TYPE	DET_SUF
LEXENTRY:	HILL	HL	TYPE	DET_SUF
LEXENTRY:	HILLS	HLS	TYPE	DET_SUF
LEXENTRY:	HIWAY	HWY	TYPE	DET_SUF
LEXENTRY:	HIWY	HWY	TYPE	DET_SUF
LEXENTRY:	HL	HL	TYPE	DET_SUF
LEXENTRY:	HLLW	HOLW	TYPE	DET_SUF
LEXENTRY:	HLS	HLS	TYPE	DET_SUF
";
"LEXENTRY:	HOLLOW	HOLW	TYPE	DET_SUF
LEXENTRY:	HOLLOWS	HOLW	TYPE	DET_SUF
LEXENTRY:	HOLW	HOLW	TYPE	DET_SUF
LEXENTRY:	HOLWS	HOLW	TYPE	DET_SUF
LEXENTRY:	HOSPITAL	HOSPITAL	PLACEN	DETACH
LEXENTRY:	HOTEL	HOTEL	PLACEN	DETACH
LEXENTRY:	HOUSE	HOUSE	PLACEN	DETACH
LEXENTRY:	HRBOR	HBR	TYPE	DET_SUF
LEXENTRY:	HT	HTS	TYPE	DET_SUF
LEXENTRY:	HTS	HTS	TYPE	DET_SUF
LEXENTRY:	HUITIÈME	8E	WORD,ORD	DETACH
LEXENTRY:	HVN	HVN	TYPE	DET_SUF
LEXENTRY:	HWAY	HWY	TYPE	DET_SUF
LEXENTRY:	HWY	HWY	TYPE	DET_SUF
LEXENTRY:	HÔPITAL	HÔPITAL	PLACEN	DETACH
LEXENTRY:	HÔTEL	HÔTEL	PLACEN	DETACH
LEXENTRY:	IMP	IMPASSE	TYPE	DET_PRE
LEXENTRY:	IMP.	IMPASSE	TYPE	DET_PRE
LEXENTRY:	IMPASSE	IMPASSE	TYPE	ATT_PRE,DET_PRE
LEXENTRY:	IMPASSE AU	IMPASSE	TYPE	DET_PRE
LEXENTRY:	IMPASSE AUX	IMPASSE	TYPE	DET_PRE
LEXENTRY:	IMPASSE D'	IMPASSE	TYPE	ATT_PRE,DET_PRE
LEXENTRY:	IMPASSE DE	IMPASSE	TYPE	DET_PRE
LEXENTRY:	IMPASSE DE L'	IMPASSE	TYPE	ATT_PRE,DET_PRE
LEXENTRY:	IMPASSE DE LA	IMPASSE	TYPE	DET_PRE
LEXENTRY:	IMPASSE DES	IMPASSE	TYPE	DET_PRE
LEXENTRY:	IMPASSE DU	IMPASSE	TYPE	DET_PRE
LEXENTRY:	IMPASSE L'	IMPASSE	TYPE	ATT_PRE,DET_PRE
LEXENTRY:	IMPASSE À	IMPASSE	TYPE	DET_PRE
LEXENTRY:	INC	INC	PLACEN	DETACH
LEXENTRY:	INCORPORATED	INCORPORATED	PLACEN	DETACH
LEXENTRY:	INLET	INLT	TYPE	DET_SUF
LEXENTRY:	INLT	INLT	TYPE	DET_SUF
LEXENTRY:	INSTITUT	INSTITUT	PLACEN	DETACH
LEXENTRY:	INSTITUTE	INSTITUTE	PLACEN	DETACH
LEXENTRY:	INTERMEDIARY	INTERMEDIARY	PLACEN	DETACH
LEXENTRY:	IS	IS	TYPE	DET_SUF
LEXENTRY:	ISLAND	IS	TYPE	DET_SUF
LEXENTRY:	ISLANDS	ISS	TYPE	DET_SUF
LEXENTRY:	ISLE	ISLE	TYPE	DET_SUF
LEXENTRY:	ISLES	ISLE	TYPE	DET_SUF
LEXENTRY:	ISLND	IS	TYPE	DET_SUF
LEXENTRY:	ISLNDS	ISS	TYPE	DET_SUF
LEXENTRY:	ISS	ISS	TYPE	DET_SUF
LEXENTRY:	JARDIN	JARDIN	PLACEN,TYPE	ATT_PRE,DETACH,DET_PRE
LEXENTRY:	JARDIN DE L'	JARDIN	TYPE	ATT_PRE,DET_PRE
LEXENTRY:	JARDIN DE LA	JARDIN	TYPE	DET_PRE
LEXENTRY:	JARDIN DES	JARDIN	TYPE	DET_PRE
LEXENTRY:	JARDIN DU	JARDIN	TYPE	DET_PRE
LEXENTRY:	JARDINS DU	JARDIN	TYPE	DET_PRE
LEXENTRY:	JCT	JCT	TYPE	DET_SUF
LEXENTRY:	JCTION	JCT	TYPE	DET_SUF
LEXENTRY:	JCTN	JCT	TYPE	DET_SUF
LEXENTRY:	JCTNS	JCTS	TYPE	DET_SUF
LEXENTRY:	JCTS	JCTS	TYPE	DET_SUF
LEXENTRY:	JETIE	JETIE	TYPE	DET_PRE
LEXENTRY:	JETÉE	JETIE	TYPE	DET_PRE
LEXENTRY:	JUNCTION	JCT	TYPE	DET_SUF
LEXENTRY:	JUNCTIONS	JCTS	TYPE	DET_SUF
LEXENTRY:	JUNCTN	JCT	TYPE	DET_SUF
LEXENTRY:	JUNCTON	JCT	TYPE	DET_SUF
LEXENTRY:	KEY	KY	TYPE	DET_SUF
LEXENTRY:	KEYS	KYS	TYPE	DET_SUF
LEXENTRY:	KNL	KNL	TYPE	DET_SUF
LEXENTRY:	KNLS	KNLS	TYPE	DET_SUF
LEXENTRY:	KNOL	KNL	TYPE	DET_SUF
";
"LEXENTRY:	KNOLL	KNL	TYPE	DET_SUF
LEXENTRY:	KNOLLS	KNLS	TYPE	DET_SUF
LEXENTRY:	KY	KY	TYPE	DET_SUF
LEXENTRY:	KYS	KYS	TYPE	DET_SUF
LEXENTRY:	L'ORÉE	L'ORÉE	TYPE	DET_PRE
LEXENTRY:	L'ORÉE DU	L'ORÉE	TYPE	DET_PRE
LEXENTRY:	LA RÉSIDENCE	LA RÉSIDENCE	TYPE	DET_PRE
LEXENTRY:	LA RÉSIDENCE DU	LA RÉSIDENCE	TYPE	DET_PRE
LEXENTRY:	LAB	LAB	PLACEN	DETACH
LEXENTRY:	LABORATOIRE	LABORATOIRE	PLACEN	DETACH
LEXENTRY:	LABORATORIES	LABORATORIES	PLACEN	DETACH
LEXENTRY:	LABORATORY	LABORATORY	PLACEN	DETACH
LEXENTRY:	LABS	LABS	PLACEN	DETACH
LEXENTRY:	LAKE	LK	TYPE	DET_SUF
LEXENTRY:	LAKES	LKS	TYPE	DET_SUF
LEXENTRY:	LAND	LAND	TYPE	DET_SUF
LEXENTRY:	LANDING	LNDG	TYPE	DET_SUF
LEXENTRY:	LANE	LN	TYPE	DET_SUF
LEXENTRY:	LANES	LN	TYPE	DET_SUF
LEXENTRY:	LCK	LCK	TYPE	DET_SUF
LEXENTRY:	LCKS	LCKS	TYPE	DET_SUF
LEXENTRY:	LDG	LDG	TYPE	DET_SUF
LEXENTRY:	LDGE	LDG	TYPE	DET_SUF
LEXENTRY:	LE CLOS	LE CLOS	TYPE	DET_PRE
LEXENTRY:	LE CLOS DE	LE CLOS	TYPE	DET_PRE
LEXENTRY:	LE CLOS DE LA	LE CLOS	TYPE	DET_PRE
LEXENTRY:	LE CLOS DES	LE CLOS	TYPE	DET_PRE
LEXENTRY:	LE CLOS DU	LE CLOS	TYPE	DET_PRE
LEXENTRY:	LE FOND DES	LE CLOS	TYPE	DET_PRE
LEXENTRY:	LE JARDIN	LE JARDIN	TYPE	DET_PRE
LEXENTRY:	LE JARDIN DE	LE JARDIN	TYPE	DET_PRE
LEXENTRY:	LE PARC	LE PARC	TYPE	DET_PRE
LEXENTRY:	LE PARC DE	LE PARC	TYPE	DET_PRE
LEXENTRY:	LE PARC DU	LE PARC	TYPE	DET_PRE
LEXENTRY:	LES JARDINS	LES JARDINS	TYPE	DET_PRE
LEXENTRY:	LES JARDINS DE LA	LES JARDINS	TYPE	DET_PRE
LEXENTRY:	LES JARDINS DES	LES JARDINS	TYPE	DET_PRE
LEXENTRY:	LES JARDINS DU	LES JARDINS	TYPE	DET_PRE
LEXENTRY:	LES TERRASSES	LES TERRASSES	TYPE	DET_PRE
LEXENTRY:	LES TERRASSES DE	LES TERRASSES	TYPE	DET_PRE
LEXENTRY:	LES TERRASSES DE LA	LES TERRASSES	TYPE	DET_PRE
LEXENTRY:	LES VILLAS	LES VILLAS	TYPE	ATT_PRE,DET_PRE
LEXENTRY:	LES VILLAS DE L'	LES VILLAS	TYPE	ATT_PRE,DET_PRE
LEXENTRY:	LF	LF	TYPE	DET_SUF
LEXENTRY:	LGT	LGT	TYPE	DET_SUF
LEXENTRY:	LGTS	LGTS	TYPE	DET_SUF
LEXENTRY:	LIBRARY	LIBRARY	PLACEN	DETACH
LEXENTRY:	LIEU-DIT	LIEU-DIT	TYPE	DET_PRE
LEXENTRY:	LIGHT	LGT	TYPE	DET_SUF
LEXENTRY:	LIGHTS	LGTS	TYPE	DET_SUF
LEXENTRY:	LIMITED	LIMITED	PLACEN	DETACH
LEXENTRY:	LK	LK	TYPE	DET_SUF
LEXENTRY:	LKS	LKS	TYPE	DET_SUF
LEXENTRY:	LN	LN	TYPE	DET_SUF
LEXENTRY:	LNDG	LNDG	TYPE	DET_SUF
LEXENTRY:	LNDNG	LNDG	TYPE	DET_SUF
LEXENTRY:	LOAF	LF	TYPE	DET_SUF
LEXENTRY:	LOCK	LCK	TYPE	DET_SUF
LEXENTRY:	LOCKS	LCKS	TYPE	DET_SUF
LEXENTRY:	LODG	LDG	TYPE	DET_SUF
LEXENTRY:	LODGE	LDG	TYPE	DET_SUF
LEXENTRY:	LOOP	LOOP	TYPE	DET_SUF
LEXENTRY:	LOOPS	LOOP	TYPE	DET_SUF
";
"LEXENTRY:	LOTISSEMENT	LOTISSEMENT	TYPE	ATT_PRE,DET_PRE
LEXENTRY:	LOTISSEMENT DE L'	LOTISSEMENT	TYPE	ATT_PRE,DET_PRE
LEXENTRY:	LOTISSEMENT DE LA	LOTISSEMENT	TYPE	DET_PRE
LEXENTRY:	LOTISSEMENT DU	LOTISSEMENT	TYPE	DET_PRE
LEXENTRY:	LTD	LTD	PLACEN	DETACH
LEXENTRY:	LYCÉE	LYCÉE	PLACEN	DETACH
LEXENTRY:	MAIL	MAIL	TYPE	DET_PRE
LEXENTRY:	MAIL AUX	MAIL	TYPE	DET_PRE
LEXENTRY:	MAIL DE	MAIL	TYPE	DET_PRE
LEXENTRY:	MAIL DE L'	MAIL	TYPE	DET_PRE
LEXENTRY:	MAIL DE LA	MAIL	TYPE	DET_PRE
LEXENTRY:	MAIL DES	MAIL	TYPE	DET_PRE
LEXENTRY:	MAIL DU	MAIL	TYPE	DET_PRE
LEXENTRY:	MALL	MALL	TYPE	DET_SUF
LEXENTRY:	MANOR	MNR	TYPE	DET_SUF
LEXENTRY:	MANORS	MNRS	TYPE	DET_SUF
LEXENTRY:	MARCHI	MARCHI	TYPE	DET_PRE
LEXENTRY:	MARCHÉ	MARCHI	TYPE	DET_PRE
LEXENTRY:	MARCHÉ	MARCHÉ	PLACEN	DETACH
LEXENTRY:	MARCHÉ DE	MARCHI	TYPE	DET_PRE
LEXENTRY:	MARCHÉ DE LA	MARCHI	TYPE	DET_PRE
LEXENTRY:	MARKET	MARKET	PLACEN	DETACH
LEXENTRY:	MB	MANITOBA	PROV	DETACH
LEXENTRY:	MDW	MDW	TYPE	DET_SUF
LEXENTRY:	MDWS	MDWS	TYPE	DET_SUF
LEXENTRY:	MEADOW	MDW	TYPE	DET_SUF
LEXENTRY:	MEADOWS	MDWS	TYPE	DET_SUF
LEXENTRY:	MEDOWS	MDWS	TYPE	DET_SUF
LEXENTRY:	MEWS	MEWS	TYPE	DET_SUF
LEXENTRY:	MILL	ML	TYPE	DET_SUF
LEXENTRY:	MILLS	MLS	TYPE	DET_SUF
LEXENTRY:	MISSION	MSN	TYPE	DET_SUF
LEXENTRY:	MISSN	MSN	TYPE	DET_SUF
LEXENTRY:	ML	ML	TYPE	DET_SUF
LEXENTRY:	MLS	MLS	TYPE	DET_SUF
LEXENTRY:	MNR	MNR	TYPE	DET_SUF
LEXENTRY:	MNRS	MNRS	TYPE	DET_SUF
LEXENTRY:	MNT	MT	TYPE	DET_PRE,DET_SUF
LEXENTRY:	MNTAIN	MTN	TYPE	DET_SUF
LEXENTRY:	MNTN	MTN	TYPE	DET_SUF
LEXENTRY:	MONT	MONTAGNE	TYPE	DET_PRE
LEXENTRY:	MONTAGNE	MONTAGNE	TYPE	DET_PRE
LEXENTRY:	MONTIE	MONTIE	TYPE	ATT_PRE,DET_PRE
LEXENTRY:	MONTIE DE L'	MONTIE	TYPE	ATT_PRE
LEXENTRY:	MONTÉE	MONTIE	TYPE	DET_PRE
LEXENTRY:	MONTÉE DE LA	MONTIE	TYPE	DET_PRE
LEXENTRY:	MONTÉE DES	MONTIE	TYPE	DET_PRE
LEXENTRY:	MONTÉE DU	MONTIE	TYPE	DET_PRE
LEXENTRY:	MOTORWAY	MTWY	TYPE	DET_SUF
LEXENTRY:	MOUNT	MT	TYPE	DET_PRE,DET_SUF
LEXENTRY:	MOUNTAIN	MTN	TYPE	DET_SUF
LEXENTRY:	MOUNTAINS	MTNS	TYPE	DET_SUF
LEXENTRY:	MOUNTIN	MTN	TYPE	DET_SUF
LEXENTRY:	MSN	MSN	TYPE	DET_SUF
LEXENTRY:	MSSN	MSN	TYPE	DET_SUF
LEXENTRY:	MT	MT	TYPE	DET_PRE,DET_SUF
LEXENTRY:	MT	MONTAGNE	TYPE	DET_PRE
LEXENTRY:	MT.	MT	TYPE	DET_PRE,DET_SUF
LEXENTRY:	MTIN	MTN	TYPE	DET_SUF
LEXENTRY:	MTN	MTN	TYPE	DET_SUF
LEXENTRY:	MTNS	MTNS	TYPE	DET_SUF
LEXENTRY:	MTWY	MTWY	TYPE	DET_SUF
LEXENTRY:	MUSEUM	MUSEUM	PLACEN	DETACH
LEXENTRY:	MUSÉE	MUSÉE	PLACEN	DETACH
LEXENTRY:	N	N	DIRECT	DETACH
LEXENTRY:	N.	N	DIRECT	DETACH
LEXENTRY:	N.E.	NE	DIRECT	DETACH
LEXENTRY:	N.W.	NW	DIRECT	DETACH
";
"LEXENTRY:	NB	NEW BRUNSWICK	PROV	DETACH
LEXENTRY:	NCK	NCK	TYPE	DET_SUF
LEXENTRY:	NE	NE	DIRECT	DETACH
LEXENTRY:	NE.	NE	DIRECT	DETACH
LEXENTRY:	NECK	NCK	TYPE	DET_SUF
LEXENTRY:	NEUVIÈME	9E	WORD,ORD	DETACH
LEXENTRY:	NF	NEWFOUNDLAND	PROV	DETACH
LEXENTRY:	NINE	9	NUMBER	DETACH
LEXENTRY:	NINETEEN	19	NUMBER	DETACH
LEXENTRY:	NINETEENTH	19TH	WORD,ORD	DETACH
LEXENTRY:	NINETIETH	90TH	WORD,ORD	DETACH
LEXENTRY:	NINETY	90	NUMBER	DETACH
LEXENTRY:	NINTH	9TH	WORD,ORD	DETACH
LEXENTRY:	NO	NO	DIRECT	DETACH
LEXENTRY:	NORD	N	DIRECT	DETACH
LEXENTRY:	NORD-EST	NE	DIRECT	DETACH
LEXENTRY:	NORD-OUEST	NO	DIRECT	DETACH
LEXENTRY:	NORTH	N	DIRECT	DETACH
LEXENTRY:	NORTHEAST	NE	DIRECT	DETACH
LEXENTRY:	NORTHWEST	NW	DIRECT	DETACH
LEXENTRY:	NOUVEAU CHEMIN	NOUVEAU CHEMIN	TYPE	DET_PRE
LEXENTRY:	NOUVEAU CHEMIN DES	NOUVEAU CHEMIN	TYPE	DET_PRE
LEXENTRY:	NOUVEAU-BRUNSWICK	NEW BRUNSWICK	PROV	DETACH
LEXENTRY:	NOUVELLE CITÉ	NOUVELLE CITÉ	TYPE	DET_PRE
LEXENTRY:	NOUVELLE CITÉ DE	NOUVELLE CITÉ	TYPE	DET_PRE
LEXENTRY:	NOUVELLE-ÉCOSSE	NOVA SCOTIA	PROV	DETACH
LEXENTRY:	NS	NOVA SCOTIA	PROV	DETACH
LEXENTRY:	NT	NT	PLACEN	DETACH
LEXENTRY:	NT	NORTHWEST TERRITORIES	PROV	DETACH
LEXENTRY:	NU	NUNAVUT	PROV	DETACH
LEXENTRY:	NW	NW	DIRECT	DETACH
LEXENTRY:	NW.	NW	DIRECT	DETACH
LEXENTRY:	O	O	DIRECT	DETACH
LEXENTRY:	ON	ONTARIO	PROV	DETACH
LEXENTRY:	ONE	1	NUMBER	DETACH
LEXENTRY:	OPAS	OPAS	TYPE	DET_SUF
LEXENTRY:	ORCH	ORCH	TYPE	DET_SUF
LEXENTRY:	ORCHARD	ORCH	TYPE	DET_SUF
LEXENTRY:	ORCHRD	ORCH	TYPE	DET_SUF
LEXENTRY:	ORÉE	ORÉE	TYPE	DET_PRE
LEXENTRY:	ORÉE DE	ORÉE	TYPE	DET_PRE
LEXENTRY:	ORÉE DU	ORÉE	TYPE	DET_PRE
LEXENTRY:	OUEST	O	DIRECT	DETACH
LEXENTRY:	OVAL	OVAL	TYPE	DET_SUF
LEXENTRY:	OVERPASS	OPAS	TYPE	DET_SUF
LEXENTRY:	OVL	OVAL	TYPE	DET_SUF
LEXENTRY:	P	HAMEAU	TYPE	DET_PRE
LEXENTRY:	P	SENTIER	TYPE	DET_PRE
LEXENTRY:	PARC	PARC	PLACEN,TYPE	ATT_PRE,DETACH,DET_PRE
LEXENTRY:	PARC AUX	PARC	TYPE	DET_PRE
LEXENTRY:	PARC DE	PARC	TYPE	DET_PRE
LEXENTRY:	PARC DE L'	PARC	TYPE	ATT_PRE,DET_PRE
LEXENTRY:	PARC DE LA	PARC	TYPE	DET_PRE
LEXENTRY:	PARC DES	PARC	TYPE	DET_PRE
LEXENTRY:	PARC DU	PARC	TYPE	DET_PRE
LEXENTRY:	PARK	PARK	PLACEN,TYPE	DETACH,DET_SUF
LEXENTRY:	PARKS	PARK	TYPE	DET_SUF
LEXENTRY:	PARKWAY	PKWY	TYPE	DET_SUF
LEXENTRY:	PARKWAYS	PKWY	TYPE	DET_SUF
LEXENTRY:	PARKWY	PKWY	TYPE	DET_SUF
LEXENTRY:	PARVIS	PARVIS	TYPE	ATT_PRE,DET_PRE
LEXENTRY:	PARVIS DE L'	PARVIS	TYPE	ATT_PRE,DET_PRE
LEXENTRY:	PARVIS DE LA	PARVIS	TYPE	DET_PRE
LEXENTRY:	PARVIS DES	PARVIS	TYPE	DET_PRE
LEXENTRY:	PARVIS DU	PARVIS	TYPE	DET_PRE
LEXENTRY:	PAS	PASSAGE	TYPE	DET_PRE,DET_SUF
";
"LEXENTRY:	PAS.	PASSAGE	TYPE	DET_PRE,DET_SUF
LEXENTRY:	PASS	PASS	TYPE	DET_SUF
LEXENTRY:	PASS	PASSAGE	TYPE	DET_PRE,DET_SUF
LEXENTRY:	PASS.	PASSAGE	TYPE	DET_PRE,DET_SUF
LEXENTRY:	PASSAGE	PSGE	TYPE	DET_SUF
LEXENTRY:	PASSAGE	PASSAGE	TYPE	ATT_PRE,DET_PRE,DET_SUF
LEXENTRY:	PASSAGE AUX	PASSAGE	TYPE	DET_PRE
LEXENTRY:	PASSAGE D'	PASSAGE	TYPE	ATT_PRE,DET_PRE
LEXENTRY:	PASSAGE DE	PASSAGE	TYPE	DET_PRE
LEXENTRY:	PASSAGE DE L'	PASSAGE	TYPE	ATT_PRE,DET_PRE
LEXENTRY:	PASSAGE DE LA	PASSAGE	TYPE	DET_PRE
LEXENTRY:	PASSAGE DES	PASSAGE	TYPE	DET_PRE
LEXENTRY:	PASSAGE DU	PASSAGE	TYPE	DET_PRE
LEXENTRY:	PASSE	PASSE	TYPE	ATT_PRE,DET_PRE
LEXENTRY:	PASSE DE L'	PASSE	TYPE	ATT_PRE,DET_PRE
LEXENTRY:	PASSERELLE	PASSERELLE	TYPE	ATT_PRE,DET_PRE
LEXENTRY:	PASSERELLE D'	PASSERELLE	TYPE	ATT_PRE,DET_PRE
LEXENTRY:	PASSERELLE DE	PASSERELLE	TYPE	DET_PRE
LEXENTRY:	PASSERELLE DE L'	PASSERELLE	TYPE	DET_PRE
LEXENTRY:	PASSERELLE DE LA	PASSERELLE	TYPE	DET_PRE
LEXENTRY:	PASSERELLE DES	PASSERELLE	TYPE	DET_PRE
LEXENTRY:	PASSERELLE DU	PASSERELLE	TYPE	DET_PRE
LEXENTRY:	PATH	PATH	TYPE	DET_SUF
LEXENTRY:	PATHS	PATH	TYPE	DET_SUF
LEXENTRY:	PE	PRINCE EDWARD ISLAND	PROV	DETACH
LEXENTRY:	PETIT CHEMIN	PETIT CHEMIN	TYPE	DET_PRE
LEXENTRY:	PETIT CHEMIN DE	PETIT CHEMIN	TYPE	DET_PRE
LEXENTRY:	PETIT CHEMIN DU	PETIT CHEMIN	TYPE	DET_PRE
LEXENTRY:	PETIT SENTIER	PETIT SENTIER	TYPE	DET_PRE
LEXENTRY:	PETIT SENTIER DES	PETIT SENTIER	TYPE	DET_PRE
LEXENTRY:	PETITE IMPASSE	PETITE IMPASSE	TYPE	DET_PRE
LEXENTRY:	PETITE IMPASSE DES	PETITE IMPASSE	TYPE	DET_PRE
LEXENTRY:	PETITE ROUTE	PETITE ROUTE	TYPE	ATT_PRE,DET_PRE
LEXENTRY:	PETITE ROUTE DE L'	PETITE ROUTE	TYPE	ATT_PRE,DET_PRE
LEXENTRY:	PETITE RUE	PETITE RUE	TYPE	DET_PRE
LEXENTRY:	PETITE RUE DE LA	PETITE RUE	TYPE	DET_PRE
LEXENTRY:	PETITE RUE DU	PETITE RUE	TYPE	DET_PRE
LEXENTRY:	PETITE RUELLE	PETITE RUELLE	TYPE	DET_PRE
LEXENTRY:	PETITE SENTE	PETITE SENTE	TYPE	DET_PRE
LEXENTRY:	PETITE SENTE DES	PETITE SENTE	TYPE	DET_PRE
LEXENTRY:	PETITE VOIE	PETITE VOIE	TYPE	DET_PRE
LEXENTRY:	PETITE VOIE DE	PETITE VOIE	TYPE	DET_PRE
LEXENTRY:	PETITE VOIE DES	PETITE VOIE	TYPE	DET_PRE
LEXENTRY:	PIKE	PIKE	TYPE	DET_SUF
LEXENTRY:	PIKES	PIKE	TYPE	DET_SUF
LEXENTRY:	PINE	PNE	TYPE	DET_SUF
LEXENTRY:	PINES	PNES	TYPE	DET_SUF
LEXENTRY:	PISTE	PISTE	TYPE	DET_PRE
LEXENTRY:	PISTE DU	PISTE	TYPE	DET_PRE
LEXENTRY:	PK	PARK	TYPE	DET_SUF
LEXENTRY:	PKWAY	PKWY	TYPE	DET_SUF
LEXENTRY:	PKWY	PKWY	TYPE	DET_SUF
LEXENTRY:	PKWYS	PKWY	TYPE	DET_SUF
LEXENTRY:	PKY	PKWY	TYPE	DET_SUF
LEXENTRY:	PL	PL	TYPE	DET_PRE,DET_SUF
";
"LEXENTRY:	PL	PLACE	TYPE	DET_PRE
LEXENTRY:	PL.	PL	TYPE	DET_PRE,DET_SUF
LEXENTRY:	PL.	PLACE	TYPE	DET_PRE
LEXENTRY:	PLACE	PL	TYPE	DET_PRE,DET_SUF
LEXENTRY:	PLACE	PLACE	TYPE	ATT_PRE,DET_PRE
LEXENTRY:	PLACE AU	PLACE	TYPE	DET_PRE
LEXENTRY:	PLACE AUX	PLACE	TYPE	DET_PRE
LEXENTRY:	PLACE D'	PLACE	TYPE	ATT_PRE,DET_PRE
LEXENTRY:	PLACE DE	PLACE	TYPE	DET_PRE
LEXENTRY:	PLACE DE L'	PLACE	TYPE	ATT_PRE,DET_PRE
LEXENTRY:	PLACE DE LA	PLACE	TYPE	DET_PRE
LEXENTRY:	PLACE DES	PLACE	TYPE	DET_PRE
LEXENTRY:	PLACE DU	PLACE	TYPE	DET_PRE
LEXENTRY:	PLACE À	PLACE	TYPE	DET_PRE
LEXENTRY:	PLACETTE	PLACETTE	TYPE	DET_PRE
LEXENTRY:	PLACETTE DE	PLACETTE	TYPE	DET_PRE
LEXENTRY:	PLACETTE DE LA	PLACETTE	TYPE	DET_PRE
LEXENTRY:	PLACETTE DES	PLACETTE	TYPE	DET_PRE
LEXENTRY:	PLACETTE DU	PLACETTE	TYPE	DET_PRE
LEXENTRY:	PLAIN	PLN	TYPE	DET_SUF
LEXENTRY:	PLAINE	PLAINE	TYPE	DET_PRE
LEXENTRY:	PLAINE DES	PLAINE	TYPE	DET_PRE
LEXENTRY:	PLAINS	PLNS	TYPE	DET_SUF
LEXENTRY:	PLATEAU	PLATEAU	TYPE	DET_PRE
LEXENTRY:	PLATEAU DE LA	PLATEAU	TYPE	DET_PRE
LEXENTRY:	PLAZA	PLZ	TYPE	DET_SUF
LEXENTRY:	PLN	PLN	TYPE	DET_SUF
LEXENTRY:	PLNS	PLNS	TYPE	DET_SUF
LEXENTRY:	PLZ	PLZ	TYPE	DET_SUF
LEXENTRY:	PLZA	PLZ	TYPE	DET_SUF
LEXENTRY:	PNE	PNE	TYPE	DET_SUF
LEXENTRY:	PNES	PNES	TYPE	DET_SUF
LEXENTRY:	POINT	PT	TYPE	DET_SUF
LEXENTRY:	POINT DES	ROND-POINT	TYPE	DET_PRE
LEXENTRY:	POINTS	PTS	TYPE	DET_SUF
LEXENTRY:	PONT	PONT	TYPE	ATT_PRE,DET_PRE
LEXENTRY:	PONT AU	PONT	TYPE	DET_PRE
LEXENTRY:	PONT AUX	PONT	TYPE	DET_PRE
LEXENTRY:	PONT D'	PONT	TYPE	ATT_PRE,DET_PRE
LEXENTRY:	PONT DE	PONT	TYPE	DET_PRE
LEXENTRY:	PONT DE L'	PONT	TYPE	ATT_PRE,DET_PRE
LEXENTRY:	PONT DE LA	PONT	TYPE	DET_PRE
LEXENTRY:	PONT DES	PONT	TYPE	DET_PRE
LEXENTRY:	PONT DU	PONT	TYPE	DET_PRE
LEXENTRY:	PORT	PRT	TYPE	DET_SUF
LEXENTRY:	PORT	PORT	TYPE	ATT_PRE,DET_PRE
LEXENTRY:	PORT D'	PORT	TYPE	ATT_PRE,DET_PRE
LEXENTRY:	PORT DE	PORT	TYPE	DET_PRE
LEXENTRY:	PORT DE L'	PORT	TYPE	ATT_PRE,DET_PRE
LEXENTRY:	PORT DE LA	PORT	TYPE	DET_PRE
LEXENTRY:	PORT DES	PORT	TYPE	DET_PRE
LEXENTRY:	PORT DU	PORT	TYPE	DET_PRE
LEXENTRY:	PORTE	PORTE	TYPE	ATT_PRE,DET_PRE
LEXENTRY:	PORTE AUX	PORTE	TYPE	DET_PRE
LEXENTRY:	PORTE D'	PORTE	TYPE	ATT_PRE,DET_PRE
LEXENTRY:	PORTE DE	PORTE	TYPE	DET_PRE
LEXENTRY:	PORTE DE L'	PORTE	TYPE	ATT_PRE,DET_PRE
LEXENTRY:	PORTE DE LA	PORTE	TYPE	DET_PRE
LEXENTRY:	PORTE DES	PORTE	TYPE	DET_PRE
LEXENTRY:	PORTE DU	PORTE	TYPE	DET_PRE
LEXENTRY:	PORTS	PRTS	TYPE	DET_SUF
LEXENTRY:	POTERNE	POTERNE	TYPE	DET_PRE
LEXENTRY:	POTERNE DES	POTERNE	TYPE	DET_PRE
LEXENTRY:	PR	PR	TYPE	DET_SUF
";
"LEXENTRY:	PRAIRIE	PR	TYPE	DET_SUF
LEXENTRY:	PRARIE	PR	TYPE	DET_SUF
LEXENTRY:	PREMIER	1ER	WORD,ORD	DETACH
LEXENTRY:	PREMIÈRE	1ER	WORD,ORD	DETACH
LEXENTRY:	PRK	PARK	TYPE	DET_SUF
LEXENTRY:	PROMENADE	PROMENADE	TYPE	ATT_PRE,DET_PRE,DET_SUF
LEXENTRY:	PROMENADE 	PROMENADE	TYPE	DET_PRE,DET_SUF
LEXENTRY:	PROMENADE DE	PROMENADE	TYPE	DET_PRE
LEXENTRY:	PROMENADE DE L'	PROMENADE	TYPE	ATT_PRE,DET_PRE
LEXENTRY:	PROMENADE DE LA	PROMENADE	TYPE	DET_PRE
LEXENTRY:	PROMENADE DES	PROMENADE	TYPE	DET_PRE
LEXENTRY:	PROMENADE DU	PROMENADE	TYPE	DET_PRE
LEXENTRY:	PROMENÉE	PROMENÉE	TYPE	DET_PRE
LEXENTRY:	PROMENÉE DES	PROMENÉE	TYPE	DET_PRE
LEXENTRY:	PRR	PR	TYPE	DET_SUF
LEXENTRY:	PRT	PRT	TYPE	DET_SUF
LEXENTRY:	PRTS	PRTS	TYPE	DET_SUF
LEXENTRY:	PSGE	PSGE	TYPE	DET_SUF
LEXENTRY:	PT	PT	TYPE	DET_SUF
LEXENTRY:	PTS	PTS	TYPE	DET_SUF
LEXENTRY:	QC	QUÉBEC	PROV	DETACH
LEXENTRY:	QRT	QUARTIER	TYPE	DET_PRE
LEXENTRY:	QRT.	QUARTIER	TYPE	DET_PRE
LEXENTRY:	QU	QUARTIER	TYPE	DET_PRE
LEXENTRY:	QU.	QUARTIER	TYPE	DET_PRE
LEXENTRY:	QUA	QUARTIER	TYPE	DET_PRE
LEXENTRY:	QUA.	QUARTIER	TYPE	DET_PRE
LEXENTRY:	QUAI	QUAI	TYPE	ATT_PRE,DET_PRE
LEXENTRY:	QUAI AUX	QUAI	TYPE	DET_PRE
LEXENTRY:	QUAI D'	QUAI	TYPE	ATT_PRE,DET_PRE
LEXENTRY:	QUAI DE	QUAI	TYPE	DET_PRE
LEXENTRY:	QUAI DE L'	QUAI	TYPE	ATT_PRE,DET_PRE
LEXENTRY:	QUAI DE LA	QUAI	TYPE	DET_PRE
LEXENTRY:	QUAI DES	QUAI	TYPE	DET_PRE
LEXENTRY:	QUAI DU	QUAI	TYPE	DET_PRE
LEXENTRY:	QUARTIER	QUARTIER	TYPE	DET_PRE
LEXENTRY:	QUARTIER DE LA	QUARTIER	TYPE	DET_PRE
LEXENTRY:	QUARTIER DES	QUARTIER	TYPE	DET_PRE
LEXENTRY:	QUATRIÈME	4E	WORD,ORD	DETACH
LEXENTRY:	QUEBEC	QUÉBEC	PROV	DETACH
LEXENTRY:	QUIBEC	QUÉBEC	PROV	DETACH
LEXENTRY:	R	RUE	TYPE	DET_PRE
LEXENTRY:	R.	RUE	TYPE	DET_PRE
LEXENTRY:	RAD	RADL	TYPE	DET_SUF
LEXENTRY:	RADIAL	RADL	TYPE	DET_SUF
LEXENTRY:	RADIEL	RADL	TYPE	DET_SUF
LEXENTRY:	RADL	RADL	TYPE	DET_SUF
LEXENTRY:	RAMP	RAMP	TYPE	DET_SUF
LEXENTRY:	RAMPE	RAMPE	TYPE	DET_PRE
LEXENTRY:	RAMPE DE	RAMPE	TYPE	DET_PRE
LEXENTRY:	RAMPE DE LA	RAMPE	TYPE	DET_PRE
LEXENTRY:	RAMPE DU	RAMPE	TYPE	DET_PRE
LEXENTRY:	RANCH	RNCH	TYPE	DET_SUF
LEXENTRY:	RANCHES	RNCH	TYPE	DET_SUF
LEXENTRY:	RANG	RANG	TYPE	ATT_PRE,DET_PRE
LEXENTRY:	RANG DE	RANG	TYPE	DET_PRE
LEXENTRY:	RANG DE L'	RANG	TYPE	ATT_PRE,DET_PRE
LEXENTRY:	RANG DE LA	RANG	TYPE	DET_PRE
LEXENTRY:	RANG DES	RANG	TYPE	DET_PRE
LEXENTRY:	RANG DU	RANG	TYPE	DET_PRE
LEXENTRY:	RAPID	RPD	TYPE	DET_SUF
LEXENTRY:	RAPIDS	RPDS	TYPE	DET_SUF
LEXENTRY:	RD	RD	TYPE	DET_SUF
LEXENTRY:	RDG	RDG	TYPE	DET_SUF
LEXENTRY:	RDGE	RDG	TYPE	DET_SUF
LEXENTRY:	RDGS	RDGS	TYPE	DET_SUF
";
"LEXENTRY:	RDS	RDS	TYPE	DET_SUF
LEXENTRY:	REMPART	REMPART	TYPE	DET_PRE
LEXENTRY:	REMPART DES	REMPART	TYPE	DET_PRE
LEXENTRY:	REMPART DU	REMPART	TYPE	DET_PRE
LEXENTRY:	REST	RST	TYPE	DET_SUF
LEXENTRY:	RESTAURANT	RESTAURANT	PLACEN	DETACH
LEXENTRY:	RIDGE	RDG	TYPE	DET_SUF
LEXENTRY:	RIDGES	RDGS	TYPE	DET_SUF
LEXENTRY:	RIV	RIV	TYPE	DET_SUF
LEXENTRY:	RIVER	RIV	TYPE	DET_SUF
LEXENTRY:	RIVR	RIV	TYPE	DET_SUF
LEXENTRY:	RNCH	RNCH	TYPE	DET_SUF
LEXENTRY:	RNCHS	RNCH	TYPE	DET_SUF
LEXENTRY:	ROAD	RD	TYPE	DET_SUF
LEXENTRY:	ROADS	RDS	TYPE	DET_SUF
LEXENTRY:	ROCADE	ROCADE	TYPE	DET_PRE
LEXENTRY:	ROCADE DE	ROCADE	TYPE	DET_PRE
LEXENTRY:	ROCADE DE LA	ROCADE	TYPE	DET_PRE
LEXENTRY:	ROND- P	ROND-POINT	TYPE	DET_PRE
LEXENTRY:	ROND-POINT	ROND-POINT	TYPE	ATT_PRE,DET_PRE
LEXENTRY:	ROND-POINT D'	ROND-POINT	TYPE	ATT_PRE,DET_PRE
LEXENTRY:	ROND-POINT DE	ROND-POINT	TYPE	DET_PRE
LEXENTRY:	ROND-POINT DE L'	ROND-POINT	TYPE	ATT_PRE,DET_PRE
LEXENTRY:	ROND-POINT DE LA	ROND-POINT	TYPE	DET_PRE
LEXENTRY:	ROND-POINT DU	ROND-POINT	TYPE	DET_PRE
LEXENTRY:	ROTONDE	ROTONDE	TYPE	ATT_PRE,DET_PRE
LEXENTRY:	ROTONDE D'	ROTONDE	TYPE	ATT_PRE,DET_PRE
LEXENTRY:	ROTONDE DE LA	ROTONDE	TYPE	DET_PRE
LEXENTRY:	ROUTE	RTE	TYPE	DET_PRE,DET_SUF
LEXENTRY:	ROUTE	ROUTE	TYPE	ATT_PRE,DET_PRE
LEXENTRY:	ROUTE AU	ROUTE	TYPE	DET_PRE
LEXENTRY:	ROUTE AUX	ROUTE	TYPE	DET_PRE
LEXENTRY:	ROUTE D'	ROUTE	TYPE	ATT_PRE,DET_PRE
LEXENTRY:	ROUTE DE	ROUTE	TYPE	DET_PRE
LEXENTRY:	ROUTE DE L'	ROUTE	TYPE	ATT_PRE,DET_PRE
LEXENTRY:	ROUTE DE LA	ROUTE	TYPE	DET_PRE
LEXENTRY:	ROUTE DES	ROUTE	TYPE	DET_PRE
LEXENTRY:	ROUTE DU	ROUTE	TYPE	DET_PRE
LEXENTRY:	ROUTE FORESTIÈRE	ROUTE FORESTIÈRE	TYPE	DET_PRE
LEXENTRY:	ROUTE FORESTIÈRE D'	ROUTE FORESTIÈRE	TYPE	DET_PRE
LEXENTRY:	ROUTE FORESTIÈRE DE	ROUTE FORESTIÈRE	TYPE	DET_PRE
LEXENTRY:	ROUTE FORESTIÈRE DE L'	ROUTE FORESTIÈRE	TYPE	DET_PRE
LEXENTRY:	ROUTE FORESTIÈRE DE LA	ROUTE FORESTIÈRE	TYPE	DET_PRE
LEXENTRY:	ROUTE FORESTIÈRE DES	ROUTE FORESTIÈRE	TYPE	DET_PRE
LEXENTRY:	ROUTE FORESTIÈRE DU	ROUTE FORESTIÈRE	TYPE	DET_PRE
LEXENTRY:	ROW	ROW	TYPE	DET_SUF
LEXENTRY:	RPD	RPD	TYPE	DET_SUF
LEXENTRY:	RPDS	RPDS	TYPE	DET_SUF
LEXENTRY:	RPT	ROND-POINT	TYPE	DET_PRE
LEXENTRY:	RPT.	ROND-POINT	TYPE	DET_PRE
LEXENTRY:	RST	RST	TYPE	DET_SUF
LEXENTRY:	RT	RTE	TYPE	DET_PRE,DET_SUF
LEXENTRY:	RT.	RTE	TYPE	DET_PRE,DET_SUF
LEXENTRY:	RTE	RTE	TYPE	DET_PRE,DET_SUF
LEXENTRY:	RTE	ROUTE	TYPE	DET_PRE
LEXENTRY:	RTE.	ROUTE	TYPE	DET_PRE
LEXENTRY:	RUE	RUE	TYPE	ATT_PRE,DET_PRE,DET_SUF
LEXENTRY:	RUE AU	RUE	TYPE	DET_PRE
LEXENTRY:	RUE AUX	RUE	TYPE	DET_PRE
";
"LEXENTRY:	RUE D'	RUE	TYPE	ATT_PRE,DET_PRE
LEXENTRY:	RUE DE	RUE	TYPE	DET_PRE
LEXENTRY:	RUE DE L'	RUE	TYPE	ATT_PRE,DET_PRE
LEXENTRY:	RUE DE LA	RUE	TYPE	DET_PRE
LEXENTRY:	RUE DES	RUE	TYPE	DET_PRE
LEXENTRY:	RUE DU	RUE	TYPE	DET_PRE
LEXENTRY:	RUE L'	RUE	TYPE	ATT_PRE,DET_PRE
LEXENTRY:	RUE LA	RUE	TYPE	DET_PRE
LEXENTRY:	RUE LE	RUE	TYPE	DET_PRE
LEXENTRY:	RUE LES	RUE	TYPE	DET_PRE
LEXENTRY:	RUE À	RUE	TYPE	DET_PRE
LEXENTRY:	RUELLE	RUELLE	TYPE	ATT_PRE,DET_PRE
LEXENTRY:	RUELLE AU	RUELLE	TYPE	DET_PRE
LEXENTRY:	RUELLE AUX	RUELLE	TYPE	DET_PRE
LEXENTRY:	RUELLE D'	RUELLE	TYPE	DET_PRE
LEXENTRY:	RUELLE DE	RUELLE	TYPE	DET_PRE
LEXENTRY:	RUELLE DE L'	RUELLE	TYPE	ATT_PRE,DET_PRE
LEXENTRY:	RUELLE DE LA	RUELLE	TYPE	DET_PRE
LEXENTRY:	RUELLE DES	RUELLE	TYPE	DET_PRE
LEXENTRY:	RUELLE DU	RUELLE	TYPE	DET_PRE
LEXENTRY:	RUELLE À	RUELLE	TYPE	DET_PRE
LEXENTRY:	RUN	RUN	TYPE	DET_SUF
LEXENTRY:	RVR	RIV	TYPE	DET_SUF
LEXENTRY:	RÉSIDENCE	RÉSIDENCE	TYPE	DET_PRE
LEXENTRY:	RÉSIDENCE D'	RÉSIDENCE	TYPE	DET_PRE
LEXENTRY:	RÉSIDENCE DE	RÉSIDENCE	TYPE	DET_PRE
LEXENTRY:	RÉSIDENCE DE L'	RÉSIDENCE	TYPE	DET_PRE
LEXENTRY:	RÉSIDENCE DE LA	RÉSIDENCE	TYPE	DET_PRE
LEXENTRY:	RÉSIDENCE DES	RÉSIDENCE	TYPE	DET_PRE
LEXENTRY:	RÉSIDENCE DU	RÉSIDENCE	TYPE	DET_PRE
LEXENTRY:	RÉSIDENCE L'	RÉSIDENCE	TYPE	DET_PRE
LEXENTRY:	RÉSIDENCE LA	RÉSIDENCE	TYPE	DET_PRE
LEXENTRY:	RÉSIDENCE LE	RÉSIDENCE	TYPE	DET_PRE
LEXENTRY:	RÉSIDENCE LES	RÉSIDENCE	TYPE	DET_PRE
LEXENTRY:	S	HAMEAU	TYPE	DET_PRE
LEXENTRY:	S	ROND-POINT	TYPE	DET_PRE
LEXENTRY:	S	SENTIER	TYPE	DET_PRE
LEXENTRY:	S	S	DIRECT	DETACH
LEXENTRY:	S.	S	DIRECT	DETACH
LEXENTRY:	S.E.	SE	DIRECT	DETACH
LEXENTRY:	S.W.	SW	DIRECT	DETACH
LEXENTRY:	SAINT	ST	WORD	DETACH
LEXENTRY:	SASKATCHEWAN	SASKATCHEWAN	PROV	DETACH
LEXENTRY:	SCHOOL	SCHOOL	PLACEN	DETACH
LEXENTRY:	SE	SE	DIRECT	DETACH
LEXENTRY:	SE.	SE	DIRECT	DETACH
LEXENTRY:	SECOND	2ND	WORD,ORD	DETACH
LEXENTRY:	SENTE	SENTE	TYPE	ATT_PRE,DET_PRE
LEXENTRY:	SENTE AU	SENTE	TYPE	DET_PRE
LEXENTRY:	SENTE AUX	SENTE	TYPE	DET_PRE
LEXENTRY:	SENTE D'	SENTE	TYPE	ATT_PRE,DET_PRE
LEXENTRY:	SENTE DE	SENTE	TYPE	DET_PRE
LEXENTRY:	SENTE DE L'	SENTE	TYPE	ATT_PRE,DET_PRE
LEXENTRY:	SENTE DE LA	SENTE	TYPE	DET_PRE
LEXENTRY:	SENTE DES	SENTE	TYPE	DET_PRE
LEXENTRY:	SENTE DU	SENTE	TYPE	DET_PRE
LEXENTRY:	SENTIER	SENTIER	TYPE	ATT_PRE,DET_PRE
LEXENTRY:	SENTIER AUX	SENTIER	TYPE	DET_PRE
LEXENTRY:	SENTIER D'	SENTIER	TYPE	ATT_PRE,DET_PRE
LEXENTRY:	SENTIER DE	SENTIER	TYPE	DET_PRE
LEXENTRY:	SENTIER DE L'	SENTIER	TYPE	ATT_PRE,DET_PRE
LEXENTRY:	SENTIER DE LA	SENTIER	TYPE	DET_PRE
";
"LEXENTRY:	SENTIER DES	SENTIER	TYPE	DET_PRE
LEXENTRY:	SENTIER DU	SENTIER	TYPE	DET_PRE
LEXENTRY:	SENTIERS	SENTIER	TYPE	DET_PRE
LEXENTRY:	SENTIERS DES	SENTIER	TYPE	DET_PRE
LEXENTRY:	SEPTIÈME	7E	WORD,ORD	DETACH
LEXENTRY:	SEUIL	SEUIL	TYPE	DET_PRE
LEXENTRY:	SEUIL DE	SEUIL	TYPE	DET_PRE
LEXENTRY:	SEVEN	7	NUMBER	DETACH
LEXENTRY:	SEVENTEEN	17	NUMBER	DETACH
LEXENTRY:	SEVENTEENTH	17TH	WORD,ORD	DETACH
LEXENTRY:	SEVENTH	7TH	WORD,ORD	DETACH
LEXENTRY:	SEVENTIETH	70TH	WORD,ORD	DETACH
LEXENTRY:	SEVENTY	70	NUMBER	DETACH
LEXENTRY:	SHL	SHL	TYPE	DET_SUF
LEXENTRY:	SHLS	SHLS	TYPE	DET_SUF
LEXENTRY:	SHOAL	SHL	TYPE	DET_SUF
LEXENTRY:	SHOALS	SHLS	TYPE	DET_SUF
LEXENTRY:	SHOAR	SHR	TYPE	DET_SUF
LEXENTRY:	SHOARS	SHRS	TYPE	DET_SUF
LEXENTRY:	SHOP	SHOP	PLACEN	DETACH
LEXENTRY:	SHORE	SHR	TYPE	DET_SUF
LEXENTRY:	SHORES	SHRS	TYPE	DET_SUF
LEXENTRY:	SHR	SHR	TYPE	DET_SUF
LEXENTRY:	SHRS	SHRS	TYPE	DET_SUF
LEXENTRY:	SITE	SITE	UNITH	DETACH
LEXENTRY:	SIX	6	NUMBER	DETACH
LEXENTRY:	SIXIÈME	6E	WORD,ORD	DETACH
LEXENTRY:	SIXTEEN	16	NUMBER	DETACH
LEXENTRY:	SIXTEENTH	16TH	WORD,ORD	DETACH
LEXENTRY:	SIXTH	6TH	WORD,ORD	DETACH
LEXENTRY:	SIXTIETH	60TH	WORD,ORD	DETACH
LEXENTRY:	SIXTY	60	NUMBER	DETACH
LEXENTRY:	SK	SASKATCHEWAN	PROV	DETACH
LEXENTRY:	SKWY	SKWY	TYPE	DET_SUF
LEXENTRY:	SKYWAY	SKWY	TYPE	DET_SUF
LEXENTRY:	SMT	SMT	TYPE	DET_SUF
LEXENTRY:	SO	SO	DIRECT	DETACH
LEXENTRY:	SOUTH	S	DIRECT	DETACH
LEXENTRY:	SOUTHEAST	SE	DIRECT	DETACH
LEXENTRY:	SOUTHWEST	SW	DIRECT	DETACH
LEXENTRY:	SPG	SPG	TYPE	DET_SUF
LEXENTRY:	SPGS	SPGS	TYPE	DET_SUF
LEXENTRY:	SPNG	SPG	TYPE	DET_SUF
LEXENTRY:	SPNGS	SPGS	TYPE	DET_SUF
LEXENTRY:	SPRING	SPG	TYPE	DET_SUF
LEXENTRY:	SPRINGS	SPGS	TYPE	DET_SUF
LEXENTRY:	SPRNG	SPG	TYPE	DET_SUF
LEXENTRY:	SPRNGS	SPGS	TYPE	DET_SUF
LEXENTRY:	SPUR	SPUR	TYPE	DET_SUF
LEXENTRY:	SPURS	SPUR	TYPE	DET_SUF
LEXENTRY:	SQ	SQ	TYPE	DET_PRE,DET_SUF
LEXENTRY:	SQ	SQUARE	TYPE	DET_PRE
LEXENTRY:	SQ.	SQ	TYPE	DET_PRE,DET_SUF
LEXENTRY:	SQ.	SQUARE	TYPE	DET_PRE
LEXENTRY:	SQR	SQ	TYPE	DET_SUF
LEXENTRY:	SQRE	SQ	TYPE	DET_SUF
LEXENTRY:	SQS	SQS	TYPE	DET_SUF
LEXENTRY:	SQU	SQ	TYPE	DET_SUF
LEXENTRY:	SQUARE	SQ	TYPE	DET_PRE,DET_SUF
LEXENTRY:	SQUARE	SQUARE	TYPE	ATT_PRE,DET_PRE
LEXENTRY:	SQUARE AUX	SQUARE	TYPE	DET_PRE
LEXENTRY:	SQUARE D'	SQUARE	TYPE	ATT_PRE,DET_PRE
LEXENTRY:	SQUARE DE	SQUARE	TYPE	DET_PRE
LEXENTRY:	SQUARE DE L'	SQUARE	TYPE	ATT_PRE,DET_PRE
LEXENTRY:	SQUARE DE LA	SQUARE	TYPE	DET_PRE
LEXENTRY:	SQUARE DES	SQUARE	TYPE	DET_PRE
LEXENTRY:	SQUARE DU	SQUARE	TYPE	DET_PRE
LEXENTRY:	SQUARE LES	SQUARE	TYPE	DET_PRE
LEXENTRY:	SQUARES	SQS	TYPE	DET_SUF
";
"LEXENTRY:	ST	ST	TYPE,WORD	DETACH,DET_SUF
LEXENTRY:	ST.	ST	TYPE	DET_SUF
LEXENTRY:	STADE	STADE	PLACEN	DETACH
LEXENTRY:	STADIUM	STADIUM	PLACEN	DETACH
LEXENTRY:	STATION	STATION	PLACEN	DETACH
LEXENTRY:	STE	STE	UNITH	DETACH
LEXENTRY:	STORE	STORE	PLACEN	DETACH
LEXENTRY:	STR	ST	TYPE	DET_SUF
LEXENTRY:	STRA	STRA	TYPE	DET_SUF
LEXENTRY:	STRAV	STRA	TYPE	DET_SUF
LEXENTRY:	STRAVE	STRA	TYPE	DET_SUF
LEXENTRY:	STRAVEN	STRA	TYPE	DET_SUF
LEXENTRY:	STRAVENUE	STRA	TYPE	DET_SUF
LEXENTRY:	STRAVN	STRA	TYPE	DET_SUF
LEXENTRY:	STREAM	STRM	TYPE	DET_SUF
LEXENTRY:	STREET	ST	TYPE	DET_SUF
LEXENTRY:	STREETS	STS	TYPE	DET_SUF
LEXENTRY:	STREME	STRM	TYPE	DET_SUF
LEXENTRY:	STRM	STRM	TYPE	DET_SUF
LEXENTRY:	STRT	ST	TYPE	DET_SUF
LEXENTRY:	STRVN	STRA	TYPE	DET_SUF
LEXENTRY:	STRVNUE	STRA	TYPE	DET_SUF
LEXENTRY:	STS	STS	TYPE	DET_SUF
LEXENTRY:	SUD	S	DIRECT	DETACH
LEXENTRY:	SUD-EST	SE	DIRECT	DETACH
LEXENTRY:	SUD-OUEST	SO	DIRECT	DETACH
LEXENTRY:	SUITE	STE	UNITH	DETACH
LEXENTRY:	SUMIT	SMT	TYPE	DET_SUF
LEXENTRY:	SUMITT	SMT	TYPE	DET_SUF
LEXENTRY:	SUMMIT	SMT	TYPE	DET_SUF
LEXENTRY:	SW	SW	DIRECT	DETACH
LEXENTRY:	SW.	SW	DIRECT	DETACH
LEXENTRY:	TEN	10	NUMBER	DETACH
LEXENTRY:	TENTH	10TH	WORD,ORD	DETACH
LEXENTRY:	TER	TER	TYPE	DET_SUF
LEXENTRY:	TERR	TER	TYPE	DET_SUF
LEXENTRY:	TERRACE	TER	TYPE	DET_SUF
LEXENTRY:	TERRASSE	TERRASSE	TYPE	ATT_PRE,DET_PRE
LEXENTRY:	TERRASSE DE L'	TERRASSE	TYPE	ATT_PRE,DET_PRE
LEXENTRY:	TERRASSE DE LA 	TERRASSE	TYPE	DET_PRE
LEXENTRY:	TERRE-NEUVE	NEWFOUNDLAND	PROV	DETACH
LEXENTRY:	TERRITOIRES DU NORD-OUEST	NORTHWEST TERRITORIES	PROV	DETACH
LEXENTRY:	THEATER	THEATER	PLACEN	DETACH
LEXENTRY:	THEATRE	THEATRE	PLACEN	DETACH
LEXENTRY:	THIRD	3RD	WORD,ORD	DETACH
LEXENTRY:	THIRTEEN	13	NUMBER	DETACH
LEXENTRY:	THIRTEENTH	13TH	WORD,ORD	DETACH
LEXENTRY:	THIRTIETH	30TH	WORD,ORD	DETACH
LEXENTRY:	THIRTY	30	NUMBER	DETACH
LEXENTRY:	THREE	3	NUMBER	DETACH
LEXENTRY:	THROUGHWAY	TRWY	TYPE	DET_SUF
LEXENTRY:	THÉÂTRE	THÉÂTRE	PLACEN	DETACH
LEXENTRY:	TPK	TPKE	TYPE	DET_SUF
LEXENTRY:	TPKE	TPKE	TYPE	DET_SUF
LEXENTRY:	TR	TRL	TYPE	DET_SUF
LEXENTRY:	TRA	TRAVERSE	TYPE	DET_PRE
LEXENTRY:	TRA.	TRAVERSE	TYPE	DET_PRE
LEXENTRY:	TRACE	TRCE	TYPE	DET_SUF
LEXENTRY:	TRACES	TRCE	TYPE	DET_SUF
LEXENTRY:	TRACK	TRAK	TYPE	DET_SUF
LEXENTRY:	TRACKS	TRAK	TYPE	DET_SUF
LEXENTRY:	TRAFFICWAY	TRFY	TYPE	DET_SUF
LEXENTRY:	TRAIL	TRL	TYPE	DET_SUF
LEXENTRY:	TRAILS	TRL	TYPE	DET_SUF
LEXENTRY:	TRAK	TRAK	TYPE	DET_SUF
LEXENTRY:	TRAVERSE	TRAVERSE	TYPE	ATT_PRE,DET_PRE
LEXENTRY:	TRAVERSE DE	TRAVERSE	TYPE	DET_PRE
";
"LEXENTRY:	TRAVERSE DE L'	TRAVERSE	TYPE	ATT_PRE,DET_PRE
LEXENTRY:	TRAVERSE DE LA	TRAVERSE	TYPE	DET_PRE
LEXENTRY:	TRAVERSE DU	TRAVERSE	TYPE	DET_PRE
LEXENTRY:	TRCE	TRCE	TYPE	DET_SUF
LEXENTRY:	TRFY	TRFY	TYPE	DET_SUF
LEXENTRY:	TRIANGLE DE	TRAVERSE	TYPE	DET_PRE
LEXENTRY:	TRK	TRAK	TYPE	DET_SUF
LEXENTRY:	TRKS	TRAK	TYPE	DET_SUF
LEXENTRY:	TRL	TRL	TYPE	DET_SUF
LEXENTRY:	TRLS	TRL	TYPE	DET_SUF
LEXENTRY:	TRNPK	TPKE	TYPE	DET_SUF
LEXENTRY:	TROISIÈME	3E	WORD,ORD	DETACH
LEXENTRY:	TRPK	TPKE	TYPE	DET_SUF
LEXENTRY:	TRUST	TRUST	PLACEN	DETACH
LEXENTRY:	TRWY	TRWY	TYPE	DET_SUF
LEXENTRY:	TUNEL	TUNL	TYPE	DET_SUF
LEXENTRY:	TUNL	TUNL	TYPE	DET_SUF
LEXENTRY:	TUNLS	TUNL	TYPE	DET_SUF
LEXENTRY:	TUNNEL	TUNL	TYPE	DET_SUF
LEXENTRY:	TUNNELS	TUNL	TYPE	DET_SUF
LEXENTRY:	TUNNL	TUNL	TYPE	DET_SUF
LEXENTRY:	TURNPIKE	TPKE	TYPE	DET_SUF
LEXENTRY:	TURNPK	TPKE	TYPE	DET_SUF
LEXENTRY:	TWELFTH	12TH	WORD,ORD	DETACH
LEXENTRY:	TWELVE	12	NUMBER	DETACH
LEXENTRY:	TWENTIETH	20TH	WORD,ORD	DETACH
LEXENTRY:	TWENTY	20	NUMBER	DETACH
LEXENTRY:	TWO	2	NUMBER	DETACH
LEXENTRY:	UN	UN	TYPE	DET_SUF
LEXENTRY:	UNDERPASS	UPAS	TYPE	DET_SUF
LEXENTRY:	UNION	UN	TYPE	DET_SUF
LEXENTRY:	UNIONS	UNS	TYPE	DET_SUF
LEXENTRY:	UNIT	UNIT	UNITH	DETACH
LEXENTRY:	UNITÉ	UNITÉ	UNITH	DETACH
LEXENTRY:	UNIVERSITAIRE	UNIVERSITAIRE	PLACEN	DETACH
LEXENTRY:	UNIVERSITY	UNIVERSITY	PLACEN	DETACH
LEXENTRY:	UNIVERSITÉ	UNIVERSITÉ	PLACEN	DETACH
LEXENTRY:	UNS	UNS	TYPE	DET_SUF
LEXENTRY:	UPAS	UPAS	TYPE	DET_SUF
LEXENTRY:	VAL	VALLÉE	TYPE	DET_PRE
LEXENTRY:	VALLEY	VLY	TYPE	DET_SUF
LEXENTRY:	VALLEYS	VLYS	TYPE	DET_SUF
LEXENTRY:	VALLY	VLY	TYPE	DET_SUF
LEXENTRY:	VALLÉE	VALLÉE	TYPE	DET_PRE
LEXENTRY:	VALLÉE AUX	VALLÉE	TYPE	DET_PRE
LEXENTRY:	VALLÉE DES	VALLÉE	TYPE	DET_PRE
LEXENTRY:	VDCT	VIA	TYPE	DET_SUF
LEXENTRY:	VENELLE	VENELLE	TYPE	DET_PRE
LEXENTRY:	VENELLE AU	VENELLE	TYPE	DET_PRE
LEXENTRY:	VENELLE DE	VENELLE	TYPE	DET_PRE
LEXENTRY:	VENELLE DES	VENELLE	TYPE	DET_PRE
LEXENTRY:	VENELLE DU	VENELLE	TYPE	DET_PRE
LEXENTRY:	VIA	VIA	TYPE	DET_SUF
LEXENTRY:	VIADCT	VIA	TYPE	DET_SUF
LEXENTRY:	VIADUCT	VIA	TYPE	DET_SUF
LEXENTRY:	VIEILLE ROUTE	VIEILLE ROUTE	TYPE	DET_PRE
LEXENTRY:	VIEILLE ROUTE DE 	VIEILLE ROUTE	TYPE	DET_PRE
LEXENTRY:	VIEILLE RUE	VIEILLE RUE	TYPE	DET_PRE
LEXENTRY:	VIEILLE RUE AUX	VIEILLE RUE	TYPE	DET_PRE
LEXENTRY:	VIEUX CHEMIN	VIEUX CHEMIN	TYPE	DET_PRE
LEXENTRY:	VIEUX CHEMIN DE	VIEUX CHEMIN	TYPE	DET_PRE
LEXENTRY:	VIEW	VW	TYPE	DET_SUF
LEXENTRY:	VIEWS	VWS	TYPE	DET_SUF
LEXENTRY:	VILL	VLG	TYPE	DET_SUF
LEXENTRY:	VILLA	VILLA	TYPE	ATT_PRE,DET_PRE
";
"LEXENTRY:	VILLA D'	VILLA	TYPE	ATT_PRE,DET_PRE
LEXENTRY:	VILLA DE	VILLA	TYPE	DET_PRE
LEXENTRY:	VILLA DE L'	VILLA	TYPE	ATT_PRE,DET_PRE
LEXENTRY:	VILLA DE LA	VILLA	TYPE	DET_PRE
LEXENTRY:	VILLA DES	VILLA	TYPE	DET_PRE
LEXENTRY:	VILLA DU	VILLA	TYPE	DET_PRE
LEXENTRY:	VILLA LES	VILLA	TYPE	DET_PRE
LEXENTRY:	VILLAG	VLG	TYPE	DET_SUF
LEXENTRY:	VILLAGE	VLG	TYPE	DET_SUF
LEXENTRY:	VILLAGE	VILLAGE	TYPE	DET_PRE
LEXENTRY:	VILLAGE DE	VILLAGE	TYPE	DET_PRE
LEXENTRY:	VILLAGE DES	VILLAGE	TYPE	DET_PRE
LEXENTRY:	VILLAGES	VLGS	TYPE	DET_SUF
LEXENTRY:	VILLAS	VILLAS	TYPE	DET_PRE
LEXENTRY:	VILLAS D'	VILLAS	TYPE	DET_PRE
LEXENTRY:	VILLE	VL	TYPE	DET_SUF
LEXENTRY:	VILLE DE	VILLE DE	TYPE	DET_PRE
LEXENTRY:	VILLG	VLG	TYPE	DET_SUF
LEXENTRY:	VILLIAGE	VLG	TYPE	DET_SUF
LEXENTRY:	VIS	VIS	TYPE	DET_SUF
LEXENTRY:	VIST	VIS	TYPE	DET_SUF
LEXENTRY:	VISTA	VIS	TYPE	DET_SUF
LEXENTRY:	VL	VL	TYPE	DET_SUF
LEXENTRY:	VLG	VLG	TYPE	DET_SUF
LEXENTRY:	VLGS	VLGS	TYPE	DET_SUF
LEXENTRY:	VLLY	VLY	TYPE	DET_SUF
LEXENTRY:	VLY	VLY	TYPE	DET_SUF
LEXENTRY:	VLYS	VLYS	TYPE	DET_SUF
LEXENTRY:	VOIE	VOIE	TYPE	ATT_PRE,DET_PRE
LEXENTRY:	VOIE AU	VOIE	TYPE	DET_PRE
LEXENTRY:	VOIE AUX	VOIE	TYPE	DET_PRE
LEXENTRY:	VOIE D'	VOIE	TYPE	ATT_PRE,DET_PRE
LEXENTRY:	VOIE DE	VOIE	TYPE	DET_PRE
LEXENTRY:	VOIE DE L'	VOIE	TYPE	ATT_PRE,DET_PRE
LEXENTRY:	VOIE DE LA	VOIE	TYPE	DET_PRE
LEXENTRY:	VOIE DES	VOIE	TYPE	DET_PRE
LEXENTRY:	VOIE DU	VOIE	TYPE	DET_PRE
LEXENTRY:	VOIRIE	VOIRIE	TYPE	DET_PRE
LEXENTRY:	VOIRIE DE LA	VOIRIE	TYPE	DET_PRE
LEXENTRY:	VOIRIE DES	VOIRIE	TYPE	DET_PRE
LEXENTRY:	VST	VIS	TYPE	DET_SUF
LEXENTRY:	VSTA	VIS	TYPE	DET_SUF
LEXENTRY:	VW	VW	TYPE	DET_SUF
LEXENTRY:	VWS	VWS	TYPE	DET_SUF
LEXENTRY:	W	W	DIRECT	DETACH
LEXENTRY:	W.	W	DIRECT	DETACH
LEXENTRY:	WALK	WALK	TYPE	DET_SUF
LEXENTRY:	WALKS	WALK	TYPE	DET_SUF
LEXENTRY:	WALL	WALL	TYPE	DET_SUF
LEXENTRY:	WAY	WAY	TYPE	DET_SUF
LEXENTRY:	WAYS	WAYS	TYPE	DET_SUF
LEXENTRY:	WELL	WL	TYPE	DET_SUF
LEXENTRY:	WELLS	WLS	TYPE	DET_SUF
LEXENTRY:	WEST	W	DIRECT	DETACH
LEXENTRY:	WL	WL	TYPE	DET_SUF
LEXENTRY:	WLS	WLS	TYPE	DET_SUF
LEXENTRY:	WY	WAY	TYPE	DET_SUF
LEXENTRY:	XING	XING	TYPE	DET_SUF
LEXENTRY:	XRD	XRD	TYPE	DET_SUF
LEXENTRY:	YT	YUKON	PROV	DETACH
LEXENTRY:	ÉCHANGEUR	ÉCHANGEUR	TYPE	DET_PRE
LEXENTRY:	ÉCHANGEUR D'	ÉCHANGEUR	TYPE	DET_PRE
LEXENTRY:	ÉCHANGEUR DE	ÉCHANGEUR	TYPE	DET_PRE
LEXENTRY:	ÉCHANGEUR DE LA	ÉCHANGEUR	TYPE	DET_PRE
LEXENTRY:	ÉCHANGEUR DES	ÉCHANGEUR	TYPE	DET_PRE
LEXENTRY:	ÉCOLE	ÉCOLE	PLACEN	DETACH
LEXENTRY:	ÉTOILE	ÉTOILE	TYPE	DET_PRE
LEXENTRY:	ÉTOILE D'	ÉTOILE	TYPE	DET_PRE
";
"LEXENTRY:	ÉTOILE DE	ÉTOILE	TYPE	DET_PRE
LEXENTRY:	ÉTOILE DE LA	ÉTOILE	TYPE	DET_PRE
LEXENTRY:	ÉTOILE DES	ÉTOILE	TYPE	DET_PRE
LEXENTRY:	ÉTOILE DU	ÉTOILE	TYPE	DET_PRE
LEXENTRY:	ÎLE	ÎLE	TYPE	DET_PRE
LEXENTRY:	ÎLE DE LA	ÎLE	TYPE	DET_PRE
LEXENTRY:	ÎLE-DU-PRINCE-ÉDOUARD	PRINCE EDWARD ISLAND	PROV	DETACH
"].
(** data/sample/denmark.lex *)
Definition slex_denmark : list string := [lex_denmark].
(** data/sample/finland.lex *)
Definition slex_finland : list string :=
[
"LEXICON:	lex-finland.txt	FIN	fi_FI
LEXENTRY:	AB	AB	PLACEN	DETACH
LEXENTRY:	AY	AY	PLACEN	DETACH
LEXENTRY:	KY	KY	PLACEN	DETACH
LEXENTRY:	OY	OY	PLACEN	DETACH
LEXENTRY:	OYJ	OYJ	PLACEN	DETACH
LEXENTRY:	LTD	LTD	PLACEN	DETACH
LEXENTRY:	LLC	LLC	PLACEN	DETACH
LEXENTRY:	PLC	PLC	PLACEN	DETACH
LEXENTRY:	GMBH	GMBH	PLACEN	DETACH
LEXENTRY:	BOX	BOX	BOXH	DETACH
LEXENTRY:	POSTILOKERO	PL	BOXH	DETACH
LEXENTRY:	POSTE	POSTE	BOXH	DETACH
LEXENTRY:	PL	PL	BOXH	DETACH
LEXENTRY:	AKTIEBOLAG	AKTIEBOLAG	PLACEN	DETACH
LEXENTRY:	AKTIEBOLAGET	AKTIEBOLAGET	PLACEN	DETACH
LEXENTRY:	ALLÉN	ALLÉN	TYPE	ATT_SUF
LEXENTRY:	AUKIO	AUKIO	TYPE	ATT_SUF,DET_SUF
LEXENTRY:	BACKEN	BACKEN	TYPE	ATT_SUF
LEXENTRY:	BRANTEN	BRANTEN	TYPE	ATT_SUF
LEXENTRY:	BRINKEN	BRINKEN	TYPE	ATT_SUF
LEXENTRY:	BRO	BRO	TYPE	ATT_SUF,DET_SUF
LEXENTRY:	BRON	BRON	TYPE	ATT_SUF
LEXENTRY:	BRYGGA	BRYGGA	TYPE	DET_SUF
LEXENTRY:	BRYGGAN	BRYGGAN	TYPE	ATT_SUF
LEXENTRY:	BÅGE	BÅGE	TYPE	DET_SUF
LEXENTRY:	BÅGEN	BÅGEN	TYPE	ATT_SUF
LEXENTRY:	DALEN	DALEN	TYPE	ATT_SUF
LEXENTRY:	DRAGET	DRAGET	TYPE	ATT_SUF
LEXENTRY:	ESPLANADEN	ESPLANADEN	TYPE	ATT_SUF
LEXENTRY:	ESPLANADI	ESPLANADI	TYPE	ATT_SUF
LEXENTRY:	FI	FINLAND	NATION,WORD	DETACH
LEXENTRY:	FIN	FINLAND	NATION,WORD	DETACH
LEXENTRY:	FINLAND	FINLAND	NATION,WORD	DETACH
LEXENTRY:	G.	GATA	TYPE	DET_SUF
LEXENTRY:	G.	GATAN	TYPE	ATT_SUF
LEXENTRY:	GATA	GATA	TYPE	ATT_SUF,DET_SUF
LEXENTRY:	GATAN	GATAN	TYPE	ATT_SUF
LEXENTRY:	GRÄND	GRÄND	TYPE	ATT_SUF,DET_SUF
LEXENTRY:	GRÄNDEN	GRÄNDEN	TYPE	ATT_SUF
LEXENTRY:	GT	GATAN	TYPE	ATT_SUF
LEXENTRY:	GT.	GATA	TYPE	DET_SUF
LEXENTRY:	GT.	GATAN	TYPE	ATT_SUF
LEXENTRY:	GÅNG	GÅNG	TYPE	DET_SUF
LEXENTRY:	GÅNGEN	GÅNGEN	TYPE	ATT_SUF
LEXENTRY:	GÅRDSVÄG	GÅRDSVÄG	TYPE	DET_SUF
LEXENTRY:	GÅRDSVÄGEN	GÅRDSVÄGEN	TYPE	ATT_SUF
LEXENTRY:	HAMN	HAMN	TYPE	DET_SUF
LEXENTRY:	HAMNEN	HAMNEN	TYPE	ATT_SUF
LEXENTRY:	HÖJDEN	HÖJDEN	TYPE	ATT_SUF
LEXENTRY:	K.	KATU	TYPE	ATT_SUF,DET_SUF
LEXENTRY:	KAJEN	KAJEN	TYPE	ATT_SUF
LEXENTRY:	KALLIO	KALLIO	TYPE	ATT_SUF
LEXENTRY:	KATU	KATU	TYPE	ATT_SUF,DET_SUF
LEXENTRY:	KLIPPAN	KLIPPAN	TYPE	ATT_SUF
LEXENTRY:	KORSET	KORSET	TYPE	ATT_SUF
LEXENTRY:	KROKEN	KROKEN	TYPE	ATT_SUF
LEXENTRY:	KUJA	KUJA	TYPE	ATT_SUF,DET_SUF
LEXENTRY:	KÄYTÄVÄ	KÄYTÄVÄ	TYPE	ATT_SUF
LEXENTRY:	LEDEN	LEDEN	TYPE	ATT_SUF
LEXENTRY:	LIDEN	LIDEN	TYPE	ATT_SUF
LEXENTRY:	LUNDEN	LUNDEN	TYPE	ATT_SUF
LEXENTRY:	LÄNKEN	LÄNKEN	TYPE	ATT_SUF
LEXENTRY:	MUTKA	MUTKA	TYPE	ATT_SUF
LEXENTRY:	MÄKI	MÄKI	TYPE	ATT_SUF
LEXENTRY:	PARKEN	PARKEN	TYPE	ATT_SUF
LEXENTRY:	PASSAGEN	PASSAGEN	TYPE	ATT_SUF
LEXENTRY:	PASSET	PASSET	TYPE	ATT_SUF
";
"LEXENTRY:	PLAN	PLAN	TYPE	ATT_SUF
LEXENTRY:	PLATS	PLATS	TYPE	DET_SUF
LEXENTRY:	PLATSEN	PLATSEN	TYPE	ATT_SUF
LEXENTRY:	POLKU	POLKU	TYPE	ATT_SUF,DET_SUF
LEXENTRY:	PORTEN	PORTEN	TYPE	ATT_SUF
LEXENTRY:	PUISTO	PUISTO	TYPE	ATT_SUF
LEXENTRY:	PUISTOTIE	PUISTOTIE	TYPE	ATT_SUF,DET_SUF
LEXENTRY:	RAITTI	RAITTI	TYPE	ATT_SUF,DET_SUF
LEXENTRY:	RANTA	RANTA	TYPE	ATT_SUF
LEXENTRY:	RINGEN	RINGEN	TYPE	ATT_SUF
LEXENTRY:	RINNE	RINNE	TYPE	ATT_SUF
LEXENTRY:	SILTA	SILTA	TYPE	ATT_SUF
LEXENTRY:	SLINGAN	SLINGAN	TYPE	ATT_SUF
LEXENTRY:	SPÅRET	SPÅRET	TYPE	ATT_SUF
LEXENTRY:	STIG	STIG	TYPE	DET_SUF
LEXENTRY:	STIGEN	STIGEN	TYPE	ATT_SUF
LEXENTRY:	STRAND	STRAND	TYPE	ATT_SUF,DET_SUF
LEXENTRY:	STRANDEN	STRANDEN	TYPE	ATT_SUF
LEXENTRY:	STRÅK	STRÅK	TYPE	DET_SUF
LEXENTRY:	STRÅKET	STRÅKET	TYPE	ATT_SUF
LEXENTRY:	SVÄNGEN	SVÄNGEN	TYPE	ATT_SUF
LEXENTRY:	T.	TIE	TYPE	ATT_SUF,DET_SUF
LEXENTRY:	TERRASSEN	TERRASSEN	TYPE	ATT_SUF
LEXENTRY:	TIE	TIE	TYPE	ATT_SUF,DET_SUF
LEXENTRY:	TORG	TORG	TYPE	ATT_SUF,DET_SUF
LEXENTRY:	TORGET	TORGET	TYPE	ATT_SUF
LEXENTRY:	TORI	TORI	TYPE	ATT_SUF,DET_SUF
LEXENTRY:	TRAPPAN	TRAPPAN	TYPE	ATT_SUF
LEXENTRY:	TUNET	TUNET	TYPE	ATT_SUF
LEXENTRY:	UDDEN	UDDEN	TYPE	ATT_SUF
LEXENTRY:	V.	VÄG	TYPE	ATT_SUF,DET_SUF
LEXENTRY:	VÄG	VÄG	TYPE	ATT_SUF,DET_SUF
LEXENTRY:	VÄGEN	VÄGEN	TYPE	ATT_SUF
LEXENTRY:	VÄYLÄ	VÄYLÄ	TYPE	ATT_SUF
LEXENTRY:	ÅSEN	ÅSEN	TYPE	ATT_SUF
"].
(** data/sample/france.lex *)
Definition slex_france : list string :=
[
"LEXICON:	lex-france.txt	FRE	fr_FR
LEXENTRY:			WORD	DETACH
LEXENTRY:	1	1	NUMBER	DETACH
LEXENTRY:	10	10	NUMBER	DETACH
LEXENTRY:	100	100	NUMBER	DETACH
LEXENTRY:	10E	10E	WORD,ORD	DETACH
LEXENTRY:	11	11	NUMBER	DETACH
LEXENTRY:	12	12	NUMBER	DETACH
LEXENTRY:	13	13	NUMBER	DETACH
LEXENTRY:	14	14	NUMBER	DETACH
LEXENTRY:	15	15	NUMBER	DETACH
LEXENTRY:	16	16	NUMBER	DETACH
LEXENTRY:	17	17	NUMBER	DETACH
LEXENTRY:	18	18	NUMBER	DETACH
LEXENTRY:	19	19	NUMBER	DETACH
LEXENTRY:	1ER	1ER	WORD,ORD	DETACH
LEXENTRY:	1ÈRE	1ER	WORD,ORD	DETACH
LEXENTRY:	2	2	NUMBER	DETACH
LEXENTRY:	20	20	NUMBER	DETACH
LEXENTRY:	2E	2E	WORD,ORD	DETACH
LEXENTRY:	3	3	NUMBER	DETACH
LEXENTRY:	30	30	NUMBER	DETACH
LEXENTRY:	3E	3E	WORD,ORD	DETACH
LEXENTRY:	4	4	NUMBER	DETACH
LEXENTRY:	40	40	NUMBER	DETACH
LEXENTRY:	4E	4E	WORD,ORD	DETACH
LEXENTRY:	5	5	NUMBER	DETACH
LEXENTRY:	50	50	NUMBER	DETACH
LEXENTRY:	5E	5E	WORD,ORD	DETACH
LEXENTRY:	6	6	NUMBER	DETACH
LEXENTRY:	60	60	NUMBER	DETACH
LEXENTRY:	6E	6E	WORD,ORD	DETACH
LEXENTRY:	7	7	NUMBER	DETACH
LEXENTRY:	7E	7E	WORD,ORD	DETACH
LEXENTRY:	8	8	NUMBER	DETACH
LEXENTRY:	8E	8E	WORD,ORD	DETACH
LEXENTRY:	9	9	NUMBER	DETACH
LEXENTRY:	9E	9E	WORD,ORD	DETACH
LEXENTRY:	AEROPORT	AEROPORT	PLACEN	DETACH
LEXENTRY:	ALL	ALLÉE	TYPE	DET_PRE
LEXENTRY:	ALLEE	ALLÉE	TYPE	ATT_PRE,DET_PRE
LEXENTRY:	ALLÉE	ALLÉE	TYPE	ATT_PRE,DET_PRE
LEXENTRY:	ALLÉE AUX	ALLÉE	TYPE	DET_PRE
LEXENTRY:	ALLÉE D'	ALLÉE	TYPE	ATT_PRE
LEXENTRY:	ALLÉE DE	ALLÉE	TYPE	DET_PRE
LEXENTRY:	ALLÉE DE L'	ALLÉE	TYPE	ATT_PRE
LEXENTRY:	ALLÉE DE LA	ALLÉE	TYPE	DET_PRE
LEXENTRY:	ALLÉE DES	ALLÉE	TYPE	DET_PRE
LEXENTRY:	ALLÉE DU	ALLÉE	TYPE	DET_PRE
LEXENTRY:	ALLÉE L'	ALLÉE	TYPE	ATT_PRE
LEXENTRY:	ALLÉE LA	ALLÉE	TYPE	DET_PRE
LEXENTRY:	ALLÉE LE	ALLÉE	TYPE	DET_PRE
LEXENTRY:	ALLÉE LES 	ALLÉE	TYPE	DET_PRE
LEXENTRY:	ALLÉES	ALLÉES	TYPE	DET_PRE
LEXENTRY:	ALLÉES DES	ALLÉES	TYPE	DET_PRE
LEXENTRY:	ANCIEN CHEMIN	ANCIEN CHEMIN	TYPE	DET_PRE
LEXENTRY:	ANCIEN CHEMIN DE 	ANCIEN CHEMIN	TYPE	DET_PRE
LEXENTRY:	ANCIENNE ROUTE	ANCIENNE ROUTE	TYPE	DET_PRE
LEXENTRY:	ANCIENNE ROUTE DE	ANCIENNE ROUTE	TYPE	DET_PRE
LEXENTRY:	ANCIENNE RUE	ANCIENNE RUE	TYPE	DET_PRE
LEXENTRY:	ANCIENNE RUE AUX	ANCIENNE RUE	TYPE	DET_PRE
LEXENTRY:	APARTEMENT	APARTEMENT	UNITH	DETACH
LEXENTRY:	APP	APARTEMENT	UNITH	DETACH
LEXENTRY:	APP.	APARTEMENT	UNITH	DETACH
LEXENTRY:	ASBL	ASBL	PLACEN	DETACH
LEXENTRY:	ASSOCIATION	ASSOCIATION	PLACEN	DETACH
LEXENTRY:	AUTOROUTE	AUTOROUTE	TYPE	ATT_PRE,DET_PRE
LEXENTRY:	AUTOROUTE DE	AUTOROUTE	TYPE	DET_PRE
LEXENTRY:	AUTOROUTE DE L'	AUTOROUTE	TYPE	ATT_PRE
";
"LEXENTRY:	AUTOROUTE DU	AUTOROUTE	TYPE	DET_PRE
LEXENTRY:	AV	AVENUE	TYPE	DET_PRE,DET_SUF
LEXENTRY:	AV.	AVENUE	TYPE	DET_PRE,DET_SUF
LEXENTRY:	AVE	AVENUE	TYPE	DET_PRE,DET_SUF
LEXENTRY:	AVE.	AVENUE	TYPE	DET_PRE,DET_SUF
LEXENTRY:	AVENUE	AVENUE	TYPE	ATT_PRE,DET_PRE,DET_SUF
LEXENTRY:	AVENUE D'	AVENUE	TYPE	ATT_PRE
LEXENTRY:	AVENUE DE	AVENUE	TYPE	DET_PRE
LEXENTRY:	AVENUE DE L'	AVENUE	TYPE	ATT_PRE
LEXENTRY:	AVENUE DE LA	AVENUE	TYPE	DET_PRE
LEXENTRY:	AVENUE DES	AVENUE	TYPE	DET_PRE
LEXENTRY:	AVENUE DU	AVENUE	TYPE	DET_PRE
LEXENTRY:	AVENUE LA 	AVENUE	TYPE	DET_PRE
LEXENTRY:	BANQUE	BANQUE	PLACEN	DETACH
LEXENTRY:	BAT	BÂTIMENT	UNITH	DETACH
LEXENTRY:	BAT.	BÂTIMENT	UNITH	DETACH
LEXENTRY:	BD	BOULEVARD	TYPE	DET_PRE,DET_SUF
LEXENTRY:	BD.	BOULEVARD	TYPE	DET_PRE,DET_SUF
LEXENTRY:	BERGE	BERGE	TYPE	DET_PRE
LEXENTRY:	BERGE DE	BERGE	TYPE	DET_PRE
LEXENTRY:	BERGE DE LA	BERGE	TYPE	DET_PRE
LEXENTRY:	BIBLIOTHÈQUE	BIBLIOTHÈQUE	PLACEN	DETACH
LEXENTRY:	BLD	BOULEVARD	TYPE	DET_PRE,DET_SUF
LEXENTRY:	BLD.	BOULEVARD	TYPE	DET_PRE,DET_SUF
LEXENTRY:	BOULANGERIE	BOULANGERIE	PLACEN	DETACH
LEXENTRY:	BOULEVARD	BOULEVARD	TYPE	ATT_PRE,DET_PRE,DET_SUF
LEXENTRY:	BOULEVARD D'	BOULEVARD	TYPE	ATT_PRE
LEXENTRY:	BOULEVARD DE	BOULEVARD	TYPE	DET_PRE
LEXENTRY:	BOULEVARD DE L'	BOULEVARD	TYPE	ATT_PRE
LEXENTRY:	BOULEVARD DE LA	BOULEVARD	TYPE	DET_PRE
LEXENTRY:	BOULEVARD DES	BOULEVARD	TYPE	DET_PRE
LEXENTRY:	BOULEVARD DU	BOULEVARD	TYPE	DET_PRE
LEXENTRY:	BRETELLE	BRETELLE	TYPE	DET_PRE
LEXENTRY:	BUREAU	BUREAU	PLACEN	DETACH
LEXENTRY:	BÂTIMENT	BÂTIMENT	UNITH	DETACH
LEXENTRY:	BIS	BIS	UNITH	DETACH
LEXENTRY:	BOITE	BOITE	UNITH	DETACH
LEXENTRY:	À	À	UNITH	DETACH
LEXENTRY:	ET	ET	UNITH	DETACH
LEXENTRY:	BOITE POSTALE	BOITE POSTALE	BOXH	DETACH
LEXENTRY:	BP	BOITE POSTALE	BOXH	DETACH
LEXENTRY:	CAFÉ	CAFÉ	PLACEN	DETACH
LEXENTRY:	CAIE	CAIE	WORD	DETACH
LEXENTRY:	CANAL	CANAL	TYPE	DET_PRE
LEXENTRY:	CARREFOUR	CARREFOUR	TYPE	ATT_PRE,DET_PRE
LEXENTRY:	CARREFOUR AUX	CARREFOUR	TYPE	DET_PRE
LEXENTRY:	CARREFOUR D'	CARREFOUR	TYPE	ATT_PRE
LEXENTRY:	CARREFOUR DE	CARREFOUR	TYPE	DET_PRE
LEXENTRY:	CARREFOUR DE L'	CARREFOUR	TYPE	ATT_PRE
LEXENTRY:	CARREFOUR DE LA	CARREFOUR	TYPE	DET_PRE
LEXENTRY:	CARREFOUR DES	CARREFOUR	TYPE	DET_PRE
LEXENTRY:	CARREFOUR DU	CARREFOUR	TYPE	DET_PRE
LEXENTRY:	CARRÉ	CARRÉ	TYPE	ATT_PRE,DET_PRE
LEXENTRY:	CARRÉ AU	CARRÉ	TYPE	DET_PRE
LEXENTRY:	CARRÉ DE LA	CARRÉ	TYPE	DET_PRE
LEXENTRY:	CARRÉ DES	CARRÉ	TYPE	DET_PRE
LEXENTRY:	CARRÉ DU	CARRÉ	TYPE	DET_PRE
LEXENTRY:	CARRÉ À L'	CARRÉ	TYPE	ATT_PRE
LEXENTRY:	CARRÉ À LA	CARRÉ	TYPE	DET_PRE
";
"LEXENTRY:	CEDEX	CEDEX	BOXH	DETACH
LEXENTRY:	CENT	100	NUMBER	DETACH
LEXENTRY:	CENTRE	CENTRE	PLACEN,TYPE	DETACH,DET_PRE
LEXENTRY:	CENTRE COMMERCIAL	CENTRE COMMERCIAL	PLACEN,TYPE	DETACH,DET_PRE
LEXENTRY:	CERCLE	CERCLE	TYPE	DET_PRE
LEXENTRY:	CERCLE DE LA	CERCLE	TYPE	DET_PRE
LEXENTRY:	CH	CHAUSSÉE	TYPE	DET_PRE
LEXENTRY:	CH.	CHAUSSÉE	TYPE	DET_PRE
LEXENTRY:	CHAMP	CHAMP	TYPE	DET_PRE
LEXENTRY:	CHAMP DE	CHAMP	TYPE	DET_PRE
LEXENTRY:	CHAMP DE LA	CHAMP	TYPE	DET_PRE
LEXENTRY:	CHAMP DU	CHAMP	TYPE	DET_PRE
LEXENTRY:	CHAUSSÉE	CHAUSSÉE	TYPE	ATT_PRE,DET_PRE
LEXENTRY:	CHAUSSÉE DE	CHAUSSÉE	TYPE	DET_PRE
LEXENTRY:	CHAUSSÉE DE L'	CHAUSSÉE	TYPE	ATT_PRE
LEXENTRY:	CHAUSSÉE DE LA	CHAUSSÉE	TYPE	DET_PRE
LEXENTRY:	CHAUSSÉE DES	CHAUSSÉE	TYPE	DET_PRE
LEXENTRY:	CHAUSSÉE DU	CHAUSSÉE	TYPE	DET_PRE
LEXENTRY:	CHEE	CHAUSSÉE	TYPE	DET_PRE
LEXENTRY:	CHEE.	CHAUSSÉE	TYPE	DET_PRE
LEXENTRY:	CHEMIN	CHEMIN	TYPE	ATT_PRE,DET_PRE
LEXENTRY:	CHEMIN AU	CHEMIN	TYPE	DET_PRE
LEXENTRY:	CHEMIN AUX	CHEMIN	TYPE	DET_PRE
LEXENTRY:	CHEMIN D'	CHEMIN	TYPE	ATT_PRE
LEXENTRY:	CHEMIN DE	CHEMIN	TYPE	DET_PRE
LEXENTRY:	CHEMIN DE L'	CHEMIN	TYPE	ATT_PRE
LEXENTRY:	CHEMIN DE LA	CHEMIN	TYPE	DET_PRE
LEXENTRY:	CHEMIN DES	CHEMIN	TYPE	DET_PRE
LEXENTRY:	CHEMIN DU	CHEMIN	TYPE	DET_PRE
LEXENTRY:	CHEMIN LES	CHEMIN	TYPE	DET_PRE
LEXENTRY:	CHEMIN RURAL DE	CHEMIN	TYPE	DET_PRE
LEXENTRY:	CHEMIN À	CHEMIN	TYPE	DET_PRE
LEXENTRY:	CHS	CHAUSSÉE	TYPE	DET_PRE
LEXENTRY:	CHS.	CHAUSSÉE	TYPE	DET_PRE
LEXENTRY:	CINQ	5	NUMBER	DETACH
LEXENTRY:	CINQUANTE	50	NUMBER	DETACH
LEXENTRY:	CINQUIÈME	5E	WORD,ORD	DETACH
LEXENTRY:	CINÉMA	CINÉMA	PLACEN	DETACH
LEXENTRY:	CITÉ	CITÉ	TYPE	ATT_PRE,DET_PRE
LEXENTRY:	CITÉ D'	CITÉ	TYPE	ATT_PRE
LEXENTRY:	CITÉ DE	CITÉ	TYPE	DET_PRE
LEXENTRY:	CITÉ DE L'	CITÉ	TYPE	ATT_PRE
LEXENTRY:	CITÉ DE LA	CITÉ	TYPE	DET_PRE
LEXENTRY:	CITÉ DES	CITÉ	TYPE	DET_PRE
LEXENTRY:	CITÉ DU	CITÉ	TYPE	DET_PRE
LEXENTRY:	CLOS	CLOS	TYPE	ATT_PRE,DET_PRE
LEXENTRY:	CLOS D'	CLOS	TYPE	ATT_PRE
LEXENTRY:	CLOS DE	CLOS	TYPE	DET_PRE
LEXENTRY:	CLOS DE L'	CLOS	TYPE	ATT_PRE
LEXENTRY:	CLOS DE LA	CLOS	TYPE	DET_PRE
LEXENTRY:	CLOS DES	CLOS	TYPE	DET_PRE
LEXENTRY:	CLOS DU	CLOS	TYPE	DET_PRE
LEXENTRY:	CO	CO	PLACEN	DETACH
LEXENTRY:	COLLÈGE	COLLÈGE	PLACEN	DETACH
LEXENTRY:	COMPAGNIE	COMPAGNIE	PLACEN	DETACH
LEXENTRY:	CORDON	CORDON	TYPE	DET_PRE
LEXENTRY:	CORDON DE	CORDON	TYPE	DET_PRE
LEXENTRY:	CORP	CORP	PLACEN	DETACH
LEXENTRY:	CORPORATION	CORPORATION	PLACEN	DETACH
LEXENTRY:	COTEAU	COTEAU	TYPE	ATT_PRE
LEXENTRY:	COTEAU D'	COTEAU	TYPE	ATT_PRE
LEXENTRY:	COTEAU D'	COTEAU D'	TYPE	DET_PRE
";
"LEXENTRY:	COTTAGE	COTTAGE	TYPE	DET_PRE
LEXENTRY:	COTTAGE DE LA	COTTAGE	TYPE	DET_PRE
LEXENTRY:	COTTAGE DES	COTTAGE	TYPE	DET_PRE
LEXENTRY:	COTTAGES	COTTAGES	TYPE	DET_PRE,DET_SUF
LEXENTRY:	COUR	COUR	TYPE	ATT_PRE,DET_PRE
LEXENTRY:	COUR AUX	COUR	TYPE	DET_PRE
LEXENTRY:	COUR D'	COUR	TYPE	ATT_PRE,DET_PRE
LEXENTRY:	COUR DE	COUR	TYPE	DET_PRE
LEXENTRY:	COUR DE L'	COUR	TYPE	ATT_PRE,DET_PRE
LEXENTRY:	COUR DE LA	COUR	TYPE	DET_PRE
LEXENTRY:	COUR DES	COUR	TYPE	DET_PRE
LEXENTRY:	COUR DU	COUR	TYPE	DET_PRE
LEXENTRY:	COUR À	COUR	TYPE	DET_PRE
LEXENTRY:	COURS	COURS	TYPE	ATT_PRE,DET_PRE
LEXENTRY:	COURS D'	COURS	TYPE	ATT_PRE,DET_PRE
LEXENTRY:	COURS DE	COURS	TYPE	DET_PRE
LEXENTRY:	COURS DE L'	COURS	TYPE	ATT_PRE,DET_PRE
LEXENTRY:	COURS DE LA	COURS	TYPE	DET_PRE
LEXENTRY:	COURS DES	COURS	TYPE	DET_PRE
LEXENTRY:	COURS DU	COURS	TYPE	DET_PRE
LEXENTRY:	CROIX	CROIX	TYPE	DET_PRE
LEXENTRY:	CROIX DE	CROIX	TYPE	DET_PRE
LEXENTRY:	CRÉDIT	CRÉDIT	PLACEN	DETACH
LEXENTRY:	CÉDEX	CÉDEX	WORD	DETACH
LEXENTRY:	CÔTE	CÔTE	TYPE	ATT_PRE,DET_PRE
LEXENTRY:	CÔTE D'	CÔTE	TYPE	ATT_PRE,DET_PRE
LEXENTRY:	CÔTE DE	CÔTE	TYPE	DET_PRE
LEXENTRY:	CÔTE DE LA	CÔTE	TYPE	DET_PRE
LEXENTRY:	CÔTE DES	CÔTE	TYPE	DET_PRE
LEXENTRY:	CÔTE DU	CÔTE	TYPE	DET_PRE
LEXENTRY:	DEMI-ÉCHANGEUR	DEMI-ÉCHANGEUR	TYPE	DET_PRE
LEXENTRY:	DEMI-ÉCHANGEUR DE	DEMI-ÉCHANGEUR	TYPE	DET_PRE
LEXENTRY:	DEMI-ÉCHANGEUR DES	DEMI-ÉCHANGEUR	TYPE	DET_PRE
LEXENTRY:	DESSERTE	DESSERTE	TYPE	DET_PRE
LEXENTRY:	DEUX	2	NUMBER	DETACH
LEXENTRY:	DEUXIÈME	2E	WORD,ORD	DETACH
LEXENTRY:	DIGUE	DIGUE	TYPE	ATT_PRE
LEXENTRY:	DIGUE D'	DIGUE	TYPE	ATT_PRE
LEXENTRY:	DIGUE D'	DIGUE D'	TYPE	DET_PRE
LEXENTRY:	DIX	10	NUMBER	DETACH
LEXENTRY:	DIX-HUIT	18	NUMBER	DETACH
LEXENTRY:	DIX-NEUF	19	NUMBER	DETACH
LEXENTRY:	DIX-SEPT	17	NUMBER	DETACH
LEXENTRY:	DIXIÈME	10E	WORD,ORD	DETACH
LEXENTRY:	DOCT	DOCTEUR	WORD	DETACH
LEXENTRY:	DOCTEUR	DOCTEUR	WORD	DETACH
LEXENTRY:	DOM	DOMAINE	TYPE	DET_PRE
LEXENTRY:	DOM.	DOMAINE	TYPE	DET_PRE
LEXENTRY:	DOMAINE	DOMAINE	TYPE	ATT_PRE,DET_PRE
LEXENTRY:	DOMAINE DE	DOMAINE	TYPE	DET_PRE
LEXENTRY:	DOMAINE DE L'	DOMAINE	TYPE	ATT_PRE,DET_PRE
LEXENTRY:	DOMAINE DE LA	DOMAINE	TYPE	DET_PRE
LEXENTRY:	DOMAINE DES	DOMAINE	TYPE	DET_PRE
LEXENTRY:	DOMAINE DU	DOMAINE	TYPE	DET_PRE
LEXENTRY:	DOUZE	12	NUMBER	DETACH
LEXENTRY:	ENCLOS	ENCLOS	TYPE	ATT_PRE,DET_PRE
LEXENTRY:	ENCLOS DE L'	ENCLOS	TYPE	ATT_PRE,DET_PRE
LEXENTRY:	ENTREPRISE	ENTREPRISE	PLACEN	DETACH
LEXENTRY:	ESCALIER	ESCALIER	TYPE	DET_PRE
LEXENTRY:	ESCALIER DE LA	ESCALIER	TYPE	DET_PRE
LEXENTRY:	ESCALIER DES	ESCALIER	TYPE	DET_PRE
";
"LEXENTRY:	ESCALIER DU	ESCALIER	TYPE	DET_PRE
LEXENTRY:	ESPLANADE	ESPLANADE	TYPE	ATT_PRE,DET_PRE
LEXENTRY:	ESPLANADE D'	ESPLANADE	TYPE	ATT_PRE,DET_PRE
LEXENTRY:	ESPLANADE DE	ESPLANADE	TYPE	DET_PRE
LEXENTRY:	ESPLANADE DE L'	ESPLANADE	TYPE	ATT_PRE,DET_PRE
LEXENTRY:	ESPLANADE DE LA	ESPLANADE	TYPE	DET_PRE
LEXENTRY:	ESPLANADE DES	ESPLANADE	TYPE	DET_PRE
LEXENTRY:	ESPLANADE DU	ESPLANADE	TYPE	DET_PRE
LEXENTRY:	EURL	EURL	PLACEN	DETACH
LEXENTRY:	FACULTÉ	FACULTÉ	PLACEN	DETACH
LEXENTRY:	FAUBOURG	FAUBOURG	TYPE,WORD	DETACH,DET_PRE
LEXENTRY:	FAUBOURG DE	FAUBOURG	TYPE	DET_PRE
LEXENTRY:	FBG	FAUBOURG	WORD	DETACH
LEXENTRY:	FG	FAUBOURG	TYPE	DET_PRE
LEXENTRY:	FG.	FAUBOURG	TYPE	DET_PRE
LEXENTRY:	FORUM	FORUM	TYPE	DET_PRE
LEXENTRY:	FR	FRANCE	NATION	DETACH
LEXENTRY:	FRA	FRANCE	NATION	DETACH
LEXENTRY:	CLIPPERTON ISLAND	CPT	NATION	DETACH
LEXENTRY:	CPT	CPT	NATION	DETACH
LEXENTRY:	FRENCH POLYNESIA	PYF	NATION	DETACH
LEXENTRY:	PYF	PYF	NATION	DETACH
LEXENTRY:	FRENCH SOUTHERN AND ANTARCTIC TERRITORIES	ATF	NATION	DETACH
LEXENTRY:	ATF	ATF	NATION	DETACH
LEXENTRY:	NEW CALEDONIA	NCL	NATION	DETACH
LEXENTRY:	NCL	NCL	NATION	DETACH
LEXENTRY:	SAINT BARTHÉLEMY	BLM	NATION	DETACH
LEXENTRY:	BLM	BLM	NATION	DETACH
LEXENTRY:	SAINT MARTIN	MAF	NATION	DETACH
LEXENTRY:	MAF	MAF	NATION	DETACH
LEXENTRY:	SAINT PIERRE AND MIQUELON	SPM	NATION	DETACH
LEXENTRY:	SPM	SPM	NATION	DETACH
LEXENTRY:	WALLIS AND FUTUNA	WLF	NATION	DETACH
LEXENTRY:	WLF	WLF	NATION	DETACH
LEXENTRY:	FRENCH GUYANA	GUF	NATION	DETACH
LEXENTRY:	GUF	GUF	NATION	DETACH
LEXENTRY:	GUADELOUPE	GLP	NATION	DETACH
LEXENTRY:	GLP	GLP	NATION	DETACH
LEXENTRY:	MARTINIQUE	MTQ	NATION	DETACH
LEXENTRY:	MTQ	MTQ	NATION	DETACH
LEXENTRY:	MAYOTTE	MYT	NATION	DETACH
LEXENTRY:	MYT	MYT	NATION	DETACH
LEXENTRY:	RÉUNION	REU	NATION	DETACH
LEXENTRY:	REU	REU	NATION	DETACH
LEXENTRY:	GALERIE	GALERIE	PLACEN,TYPE	ATT_PRE,DETACH,DET_PRE
LEXENTRY:	GALERIE D'	GALERIE	TYPE	ATT_PRE,DET_PRE
LEXENTRY:	GALERIE DE	GALERIE	TYPE	DET_PRE
LEXENTRY:	GALERIE DE LA	GALERIE	TYPE	DET_PRE
LEXENTRY:	GALERIE DES	GALERIE	TYPE	DET_PRE
LEXENTRY:	GALERIE DU	GALERIE	TYPE	DET_PRE
LEXENTRY:	GARE	GARE	PLACEN	DETACH
LEXENTRY:	GIE	GIE	PLACEN	DETACH
LEXENTRY:	GRAND SENTIER	GRAND SENTIER	TYPE	DET_PRE
LEXENTRY:	GRANDE ALLÉE	GRANDE ALLÉE	TYPE	DET_PRE
LEXENTRY:	GRANDE ALLÉE DE LA	GRANDE ALLÉE	TYPE	DET_PRE
LEXENTRY:	GRANDE ALLÉE DES	GRANDE ALLÉE	TYPE	DET_PRE
LEXENTRY:	GRANDE ALLÉE DU	GRANDE ALLÉE	TYPE	DET_PRE
LEXENTRY:	GRANDE IMPASSE	GRANDE IMPASSE	TYPE	DET_PRE
LEXENTRY:	GRANDE IMPASSE DES	GRANDE IMPASSE	TYPE	DET_PRE
";
"LEXENTRY:	GRANDE RUE	GRANDE RUE	TYPE	DET_PRE
LEXENTRY:	GRANDE RUE DE	GRANDE RUE	TYPE	DET_PRE
LEXENTRY:	GRANDE RUELLE	GRANDE RUELLE	TYPE	DET_PRE
LEXENTRY:	GRANDE SENTE	GRANDE SENTE	TYPE	DET_PRE
LEXENTRY:	GRANDE SENTE DES	GRANDE SENTE	TYPE	DET_PRE
LEXENTRY:	GRANDE SENTE DU	GRANDE SENTE	TYPE	DET_PRE
LEXENTRY:	GRANDE VOIE	GRANDE VOIE	TYPE	DET_PRE
LEXENTRY:	GRANDE VOIE DES	GRANDE VOIE	TYPE	DET_PRE
LEXENTRY:	GROUPE	GROUPE	PLACEN	DETACH
LEXENTRY:	GROUPEMENT	GROUPEMENT	PLACEN	DETACH
LEXENTRY:	GÉN	GÉNÉRAL	WORD	DETACH
LEXENTRY:	GÉNÉRAL	GÉNÉRAL	WORD	DETACH
LEXENTRY:	HAMEAU	HAMEAU	TYPE	ATT_PRE,DET_PRE
LEXENTRY:	HAMEAU D'	HAMEAU	TYPE	ATT_PRE,DET_PRE
LEXENTRY:	HAMEAU DE	HAMEAU	TYPE	DET_PRE
LEXENTRY:	HAMEAU DE L'	HAMEAU	TYPE	ATT_PRE,DET_PRE
LEXENTRY:	HAMEAU DE LA	HAMEAU	TYPE	DET_PRE
LEXENTRY:	HAMEAU DES	HAMEAU	TYPE	DET_PRE
LEXENTRY:	HAMEAU DU	HAMEAU	TYPE	DET_PRE
LEXENTRY:	HAMEAU LA	HAMEAU	TYPE	DET_PRE
LEXENTRY:	HUIT	8	NUMBER	DETACH
LEXENTRY:	HUITIÈME	8E	WORD,ORD	DETACH
LEXENTRY:	HÔPITAL	HÔPITAL	PLACEN	DETACH
LEXENTRY:	HÔTEL	HÔTEL	PLACEN	DETACH
LEXENTRY:	IEU DIT	LD	TYPE	DETACH
LEXENTRY:	LD	LD	TYPE	DETACH
LEXENTRY:	IMM 	IMMEUBLE	UNITH	DETACH
LEXENTRY:	IMM.	IMMEUBLE	UNITH	DETACH
LEXENTRY:	IMMEUBLE	IMMEUBLE	UNITH	DETACH
LEXENTRY:	IMP	IMPASSE	TYPE	DET_PRE
LEXENTRY:	IMP.	IMPASSE	TYPE	DET_PRE
LEXENTRY:	IMPASSE	IMPASSE	TYPE	ATT_PRE,DET_PRE
LEXENTRY:	IMPASSE AU	IMPASSE	TYPE	DET_PRE
LEXENTRY:	IMPASSE AUX	IMPASSE	TYPE	DET_PRE
LEXENTRY:	IMPASSE D'	IMPASSE	TYPE	ATT_PRE,DET_PRE
LEXENTRY:	IMPASSE DE	IMPASSE	TYPE	DET_PRE
LEXENTRY:	IMPASSE DE L'	IMPASSE	TYPE	ATT_PRE,DET_PRE
LEXENTRY:	IMPASSE DE LA	IMPASSE	TYPE	DET_PRE
LEXENTRY:	IMPASSE DES	IMPASSE	TYPE	DET_PRE
LEXENTRY:	IMPASSE DU	IMPASSE	TYPE	DET_PRE
LEXENTRY:	IMPASSE L'	IMPASSE	TYPE	ATT_PRE,DET_PRE
LEXENTRY:	IMPASSE À	IMPASSE	TYPE	DET_PRE
LEXENTRY:	INSTITUT	INSTITUT	PLACEN	DETACH
LEXENTRY:	JARDIN	JARDIN	PLACEN,TYPE	ATT_PRE,DETACH,DET_PRE
LEXENTRY:	JARDIN DE L'	JARDIN	TYPE	ATT_PRE,DET_PRE
LEXENTRY:	JARDIN DE LA	JARDIN	TYPE	DET_PRE
LEXENTRY:	JARDIN DES	JARDIN	TYPE	DET_PRE
LEXENTRY:	JARDIN DU	JARDIN	TYPE	DET_PRE
LEXENTRY:	JARDINS DU	JARDIN	TYPE	DET_PRE
LEXENTRY:	JETÉE	JETÉE	TYPE	DET_PRE
LEXENTRY:	L'ORÉE	L'ORÉE	TYPE	DET_PRE
LEXENTRY:	L'ORÉE DU	L'ORÉE	TYPE	DET_PRE
LEXENTRY:	LA RÉSIDENCE	LA RÉSIDENCE	TYPE	DET_PRE
LEXENTRY:	LA RÉSIDENCE DU	LA RÉSIDENCE	TYPE	DET_PRE
LEXENTRY:	LABORATOIRE	LABORATOIRE	PLACEN	DETACH
LEXENTRY:	LE CLOS	LE CLOS	TYPE	DET_PRE
LEXENTRY:	LE CLOS DE	LE CLOS	TYPE	DET_PRE
LEXENTRY:	LE CLOS DE LA	LE CLOS	TYPE	DET_PRE
";
"LEXENTRY:	LE CLOS DES	LE CLOS	TYPE	DET_PRE
LEXENTRY:	LE CLOS DU	LE CLOS	TYPE	DET_PRE
LEXENTRY:	LE FOND DES	LE CLOS	TYPE	DET_PRE
LEXENTRY:	LE JARDIN	LE JARDIN	TYPE	DET_PRE
LEXENTRY:	LE JARDIN DE	LE JARDIN	TYPE	DET_PRE
LEXENTRY:	LE PARC	LE PARC	TYPE	DET_PRE
LEXENTRY:	LE PARC DE	LE PARC	TYPE	DET_PRE
LEXENTRY:	LE PARC DU	LE PARC	TYPE	DET_PRE
LEXENTRY:	LES JARDINS	LES JARDINS	TYPE	DET_PRE
LEXENTRY:	LES JARDINS DE LA	LES JARDINS	TYPE	DET_PRE
LEXENTRY:	LES JARDINS DES	LES JARDINS	TYPE	DET_PRE
LEXENTRY:	LES JARDINS DU	LES JARDINS	TYPE	DET_PRE
LEXENTRY:	LES TERRASSES	LES TERRASSES	TYPE	DET_PRE
LEXENTRY:	LES TERRASSES DE	LES TERRASSES	TYPE	DET_PRE
LEXENTRY:	LES TERRASSES DE LA	LES TERRASSES	TYPE	DET_PRE
LEXENTRY:	LES VILLAS	LES VILLAS	TYPE	ATT_PRE,DET_PRE
LEXENTRY:	LES VILLAS DE L'	LES VILLAS	TYPE	ATT_PRE,DET_PRE
LEXENTRY:	LIEU-DIT	LIEU-DIT	TYPE	DET_PRE
LEXENTRY:	LOT	LOTISSEMENT	TYPE	ATT_PRE,DET_PRE
LEXENTRY:	LOTISSEMENT	LOTISSEMENT	TYPE	ATT_PRE,DET_PRE
LEXENTRY:	LOTISSEMENT DE L'	LOTISSEMENT	TYPE	ATT_PRE,DET_PRE
LEXENTRY:	LOTISSEMENT DE LA	LOTISSEMENT	TYPE	DET_PRE
LEXENTRY:	LOTISSEMENT DU	LOTISSEMENT	TYPE	DET_PRE
LEXENTRY:	LYCÉE	LYCÉE	PLACEN	DETACH
LEXENTRY:	MAIL	MAIL	TYPE	ATT_PRE,DET_PRE
LEXENTRY:	MAIL AUX	MAIL	TYPE	DET_PRE
LEXENTRY:	MAIL DE	MAIL	TYPE	DET_PRE
LEXENTRY:	MAIL DE L'	MAIL	TYPE	ATT_PRE,DET_PRE
LEXENTRY:	MAIL DE LA	MAIL	TYPE	DET_PRE
LEXENTRY:	MAIL DES	MAIL	TYPE	DET_PRE
LEXENTRY:	MAIL DU	MAIL	TYPE	DET_PRE
LEXENTRY:	MAISON	MAISON	PLACEN,UNITH	DETACH
LEXENTRY:	MARCHÉ	MARCHÉ	PLACEN,TYPE	DETACH,DET_PRE
LEXENTRY:	MARCHÉ DE	MARCHÉ	TYPE	DET_PRE
LEXENTRY:	MARCHÉ DE LA	MARCHÉ	TYPE	DET_PRE
LEXENTRY:	MONT	MONTAGNE	TYPE	DET_PRE
LEXENTRY:	MONTAGNE	MONTAGNE	TYPE	DET_PRE
LEXENTRY:	MONTÉE	MONTÉE	TYPE	DET_PRE
LEXENTRY:	MONTÉE DE LA	MONTÉE	TYPE	DET_PRE
LEXENTRY:	MONTÉE DES	MONTÉE	TYPE	DET_PRE
LEXENTRY:	MONTÉE DU	MONTÉE	TYPE	DET_PRE
LEXENTRY:	MT	MONTAGNE	TYPE	DET_PRE
LEXENTRY:	MUSÉE	MUSÉE	PLACEN	DETACH
LEXENTRY:	NEUF	9	NUMBER	DETACH
LEXENTRY:	NEUVIÈME	9E	WORD,ORD	DETACH
LEXENTRY:	NOUVEAU CHEMIN	NOUVEAU CHEMIN	TYPE	DET_PRE
LEXENTRY:	NOUVEAU CHEMIN DES	NOUVEAU CHEMIN	TYPE	DET_PRE
LEXENTRY:	NOUVELLE CITÉ	NOUVELLE CITÉ	TYPE	DET_PRE
LEXENTRY:	NOUVELLE CITÉ DE	NOUVELLE CITÉ	TYPE	DET_PRE
LEXENTRY:	ONZE	11	NUMBER	DETACH
LEXENTRY:	ORÉE	ORÉE	TYPE	DET_PRE
LEXENTRY:	ORÉE DE	ORÉE	TYPE	DET_PRE
LEXENTRY:	ORÉE DU	ORÉE	TYPE	DET_PRE
LEXENTRY:	P	HAMEAU	TYPE	DET_PRE
LEXENTRY:	P	SENTIER	TYPE	DET_PRE
LEXENTRY:	PARC	PARC	PLACEN,TYPE	ATT_PRE,DETACH,DET_PRE
LEXENTRY:	PARC AUX	PARC	TYPE	DET_PRE
";
"LEXENTRY:	PARC DE	PARC	TYPE	DET_PRE
LEXENTRY:	PARC DE L'	PARC	TYPE	ATT_PRE,DET_PRE
LEXENTRY:	PARC DE LA	PARC	TYPE	DET_PRE
LEXENTRY:	PARC DES	PARC	TYPE	DET_PRE
LEXENTRY:	PARC DU	PARC	TYPE	DET_PRE
LEXENTRY:	PARVIS	PARVIS	TYPE	ATT_PRE,DET_PRE
LEXENTRY:	PARVIS DE L'	PARVIS	TYPE	ATT_PRE,DET_PRE
LEXENTRY:	PARVIS DE LA	PARVIS	TYPE	DET_PRE
LEXENTRY:	PARVIS DES	PARVIS	TYPE	DET_PRE
LEXENTRY:	PARVIS DU	PARVIS	TYPE	DET_PRE
LEXENTRY:	PAS	PASSAGE	TYPE	DET_PRE,DET_SUF
LEXENTRY:	PAS.	PASSAGE	TYPE	DET_PRE,DET_SUF
LEXENTRY:	PASS	PASSAGE	TYPE	DET_PRE,DET_SUF
LEXENTRY:	PASS.	PASSAGE	TYPE	DET_PRE,DET_SUF
LEXENTRY:	PASSAGE	PASSAGE	TYPE	ATT_PRE,DET_PRE,DET_SUF
LEXENTRY:	PASSAGE AUX	PASSAGE	TYPE	DET_PRE
LEXENTRY:	PASSAGE D'	PASSAGE	TYPE	ATT_PRE,DET_PRE
LEXENTRY:	PASSAGE DE	PASSAGE	TYPE	DET_PRE
LEXENTRY:	PASSAGE DE L'	PASSAGE	TYPE	ATT_PRE,DET_PRE
LEXENTRY:	PASSAGE DE LA	PASSAGE	TYPE	DET_PRE
LEXENTRY:	PASSAGE DES	PASSAGE	TYPE	DET_PRE
LEXENTRY:	PASSAGE DU	PASSAGE	TYPE	DET_PRE
LEXENTRY:	PASSE	PASSE	TYPE	ATT_PRE,DET_PRE
LEXENTRY:	PASSE DE L'	PASSE	TYPE	ATT_PRE,DET_PRE
LEXENTRY:	PASSERELLE	PASSERELLE	TYPE	ATT_PRE,DET_PRE
LEXENTRY:	PASSERELLE D'	PASSERELLE	TYPE	ATT_PRE,DET_PRE
LEXENTRY:	PASSERELLE DE	PASSERELLE	TYPE	DET_PRE
LEXENTRY:	PASSERELLE DE L'	PASSERELLE	TYPE	DET_PRE
LEXENTRY:	PASSERELLE DE LA	PASSERELLE	TYPE	DET_PRE
LEXENTRY:	PASSERELLE DES	PASSERELLE	TYPE	DET_PRE
LEXENTRY:	PASSERELLE DU	PASSERELLE	TYPE	DET_PRE
LEXENTRY:	PETIT CHEMIN	PETIT CHEMIN	TYPE	DET_PRE
LEXENTRY:	PETIT CHEMIN DE	PETIT CHEMIN	TYPE	DET_PRE
LEXENTRY:	PETIT CHEMIN DU	PETIT CHEMIN	TYPE	DET_PRE
LEXENTRY:	PETIT SENTIER	PETIT SENTIER	TYPE	DET_PRE
LEXENTRY:	PETIT SENTIER DES	PETIT SENTIER	TYPE	DET_PRE
LEXENTRY:	PETITE IMPASSE	PETITE IMPASSE	TYPE	DET_PRE
LEXENTRY:	PETITE IMPASSE DES	PETITE IMPASSE	TYPE	DET_PRE
LEXENTRY:	PETITE ROUTE	PETITE ROUTE	TYPE	ATT_PRE,DET_PRE
LEXENTRY:	PETITE ROUTE DE L'	PETITE ROUTE	TYPE	ATT_PRE,DET_PRE
LEXENTRY:	PETITE RUE	PETITE RUE	TYPE	DET_PRE
LEXENTRY:	PETITE RUE DE LA	PETITE RUE	TYPE	DET_PRE
LEXENTRY:	PETITE RUE DU	PETITE RUE	TYPE	DET_PRE
LEXENTRY:	PETITE RUELLE	PETITE RUELLE	TYPE	DET_PRE
LEXENTRY:	PETITE SENTE	PETITE SENTE	TYPE	DET_PRE
LEXENTRY:	PETITE SENTE DES	PETITE SENTE	TYPE	DET_PRE
LEXENTRY:	PETITE VOIE	PETITE VOIE	TYPE	DET_PRE
LEXENTRY:	PETITE VOIE DE	PETITE VOIE	TYPE	DET_PRE
LEXENTRY:	PETITE VOIE DES	PETITE VOIE	TYPE	DET_PRE
LEXENTRY:	PISTE	PISTE	TYPE	DET_PRE
LEXENTRY:	PISTE DU	PISTE	TYPE	DET_PRE
LEXENTRY:	PL	PLACE	TYPE	DET_PRE
LEXENTRY:	PL.	PLACE	TYPE	DET_PRE
";
"LEXENTRY:	PLACE	PLACE	TYPE	ATT_PRE,DET_PRE
LEXENTRY:	PLACE AU	PLACE	TYPE	DET_PRE
LEXENTRY:	PLACE AUX	PLACE	TYPE	DET_PRE
LEXENTRY:	PLACE D'	PLACE	TYPE	ATT_PRE,DET_PRE
LEXENTRY:	PLACE DE	PLACE	TYPE	DET_PRE
LEXENTRY:	PLACE DE L'	PLACE	TYPE	ATT_PRE,DET_PRE
LEXENTRY:	PLACE DE LA	PLACE	TYPE	DET_PRE
LEXENTRY:	PLACE DES	PLACE	TYPE	DET_PRE
LEXENTRY:	PLACE DU	PLACE	TYPE	DET_PRE
LEXENTRY:	PLACE À	PLACE	TYPE	DET_PRE
LEXENTRY:	PLACETTE	PLACETTE	TYPE	DET_PRE
LEXENTRY:	PLACETTE DE	PLACETTE	TYPE	DET_PRE
LEXENTRY:	PLACETTE DE LA	PLACETTE	TYPE	DET_PRE
LEXENTRY:	PLACETTE DES	PLACETTE	TYPE	DET_PRE
LEXENTRY:	PLACETTE DU	PLACETTE	TYPE	DET_PRE
LEXENTRY:	PLAINE	PLAINE	TYPE	DET_PRE
LEXENTRY:	PLAINE DES	PLAINE	TYPE	DET_PRE
LEXENTRY:	PLATEAU	PLATEAU	TYPE	DET_PRE
LEXENTRY:	PLATEAU DE LA	PLATEAU	TYPE	DET_PRE
LEXENTRY:	POINT DES	ROND-POINT	TYPE	DET_PRE
LEXENTRY:	PONT	PONT	TYPE	ATT_PRE,DET_PRE
LEXENTRY:	PONT AU	PONT	TYPE	DET_PRE
LEXENTRY:	PONT AUX	PONT	TYPE	DET_PRE
LEXENTRY:	PONT D'	PONT	TYPE	ATT_PRE,DET_PRE
LEXENTRY:	PONT DE	PONT	TYPE	DET_PRE
LEXENTRY:	PONT DE L'	PONT	TYPE	ATT_PRE,DET_PRE
LEXENTRY:	PONT DE LA	PONT	TYPE	DET_PRE
LEXENTRY:	PONT DES	PONT	TYPE	DET_PRE
LEXENTRY:	PONT DU	PONT	TYPE	DET_PRE
LEXENTRY:	PORT	PORT	TYPE	ATT_PRE,DET_PRE
LEXENTRY:	PORT D'	PORT	TYPE	ATT_PRE,DET_PRE
LEXENTRY:	PORT DE	PORT	TYPE	DET_PRE
LEXENTRY:	PORT DE L'	PORT	TYPE	ATT_PRE,DET_PRE
LEXENTRY:	PORT DE LA	PORT	TYPE	DET_PRE
LEXENTRY:	PORT DES	PORT	TYPE	DET_PRE
LEXENTRY:	PORT DU	PORT	TYPE	DET_PRE
LEXENTRY:	PORTE	PORTE	TYPE	ATT_PRE,DET_PRE
LEXENTRY:	PORTE AUX	PORTE	TYPE	DET_PRE
LEXENTRY:	PORTE D'	PORTE	TYPE	ATT_PRE,DET_PRE
LEXENTRY:	PORTE DE	PORTE	TYPE	DET_PRE
LEXENTRY:	PORTE DE L'	PORTE	TYPE	ATT_PRE,DET_PRE
LEXENTRY:	PORTE DE LA	PORTE	TYPE	DET_PRE
LEXENTRY:	PORTE DES	PORTE	TYPE	DET_PRE
LEXENTRY:	PORTE DU	PORTE	TYPE	DET_PRE
LEXENTRY:	POTERNE	POTERNE	TYPE	DET_PRE
LEXENTRY:	POTERNE DES	POTERNE	TYPE	DET_PRE
LEXENTRY:	PREMIER	1ER	WORD,ORD	DETACH
LEXENTRY:	PREMIÈRE	1ER	WORD,ORD	DETACH
LEXENTRY:	PROMENADE	PROMENADE	TYPE	ATT_PRE,DET_PRE,DET_SUF
LEXENTRY:	PROMENADE 	PROMENADE	TYPE	DET_PRE,DET_SUF
LEXENTRY:	PROMENADE DE	PROMENADE	TYPE	DET_PRE
LEXENTRY:	PROMENADE DE L'	PROMENADE	TYPE	ATT_PRE,DET_PRE
LEXENTRY:	PROMENADE DE LA	PROMENADE	TYPE	DET_PRE
LEXENTRY:	PROMENADE DES	PROMENADE	TYPE	DET_PRE
LEXENTRY:	PROMENADE DU	PROMENADE	TYPE	DET_PRE
LEXENTRY:	PROMENÉE	PROMENÉE	TYPE	DET_PRE
LEXENTRY:	PROMENÉE DES	PROMENÉE	TYPE	DET_PRE
LEXENTRY:	PRÉS	PRÉSIDENT	WORD	DETACH
LEXENTRY:	PRÉS.	PRÉSIDENT	WORD	DETACH
";
"LEXENTRY:	PRÉSIDENT	PRÉSIDENT	WORD	DETACH
LEXENTRY:	QRT	QUARTIER	TYPE	DET_PRE
LEXENTRY:	QRT.	QUARTIER	TYPE	DET_PRE
LEXENTRY:	QU	QUARTIER	TYPE	DET_PRE
LEXENTRY:	QU.	QUARTIER	TYPE	DET_PRE
LEXENTRY:	QUA	QUARTIER	TYPE	DET_PRE
LEXENTRY:	QUA.	QUARTIER	TYPE	DET_PRE
LEXENTRY:	QUAI	QUAI	TYPE	ATT_PRE,DET_PRE
LEXENTRY:	QUAI AUX	QUAI	TYPE	DET_PRE
LEXENTRY:	QUAI D'	QUAI	TYPE	ATT_PRE,DET_PRE
LEXENTRY:	QUAI DE	QUAI	TYPE	DET_PRE
LEXENTRY:	QUAI DE L'	QUAI	TYPE	ATT_PRE,DET_PRE
LEXENTRY:	QUAI DE LA	QUAI	TYPE	DET_PRE
LEXENTRY:	QUAI DES	QUAI	TYPE	DET_PRE
LEXENTRY:	QUAI DU	QUAI	TYPE	DET_PRE
LEXENTRY:	QUARANTE	40	NUMBER	DETACH
LEXENTRY:	QUARTIER	QUARTIER	TYPE	DET_PRE
LEXENTRY:	QUARTIER DE LA	QUARTIER	TYPE	DET_PRE
LEXENTRY:	QUARTIER DES	QUARTIER	TYPE	DET_PRE
LEXENTRY:	QUATORZE	14	NUMBER	DETACH
LEXENTRY:	QUATRE	4	NUMBER	DETACH
LEXENTRY:	QUATRIÈME	4E	WORD,ORD	DETACH
LEXENTRY:	QUINZE	15	NUMBER	DETACH
LEXENTRY:	R	RUE	TYPE	DET_PRE
LEXENTRY:	R.	RUE	TYPE	DET_PRE
LEXENTRY:	RAMPE	RAMPE	TYPE	DET_PRE
LEXENTRY:	RAMPE DE	RAMPE	TYPE	DET_PRE
LEXENTRY:	RAMPE DE LA	RAMPE	TYPE	DET_PRE
LEXENTRY:	RAMPE DU	RAMPE	TYPE	DET_PRE
LEXENTRY:	REMPART	REMPART	TYPE	DET_PRE
LEXENTRY:	REMPART DES	REMPART	TYPE	DET_PRE
LEXENTRY:	REMPART DU	REMPART	TYPE	DET_PRE
LEXENTRY:	RES	RÉSIDENCE	UNITH	DETACH
LEXENTRY:	RES.	RÉSIDENCE	UNITH	DETACH
LEXENTRY:	RESTAURANT	RESTAURANT	PLACEN	DETACH
LEXENTRY:	ROCADE	ROCADE	TYPE	DET_PRE
LEXENTRY:	ROCADE DE	ROCADE	TYPE	DET_PRE
LEXENTRY:	ROCADE DE LA	ROCADE	TYPE	DET_PRE
LEXENTRY:	RPT	ROND-POINT	TYPE	DET_PRE
LEXENTRY:	ROND-P	ROND-POINT	TYPE	DET_PRE
LEXENTRY:	ROND-POINT	ROND-POINT	TYPE	ATT_PRE,DET_PRE
LEXENTRY:	ROND-POINT D'	ROND-POINT	TYPE	ATT_PRE,DET_PRE
LEXENTRY:	ROND-POINT DE	ROND-POINT	TYPE	DET_PRE
LEXENTRY:	ROND-POINT DE L'	ROND-POINT	TYPE	ATT_PRE,DET_PRE
LEXENTRY:	ROND-POINT DE LA	ROND-POINT	TYPE	DET_PRE
LEXENTRY:	ROND-POINT DU	ROND-POINT	TYPE	DET_PRE
LEXENTRY:	ROTONDE	ROTONDE	TYPE	ATT_PRE,DET_PRE
LEXENTRY:	ROTONDE D'	ROTONDE	TYPE	ATT_PRE,DET_PRE
LEXENTRY:	ROTONDE DE LA	ROTONDE	TYPE	DET_PRE
LEXENTRY:	ROUTE	ROUTE	TYPE	ATT_PRE,DET_PRE
LEXENTRY:	ROUTE AU	ROUTE	TYPE	DET_PRE
LEXENTRY:	ROUTE AUX	ROUTE	TYPE	DET_PRE
LEXENTRY:	ROUTE D'	ROUTE	TYPE	ATT_PRE,DET_PRE
LEXENTRY:	ROUTE DE	ROUTE	TYPE	DET_PRE
LEXENTRY:	ROUTE DE L'	ROUTE	TYPE	ATT_PRE,DET_PRE
LEXENTRY:	ROUTE DE LA	ROUTE	TYPE	DET_PRE
LEXENTRY:	ROUTE DES	ROUTE	TYPE	DET_PRE
LEXENTRY:	ROUTE DU	ROUTE	TYPE	DET_PRE
LEXENTRY:	ROUTE FORESTIÈRE	ROUTE FORESTIÈRE	TYPE	ATT_PRE,DET_PRE
";
"LEXENTRY:	ROUTE FORESTIÈRE D'	ROUTE FORESTIÈRE	TYPE	ATT_PRE,DET_PRE
LEXENTRY:	ROUTE FORESTIÈRE DE	ROUTE FORESTIÈRE	TYPE	DET_PRE
LEXENTRY:	ROUTE FORESTIÈRE DE L'	ROUTE FORESTIÈRE	TYPE	ATT_PRE,DET_PRE
LEXENTRY:	ROUTE FORESTIÈRE DE LA	ROUTE FORESTIÈRE	TYPE	DET_PRE
LEXENTRY:	ROUTE FORESTIÈRE DES	ROUTE FORESTIÈRE	TYPE	DET_PRE
LEXENTRY:	ROUTE FORESTIÈRE DU	ROUTE FORESTIÈRE	TYPE	DET_PRE
LEXENTRY:	RPT	ROND-POINT	TYPE	DET_PRE
LEXENTRY:	RPT.	ROND-POINT	TYPE	DET_PRE
LEXENTRY:	RTE	ROUTE	TYPE	DET_PRE
LEXENTRY:	RTE.	ROUTE	TYPE	DET_PRE
LEXENTRY:	RUE	RUE	TYPE	ATT_PRE,DET_PRE
LEXENTRY:	RUE AU	RUE	TYPE	DET_PRE
LEXENTRY:	RUE AUX	RUE	TYPE	DET_PRE
LEXENTRY:	RUE D'	RUE	TYPE	ATT_PRE,DET_PRE
LEXENTRY:	RUE DE	RUE	TYPE	DET_PRE
LEXENTRY:	RUE DE L'	RUE	TYPE	ATT_PRE,DET_PRE
LEXENTRY:	RUE DE LA	RUE	TYPE	DET_PRE
LEXENTRY:	RUE DES	RUE	TYPE	DET_PRE
LEXENTRY:	RUE DU	RUE	TYPE	DET_PRE
LEXENTRY:	RUE L'	RUE	TYPE	ATT_PRE,DET_PRE
LEXENTRY:	RUE LA	RUE	TYPE	DET_PRE
LEXENTRY:	RUE LE	RUE	TYPE	DET_PRE
LEXENTRY:	RUE LES	RUE	TYPE	DET_PRE
LEXENTRY:	RUE À	RUE	TYPE	DET_PRE
LEXENTRY:	RUELLE	RUELLE	TYPE	ATT_PRE,DET_PRE
LEXENTRY:	RUELLE AU	RUELLE	TYPE	DET_PRE
LEXENTRY:	RUELLE AUX	RUELLE	TYPE	DET_PRE
LEXENTRY:	RUELLE D'	RUELLE	TYPE	DET_PRE
LEXENTRY:	RUELLE DE	RUELLE	TYPE	DET_PRE
LEXENTRY:	RUELLE DE L'	RUELLE	TYPE	ATT_PRE,DET_PRE
LEXENTRY:	RUELLE DE LA	RUELLE	TYPE	DET_PRE
LEXENTRY:	RUELLE DES	RUELLE	TYPE	DET_PRE
LEXENTRY:	RUELLE DU	RUELLE	TYPE	DET_PRE
LEXENTRY:	RUELLE À	RUELLE	TYPE	DET_PRE
LEXENTRY:	RÉS	RÉSIDENCE	UNITH	DETACH
LEXENTRY:	RÉS.	RÉSIDENCE	UNITH	DETACH
LEXENTRY:	RÉSIDENCE	RÉSIDENCE	TYPE,UNITH	ATT_PRE,DETACH,DET_PRE
LEXENTRY:	RÉSIDENCE D'	RÉSIDENCE	TYPE	ATT_PRE,DET_PRE
LEXENTRY:	RÉSIDENCE DE	RÉSIDENCE	TYPE	DET_PRE
LEXENTRY:	RÉSIDENCE DE L'	RÉSIDENCE	TYPE	ATT_PRE,DET_PRE
LEXENTRY:	RÉSIDENCE DE LA	RÉSIDENCE	TYPE	DET_PRE
LEXENTRY:	RÉSIDENCE DES	RÉSIDENCE	TYPE	DET_PRE
LEXENTRY:	RÉSIDENCE DU	RÉSIDENCE	TYPE	DET_PRE
LEXENTRY:	RÉSIDENCE L'	RÉSIDENCE	TYPE	ATT_PRE,DET_PRE
LEXENTRY:	RÉSIDENCE LA	RÉSIDENCE	TYPE	DET_PRE
LEXENTRY:	RÉSIDENCE LE	RÉSIDENCE	TYPE	DET_PRE
LEXENTRY:	RÉSIDENCE LES	RÉSIDENCE	TYPE	DET_PRE
LEXENTRY:	S	HAMEAU	TYPE	DET_PRE
LEXENTRY:	S	ROND-POINT	TYPE	DET_PRE
LEXENTRY:	S	SENTIER	TYPE	DET_PRE
LEXENTRY:	SA	SA	PLACEN	DETACH
LEXENTRY:	SAINT	SAINT	WORD	DETACH
LEXENTRY:	SARL	SARL	PLACEN	DETACH
LEXENTRY:	SC	SC	PLACEN	DETACH
LEXENTRY:	SCA	SCA	PLACEN	DETACH
LEXENTRY:	SCS	SCS	PLACEN	DETACH
LEXENTRY:	SEIZE	16	NUMBER	DETACH
LEXENTRY:	SENTE	SENTE	TYPE	ATT_PRE,DET_PRE
LEXENTRY:	SENTE AU	SENTE	TYPE	DET_PRE
";
"LEXENTRY:	SENTE AUX	SENTE	TYPE	DET_PRE
LEXENTRY:	SENTE D'	SENTE	TYPE	ATT_PRE,DET_PRE
LEXENTRY:	SENTE DE	SENTE	TYPE	DET_PRE
LEXENTRY:	SENTE DE L'	SENTE	TYPE	ATT_PRE,DET_PRE
LEXENTRY:	SENTE DE LA	SENTE	TYPE	DET_PRE
LEXENTRY:	SENTE DES	SENTE	TYPE	DET_PRE
LEXENTRY:	SENTE DU	SENTE	TYPE	DET_PRE
LEXENTRY:	SENTIER	SENTIER	TYPE	ATT_PRE,DET_PRE
LEXENTRY:	SENTIER AUX	SENTIER	TYPE	DET_PRE
LEXENTRY:	SENTIER D'	SENTIER	TYPE	ATT_PRE,DET_PRE
LEXENTRY:	SENTIER DE	SENTIER	TYPE	DET_PRE
LEXENTRY:	SENTIER DE L'	SENTIER	TYPE	ATT_PRE,DET_PRE
LEXENTRY:	SENTIER DE LA	SENTIER	TYPE	DET_PRE
LEXENTRY:	SENTIER DES	SENTIER	TYPE	DET_PRE
LEXENTRY:	SENTIER DU	SENTIER	TYPE	DET_PRE
LEXENTRY:	SENTIERS	SENTIER	TYPE	DET_PRE
LEXENTRY:	SENTIERS DES	SENTIER	TYPE	DET_PRE
LEXENTRY:	SEPT	7	NUMBER	DETACH
LEXENTRY:	SEPTIÈME	7E	WORD,ORD	DETACH
LEXENTRY:	SEUIL	SEUIL	TYPE	DET_PRE
LEXENTRY:	SEUIL DE	SEUIL	TYPE	DET_PRE
LEXENTRY:	SIX	6	NUMBER	DETACH
LEXENTRY:	SIXIÈME	6E	WORD,ORD	DETACH
LEXENTRY:	SNC	SNC	PLACEN	DETACH
LEXENTRY:	SOCIÉTÉ	SOCIÉTÉ	PLACEN	DETACH
LEXENTRY:	SOIXANTE	60	NUMBER	DETACH
LEXENTRY:	SP	SP	PLACEN	DETACH
LEXENTRY:	SPRL	SPRL	PLACEN	DETACH
LEXENTRY:	SQ	SQUARE	TYPE	DET_PRE
LEXENTRY:	SQ.	SQUARE	TYPE	DET_PRE
LEXENTRY:	SQUARE	SQUARE	TYPE	ATT_PRE,DET_PRE
LEXENTRY:	SQUARE AUX	SQUARE	TYPE	DET_PRE
LEXENTRY:	SQUARE D'	SQUARE	TYPE	ATT_PRE,DET_PRE
LEXENTRY:	SQUARE DE	SQUARE	TYPE	DET_PRE
LEXENTRY:	SQUARE DE L'	SQUARE	TYPE	ATT_PRE,DET_PRE
LEXENTRY:	SQUARE DE LA	SQUARE	TYPE	DET_PRE
LEXENTRY:	SQUARE DES	SQUARE	TYPE	DET_PRE
LEXENTRY:	SQUARE DU	SQUARE	TYPE	DET_PRE
LEXENTRY:	SQUARE LES	SQUARE	TYPE	DET_PRE
LEXENTRY:	ST	SAINT	WORD	DETACH
LEXENTRY:	STADE	STADE	PLACEN	DETACH
LEXENTRY:	STE	STE	PLACEN	DETACH
LEXENTRY:	TERRASSE	TERRASSE	TYPE	ATT_PRE,DET_PRE
LEXENTRY:	TERRASSE DE L'	TERRASSE	TYPE	ATT_PRE,DET_PRE
LEXENTRY:	TERRASSE DE LA 	TERRASSE	TYPE	DET_PRE
LEXENTRY:	THÉÂTRE	THÉÂTRE	PLACEN	DETACH
LEXENTRY:	TRA	TRAVERSE	TYPE	DET_PRE
LEXENTRY:	TRA.	TRAVERSE	TYPE	DET_PRE
LEXENTRY:	TRAVERSE	TRAVERSE	TYPE	ATT_PRE,DET_PRE
LEXENTRY:	TRAVERSE DE	TRAVERSE	TYPE	DET_PRE
LEXENTRY:	TRAVERSE DE L'	TRAVERSE	TYPE	ATT_PRE,DET_PRE
LEXENTRY:	TRAVERSE DE LA	TRAVERSE	TYPE	DET_PRE
LEXENTRY:	TRAVERSE DU	TRAVERSE	TYPE	DET_PRE
LEXENTRY:	TREIZE	13	NUMBER	DETACH
LEXENTRY:	TRENTE	30	NUMBER	DETACH
LEXENTRY:	TRIANGLE DE	TRAVERSE	TYPE	DET_PRE
LEXENTRY:	TROIS	3	NUMBER	DETACH
LEXENTRY:	TROISIÈME	3E	WORD,ORD	DETACH
LEXENTRY:	UN	1	NUMBER	DETACH
LEXENTRY:	UNIVERSITAIRE	UNIVERSITAIRE	PLACEN	DETACH
LEXENTRY:	UNIVERSITÉ	UNIVERSITÉ	PLACEN	DETACH
";
"LEXENTRY:	VAL	VALLÉE	TYPE	DET_PRE
LEXENTRY:	VALLÉE	VALLÉE	TYPE	DET_PRE
LEXENTRY:	VALLÉE AUX	VALLÉE	TYPE	DET_PRE
LEXENTRY:	VALLÉE DES	VALLÉE	TYPE	DET_PRE
LEXENTRY:	VENELLE	VENELLE	TYPE	DET_PRE
LEXENTRY:	VENELLE AU	VENELLE	TYPE	DET_PRE
LEXENTRY:	VENELLE DE	VENELLE	TYPE	DET_PRE
LEXENTRY:	VENELLE DES	VENELLE	TYPE	DET_PRE
LEXENTRY:	VENELLE DU	VENELLE	TYPE	DET_PRE
LEXENTRY:	VIEILLE ROUTE	VIEILLE ROUTE	TYPE	DET_PRE
LEXENTRY:	VIEILLE ROUTE DE 	VIEILLE ROUTE	TYPE	DET_PRE
LEXENTRY:	VIEILLE RUE	VIEILLE RUE	TYPE	DET_PRE
LEXENTRY:	VIEILLE RUE AUX	VIEILLE RUE	TYPE	DET_PRE
LEXENTRY:	VIEUX CHEMIN	VIEUX CHEMIN	TYPE	DET_PRE
LEXENTRY:	VIEUX CHEMIN DE	VIEUX CHEMIN	TYPE	DET_PRE
LEXENTRY:	VILLA	VILLA	TYPE,UNITH	ATT_PRE,DETACH,DET_PRE
LEXENTRY:	VILLA D'	VILLA	TYPE	ATT_PRE,DET_PRE
LEXENTRY:	VILLA DE	VILLA	TYPE	DET_PRE
LEXENTRY:	VILLA DE L'	VILLA	TYPE	ATT_PRE,DET_PRE
LEXENTRY:	VILLA DE LA	VILLA	TYPE	DET_PRE
LEXENTRY:	VILLA DES	VILLA	TYPE	DET_PRE
LEXENTRY:	VILLA DU	VILLA	TYPE	DET_PRE
LEXENTRY:	VILLA LES	VILLA	TYPE	DET_PRE
LEXENTRY:	VILLAGE	VILLAGE	TYPE	DET_PRE
LEXENTRY:	VILLAGE DE	VILLAGE	TYPE	DET_PRE
LEXENTRY:	VILLAGE DES	VILLAGE	TYPE	DET_PRE
LEXENTRY:	VILLAS	VILLAS	TYPE	DET_PRE
LEXENTRY:	VILLAS D'	VILLAS	TYPE	DET_PRE
LEXENTRY:	VINGT	20	NUMBER	DETACH
LEXENTRY:	VLA	VILLA	UNITH	DETACH
LEXENTRY:	VOIE	VOIE	TYPE	ATT_PRE,DET_PRE
LEXENTRY:	VOIE AU	VOIE	TYPE	DET_PRE
LEXENTRY:	VOIE AUX	VOIE	TYPE	DET_PRE
LEXENTRY:	VOIE D'	VOIE	TYPE	ATT_PRE,DET_PRE
LEXENTRY:	VOIE DE	VOIE	TYPE	DET_PRE
LEXENTRY:	VOIE DE L'	VOIE	TYPE	ATT_PRE,DET_PRE
LEXENTRY:	VOIE DE LA	VOIE	TYPE	DET_PRE
LEXENTRY:	VOIE DES	VOIE	TYPE	DET_PRE
LEXENTRY:	VOIE DU	VOIE	TYPE	DET_PRE
LEXENTRY:	VOIRIE	VOIRIE	TYPE	DET_PRE
LEXENTRY:	VOIRIE DE LA	VOIRIE	TYPE	DET_PRE
LEXENTRY:	VOIRIE DES	VOIRIE	TYPE	DET_PRE
LEXENTRY:	ZA	ZONE D'ACTIVITE	TYPE	ATT_PRE,DET_PRE
LEXENTRY:	ZONE D'ACTIVITE	ZONE D'ACTIVITE	TYPE	ATT_PRE,DET_PRE
LEXENTRY:	ZONE D'AMENAGEMENT CONCERTE	ZONE D'AMENAGEMENT CONCERTE	TYPE	ATT_PRE,DET_PRE
LEXENTRY:	ZAC	ZONE D'AMENAGEMENT CONCERTE	TYPE	ATT_PRE,DET_PRE
LEXENTRY:	ZONE D'AMENAGEMENT DIFFERE	ZONE D'AMENAGEMENT DIFFERE	TYPE	ATT_PRE,DET_PRE
LEXENTRY:	ZAD	ZONE D'AMENAGEMENT DIFFERE	TYPE	ATT_PRE,DET_PRE
LEXENTRY:	ZONE INDUSTRIELLE	ZONE INDUSTRIELLE	TYPE	ATT_PRE,DET_PRE
LEXENTRY:	ZI	ZONE INDUSTRIELLE	TYPE	ATT_PRE,DET_PRE
LEXENTRY:	ÉCHANGEUR	ÉCHANGEUR	TYPE	ATT_PRE,DET_PRE
LEXENTRY:	ÉCHANGEUR D'	ÉCHANGEUR	TYPE	ATT_PRE,DET_PRE
LEXENTRY:	ÉCHANGEUR DE	ÉCHANGEUR	TYPE	DET_PRE
LEXENTRY:	ÉCHANGEUR DE LA	ÉCHANGEUR	TYPE	DET_PRE
";
"LEXENTRY:	ÉCHANGEUR DES	ÉCHANGEUR	TYPE	DET_PRE
LEXENTRY:	ÉCOLE	ÉCOLE	PLACEN	DETACH
LEXENTRY:	ÉTABLISSEMENT	ÉTABLISSEMENT	PLACEN	DETACH
LEXENTRY:	ÉTOILE	ÉTOILE	TYPE	ATT_PRE,DET_PRE
LEXENTRY:	ÉTOILE D'	ÉTOILE	TYPE	ATT_PRE,DET_PRE
LEXENTRY:	ÉTOILE DE	ÉTOILE	TYPE	DET_PRE
LEXENTRY:	ÉTOILE DE LA	ÉTOILE	TYPE	DET_PRE
LEXENTRY:	ÉTOILE DES	ÉTOILE	TYPE	DET_PRE
LEXENTRY:	ÉTOILE DU	ÉTOILE	TYPE	DET_PRE
LEXENTRY:	ÎLE	ÎLE	TYPE	DET_PRE
LEXENTRY:	ÎLE DE LA	ÎLE	TYPE	DET_PRE
"].
(** data/sample/germany.lex *)
Definition slex_germany : list string :=
[
"LEXICON:	lex-germany.txt	GER	de_DE	
LEXENTRY:	CITYBERG	CITYBERG	CITY	DETACH
LEXENTRY:	A. d.	An der	STOPWORD	DETACH
LEXENTRY:	A. d.	An dem	STOPWORD	DETACH
LEXENTRY:	A. d.	Auf dem	STOPWORD	DETACH
LEXENTRY:	A. d.	Auf der	STOPWORD	DETACH
LEXENTRY:	AG	AG	PLACEN	DETACH
LEXENTRY:	AKTIEN	AKTIEN	PLACEN	DETACH
LEXENTRY:	AKTIEN-GESELLSCHAFT	AKTIEN-GESELLSCHAFT	PLACEN	DETACH
LEXENTRY:	AKTIENGESELLSCHAFT	AKTIENGESELLSCHAFT	PLACEN	DETACH
LEXENTRY:	ALLEE	ALLEE	TYPE	ATT_SUF,DET_SUF
LEXENTRY:	Allgemeines Krankenhaus	Allgemeines Krankenhaus	BUILDT	DETACH
LEXENTRY:	AKH	Allgemeines Krankenhaus	BUILDT	DETACH
LEXENTRY:	Altstoffsammelzentrum	Altstoffsammelzentrum	BUILDT	DETACH
LEXENTRY:	ASZ	Altstoffsammelzentrum	BUILDT	DETACH
LEXENTRY:	ANSCHLUSSSTELLE	ANSCHLUSSSTELLE	TYPE	DET_PRE
LEXENTRY:	AUTOBAHNDREIECK	AUTOBAHNDREIECK	TYPE	DET_PRE
LEXENTRY:	AUTOBAHNKREUZ	AUTOBAHNKREUZ	TYPE	DET_PRE
LEXENTRY:	AVENUE	AVENUE	TYPE	DET_SUF
LEXENTRY:	Abzweigung	Abzweigung	WORD	DETACH
LEXENTRY:	Abzwg	Abzweigung	WORD	DETACH
LEXENTRY:	Am	Am	STOPWORD	DETACH
LEXENTRY:	An	An	STOPWORD	DETACH
LEXENTRY:	An dem	An dem	STOPWORD	DETACH
LEXENTRY:	An der	An der	STOPWORD	DETACH
LEXENTRY:	Auf	Auf	STOPWORD	DETACH
LEXENTRY:	Auf dem	Auf dem	STOPWORD	DETACH
LEXENTRY:	Auf der	Auf der	STOPWORD	DETACH
LEXENTRY:	Auss.	Aussiedlerhof	WORD	DETACH
LEXENTRY:	Auss.Hof	Aussiedlerhof	WORD	DETACH
LEXENTRY:	Aussiedl. Hof	Aussiedlerhof	WORD	DETACH
LEXENTRY:	Aussiedlerhof	Aussiedlerhof	WORD	DETACH
LEXENTRY:	B.	Berg	TYPE, WORD	ATT_SUF, DET_SUF
LEXENTRY:	BACH	BACH	TYPE,WORD	ATT_SUF,DETACH,DET_SUF
LEXENTRY:	BADEN-WÜRTTEMBERG	BADEN-WÜRTTEMBERG	PROV	DETACH
LEXENTRY:	BADEN-WURTTEMBERG	BADEN-WURTTEMBERG	PROV	DETACH
LEXENTRY:	BAVARIA	BAYERN	PROV	DETACH
LEXENTRY:	BAYERN	BAYERN	PROV	DETACH
LEXENTRY:	BD	BOULEVARD	TYPE	ATT_SUF
LEXENTRY:	BD.	BOULEVARD	TYPE	ATT_SUF
LEXENTRY:	B.	Berg	TYPE, WORD	ATT_SUF, DET_SUF
LEXENTRY:	Bg.	Berg	TYPE, WORD	ATT_SUF, DET_SUF
LEXENTRY:	BERG	BERG	TYPE	ATT_SUF,DET_SUF
LEXENTRY:	BERGWEG	BERGWEG	TYPE	ATT_SUF,DET_SUF
LEXENTRY:	BERLIN	BERLIN	PROV	DETACH
LEXENTRY:	BETRIEB	BETRIEB	PLACEN	DETACH
LEXENTRY:	BGB	BGB	PLACEN	DETACH
LEXENTRY:	BOGEN	BOGEN	TYPE	ATT_SUF,DET_SUF
LEXENTRY:	BOULEVARD	BOULEVARD	TYPE	ATT_SUF
LEXENTRY:	BRANDENBURG	BRANDENBURG	PROV	DETACH
LEXENTRY:	BREMEN	BREMEN	PROV	DETACH
LEXENTRY:	BRUCH	BRUCH	TYPE	ATT_SUF
LEXENTRY:	Bez.	Bezirk	TYPE, WORD	ATT_SUF, DET_SUF
LEXENTRY:	Bezirk	Bezirk	TYPE, WORD	ATT_PRE, ATT_SUF, DET_SUF
";
"LEXENTRY:	Br.	Brücke	TYPE, WORD	ATT_SUF, DET_SUF
LEXENTRY:	BRÜCKE	BRÜCKE	TYPE	ATT_SUF,DET_SUF
LEXENTRY:	BG	Bundesgymnasium	WORD	DETACH
LEXENTRY:	Bundesgymnasium	Bundesgymnasium	WORD	DETACH
LEXENTRY:	BPD	Bundespolizeidirektion	WORD	DETACH
LEXENTRY:	Bundespolizeidirektion	Bundespolizeidirektion	WORD	DETACH
LEXENTRY:	BRG	Bundesrealgymnasium	WORD	DETACH
LEXENTRY:	Bundesrealgymnasium	Bundesrealgymnasium	WORD	DETACH
LEXENTRY:	Bg.	Burg	BUILDT	ATT_SUF, DET_SUF
LEXENTRY:	BURG	BURG	TYPE	ATT_SUF,DET_SUF
LEXENTRY:	bgld.	Burgenländische	WORD	ATT_PRE, ATT_SUF, DET_SUF
LEXENTRY:	Burgenländische	Burgenländische	WORD	ATT_PRE, ATT_SUF, DET_SUF
LEXENTRY:	Burgenländisches	Burgenländische	WORD	ATT_PRE, ATT_SUF, DET_SUF
LEXENTRY:	Burgenländischer	Burgenländische	WORD	ATT_PRE, ATT_SUF, DET_SUF
LEXENTRY:	Bahnhof	Bahnhof	WORD	DETACH
LEXENTRY:	Bei	Bei	STOPWORD	DETACH
LEXENTRY:	Bgm.	Bürgermeister	WORD	DETACH
LEXENTRY:	Bürgermeister	Bürgermeister	WORD	ATT_PRE, ATT_SUF, DET_SUF
LEXENTRY:	Bhf	Bahnhof	WORD	DETACH
LEXENTRY:	Bhf.	Bahnhof	WORD	DETACH
LEXENTRY:	Br.	Brücke	WORD	DETACH
LEXENTRY:	Brücke	Brücke	WORD	DETACH
LEXENTRY:	Bung.siedl.	Bungalowsiedlung	WORD	DETACH
LEXENTRY:	Bungalow Siedlung	Bungalowsiedlung	WORD	DETACH
LEXENTRY:	Bungalowsiedlung	Bungalowsiedlung	WORD	DETACH
LEXENTRY:	BÜHL	BÜHL	TYPE	ATT_SUF
LEXENTRY:	BÜHL 	BÜHL	TYPE	ATT_SUF
LEXENTRY:	Bürgermeister	Bürgermeister	WORD	DETACH
LEXENTRY:	CH	CHAUSSEE	TYPE	ATT_PRE,ATT_SUF
LEXENTRY:	CH.	CHAUSSEE	TYPE	ATT_PRE,ATT_SUF
LEXENTRY:	CHAUSSEE	CHAUSSEE	TYPE	ATT_PRE,ATT_SUF
LEXENTRY:	CO	CO	PLACEN	DETACH
LEXENTRY:	DAMM	DAMM	TYPE	ATT_SUF,DET_SUF
LEXENTRY:	DE	GERMANY	NATION	DETACH
LEXENTRY:	DEICH	DEICH	TYPE	ATT_SUF
LEXENTRY:	Denkmal	Denkmal	WORD	ATT_PRE, ATT_SUF, DET_SUF
LEXENTRY:	Dkm.	Denkmal	WORD	ATT_SUF, DET_SUF
LEXENTRY:	DEU	GERMANY	NATION	DETACH
LEXENTRY:	Deutsche	Deutsche	WORD	ATT_PRE, ATT_SUF, DET_SUF
LEXENTRY:	Deutscher	Deutsche	WORD	ATT_PRE, ATT_SUF, DET_SUF
LEXENTRY:	Deutsches	Deutsche	WORD	ATT_PRE, ATT_SUF, DET_SUF
LEXENTRY:	Df.	Dorf	WORD	ATT_SUF, DET_SUF
LEXENTRY:	DRIVE	DRIVE	TYPE	DET_SUF
LEXENTRY:	Dir	Direktor	WORD	DETACH
LEXENTRY:	Dir.	Direktor	WORD	DETACH
LEXENTRY:	Direktor	Direktor	WORD	DETACH
LEXENTRY:	Doktor	Doktor	WORD	ATT_SUF, DET_SUF
LEXENTRY:	Dom.	Dominik	WORD	DETACH
LEXENTRY:	Dominik	Dominik	WORD	DETACH
LEXENTRY:	Dorf	Dorf	WORD	ATT_PRE, ATT_SUF, DET_SUF
LEXENTRY:	Dr.	Doktor	WORD	ATT_SUF, DET_SUF
LEXENTRY:	Dritte	Dritte	ORD,WORD	DETACH
";
"LEXENTRY:	Dritter	Dritte	ORD,WORD	DETACH
LEXENTRY:	Drittes	Dritte	ORD,WORD	DETACH
LEXENTRY:	Dt.	Deutsche	WORD	ATT_SUF, DET_SUF
LEXENTRY:	Dt	Deutsche	WORD	ATT_SUF, DET_SUF
LEXENTRY:	Dt.	Deutsch	WORD	ATT_PRE, ATT_SUF, DET_SUF
LEXENTRY:	EG	EG	PLACEN	DETACH
LEXENTRY:	EINZELFIRMA	EINZELFIRMA	PLACEN	DETACH
LEXENTRY:	EINZELUNTERNEHMEN	EINZELUNTERNEHMEN	PLACEN	DETACH
LEXENTRY:	ENGETRAGENER	ENGETRAGENER	PLACEN	DETACH
LEXENTRY:	EV	EV	PLACEN	DETACH
LEXENTRY:	Ehem.	Ehemaliges	WORD	DETACH
LEXENTRY:	Ehemalige	Ehemaliges	WORD	DETACH, DET_PRE
LEXENTRY:	Ehemaliger	Ehemaliges	WORD	DETACH
LEXENTRY:	Ehemaliges	Ehemaliges	WORD	DETACH
LEXENTRY:	Evang.	Evangelische	WORD	DETACH
LEXENTRY:	Evangelische	Evangelische	WORD	DETACH
LEXENTRY:	Evgl.	Evangelische	WORD	DETACH
LEXENTRY:	Fabrik 	Fabrik	BUILDH	ATT_PRE, ATT_SUF, DET_SUF
LEXENTRY:	Fb.	Fabrik	BUILDH	ATT_SUF, DET_SUF
LEXENTRY:	FELD	FELD	TYPE	ATT_SUF,DET_SUF
LEXENTRY:	FIRMA	FIRMA	PLACEN	DETACH
LEXENTRY:	FREIBURG	FREIBURG	CITY	DETACH
LEXENTRY:	Forsth.	Forsthaus	WORD	DETACH
LEXENTRY:	Forsthaus	Forsthaus	WORD	DETACH
LEXENTRY:	Freih.	Freiherr	WORD	DETACH
LEXENTRY:	Freiherr	Freiherr	WORD	DETACH
LEXENTRY:	Friedr.	Friedrich	WORD	DETACH
LEXENTRY:	Friedrich	Friedrich	WORD	DETACH
LEXENTRY:	G.	Gasse	TYPE, WORD	ATT_SUF, DET_SUF
LEXENTRY:	G.	Große	WORD	ATT_PRE, DET_PRE
LEXENTRY:	GANG	GANG	TYPE	ATT_SUF
LEXENTRY:	GARTEN	GARTEN	TYPE	ATT_SUF,DET_SUF
LEXENTRY:	GASSE	GASSE	TYPE	ATT_SUF,DET_SUF
LEXENTRY:	Gasthaus	Gasthaus	WORD	DET_PRE, DET_SUF
LEXENTRY:	Gasthof	Gasthof	WORD	DET_PRE, DET_SUF
LEXENTRY:	GBR	GBR	PLACEN	DETACH
LEXENTRY:	Gde	Gemeinde	WORD	DET_PRE, ATT_PRE
LEXENTRY:	Gemeinde	Gemeinde	WORD	DET_PRE, ATT_PRE
LEXENTRY:	GENOSSENSCHAFT	GENOSSENSCHAFT	PLACEN	DETACH
LEXENTRY:	GERMANY	GERMANY	NATION	DETACH
LEXENTRY:	GESELLSCHAFT	GESELLSCHAFT	PLACEN	DETACH
LEXENTRY:	Gh	Gasthaus	WORD	DET_PRE, DET_SUF
LEXENTRY:	Ghf	Gasthof	WORD	DET_PRE, DET_SUF
LEXENTRY:	GMBH	GMBH	PLACEN	DETACH
LEXENTRY:	GRABEN	GRABEN	TYPE	ATT_SUF,DET_SUF
LEXENTRY:	Gebr.	Gebrüder	WORD	DETACH
LEXENTRY:	Gebrüder	Gebrüder	WORD	DETACH
LEXENTRY:	Geschw.	Geschwister	WORD	DETACH
LEXENTRY:	Geschwister	Geschwister	WORD	DETACH
LEXENTRY:	Gew.	Gewerbegebiet	WORD	DETACH
LEXENTRY:	Gewerbegebiet	Gewerbegebiet	WORD	DETACH
LEXENTRY:	Gr.	Große	WORD	DETACH
LEXENTRY:	Gr	Graben	TYPE, WORD	ATT_SUF, DET_SUF
LEXENTRY:	Graben	Graben	TYPE, WORD	ATT_PRE, ATT_SUF, DET_SUF
LEXENTRY:	Große	Große	WORD	DETACH
LEXENTRY:	Großer	Große	WORD	ATT_PRE, DET_PRE
";
"LEXENTRY:	Großes	Große	WORD	ATT_PRE, DET_PRE
LEXENTRY:	Großer	Große	WORD	ATT_PRE, DET_PRE
LEXENTRY:	GÄSSCHEN	GÄSSCHEN	TYPE	ATT_SUF
LEXENTRY:	H.	Hohe	DIRECT	DETACH
LEXENTRY:	H.	Höhle	WORD	DETACH
LEXENTRY:	HAFEN	HAFEN	TYPE	ATT_SUF
LEXENTRY:	HAK	Handelsakademie	PLACEN	DETACH
LEXENTRY:	Haltestelle	Haltestelle	WORD	DETACH
LEXENTRY:	HAMBURG	HAMBURG	PROV	DETACH
LEXENTRY:	Handelsschule	Handelsschule	PLACEN	DETACH
LEXENTRY:	Handelsakademie	Handelsakademie	PLACEN	DETACH
LEXENTRY:	HANDELSGESELLSCHAFT	HANDELSGESELLSCHAFT	PLACEN	DETACH
LEXENTRY:	HASCH	Handelsschule	PLACEN	DETACH
LEXENTRY:	Hauptbahnhof	Hauptbahnhof	BUILDT	DETACH
LEXENTRY:	HAUS	HAUS	UNITH	DETACH
LEXENTRY:	Hbf	Hauptbahnhof	BUILDT	DETACH
LEXENTRY:	HEIDE	HEIDE	TYPE	DET_SUF
LEXENTRY:	Heiliges	Heilige	WORD	DETACH
LEXENTRY:	Heilige	Heilige	WORD	DETACH
LEXENTRY:	Heiliger	Heilige	WORD	DETACH
LEXENTRY:	HESSE	HESSEN	PROV	DETACH
LEXENTRY:	HESSEN	HESSEN	PROV	DETACH
LEXENTRY:	Hint	Hintere	DIRECT	DETACH
LEXENTRY:	Hintere	Hintere	DIRECT	DETACH
LEXENTRY:	Hinterer	Hintere	DIRECT	DETACH
LEXENTRY:	Hinteres	Hintere	DIRECT	DETACH
LEXENTRY:	Hl	Heilige	WORD	DETACH
LEXENTRY:	HOF	HOF	TYPE	ATT_SUF,DET_SUF
LEXENTRY:	Hoher	Hohe	DIRECT	DETACH
LEXENTRY:	Hohes	Hohe	DIRECT	DETACH
LEXENTRY:	Hohe	Hohe	DIRECT	DETACH
LEXENTRY:	HORST	HORST	TYPE	ATT_SUF,DET_SUF
LEXENTRY:	Hs	Haus	WORD	DETACH
LEXENTRY:	Hst	Haltestelle	WORD	DETACH
LEXENTRY:	Ht	Hintere	DIRECT	DETACH
LEXENTRY:	Htt	Hütte	WORD	DETACH
LEXENTRY:	HÖHE	HÖHE	TYPE	ATT_SUF,DET_SUF
LEXENTRY:	Höhle	Höhle	WORD	DETACH
LEXENTRY:	Hütte	Hütte	WORD	DETACH
LEXENTRY:	i	im	STOPWORD	DETACH
LEXENTRY:	i	in	STOPWORD	DETACH
LEXENTRY:	I. d.	In der	STOPWORD	DETACH
LEXENTRY:	II	Zweite	ORD,WORD	DETACH
LEXENTRY:	II.	Zweite	ORD,WORD	DETACH
LEXENTRY:	III	Dritte	ORD,WORD	DETACH
LEXENTRY:	III.	Dritte	ORD,WORD	DETACH
LEXENTRY:	im	im	STOPWORD	DETACH
LEXENTRY:	In	In	STOPWORD	DETACH
LEXENTRY:	In der	In der	STOPWORD	DETACH
LEXENTRY:	Int	internationale	WORD	DETACH
LEXENTRY:	internationale	internationale	WORD	DETACH
LEXENTRY:	internationales	internationale	WORD	DETACH
LEXENTRY:	internationaler	internationale	WORD	DETACH
LEXENTRY:	Jagdhaus	Jagdhaus	BUILDT	DETACH
LEXENTRY:	Jagdhütte	Jagdhütte	BUILDT	DETACH
LEXENTRY:	Jh	Jagdhaus	BUILDT	DETACH
LEXENTRY:	Jhtt	Jagdhütte	BUILDT	DETACH
LEXENTRY:	Joh.	Johannes	WORD	DETACH
LEXENTRY:	Johann	Johannes	WORD	DETACH
LEXENTRY:	Johannes	Johannes	WORD	DETACH
LEXENTRY:	Ka	Kläranlage	WORD	DETACH
LEXENTRY:	KAI	KAI	TYPE	ATT_SUF
";
"LEXENTRY:	KAMP	KAMP	TYPE	ATT_SUF
LEXENTRY:	KANAL	KANAL	TYPE	ATT_SUF,DET_SUF
LEXENTRY:	Kap	Kapelle	BUILDT	DETACH
LEXENTRY:	Kapelle	Kapelle	BUILDT	DETACH
LEXENTRY:	Kastralgemeinde	Kastralgemeinde	WORD	DETACH
LEXENTRY:	Kath.	Katholische	WORD	DETACH
LEXENTRY:	Katholisches	Katholische	WORD	DETACH
LEXENTRY:	Katholische	Katholische	WORD	DETACH
LEXENTRY:	KEHRE	KEHRE	TYPE	ATT_SUF,DET_SUF
LEXENTRY:	Kl	Kleine	WORD	DET_PRE
LEXENTRY:	Kl	Klein	WORD	DET_PRE, ATT_PRE
LEXENTRY:	Kläranlage	Kläranlage	WORD	DETACH
LEXENTRY:	Klein	Klein	WORD	DET_PRE, ATT_PRE
LEXENTRY:	Kleine	Kleine	WORD	DET_PRE
LEXENTRY:	Kleines	Kleine	WORD	DET_PRE
LEXENTRY:	Kleiner	Kleine	WORD	DET_PRE
LEXENTRY:	KG	KG	PLACEN	DETACH
LEXENTRY:	Kg	Kastralgemeinde	WORD	DETACH
LEXENTRY:	Kg	Kogel	WORD	DETACH
LEXENTRY:	Kga	Kleingartenanlage	WORD	DETACH
LEXENTRY:	KGAA	KGAA	PLACEN	DETACH
LEXENTRY:	Kgv	Kleeingartenverein	WORD	DETACH
LEXENTRY:	Kh	Krankenhaus	BUILDT	DETACH
LEXENTRY:	Kleingartenanlage	Kleingartenanlage	WORD	DETACH
LEXENTRY:	Kleeingartenverein	Kleeingartenverein	WORD	DETACH
LEXENTRY:	KOMMANDITGESELLSCHAFT	KOMMANDITGESELLSCHAFT	PLACEN	DETACH
LEXENTRY:	Kogel	Kogel	WORD	DETACH
LEXENTRY:	KOPPEL	KOPPEL	TYPE	ATT_SUF
LEXENTRY:	Kpl	Kapelle	BUILDT	DETACH
LEXENTRY:	Krankenhaus	Krankenhaus	BUILDT	DETACH
LEXENTRY:	Kreuz	Kreuz	TYPE, WORD	DETACH
LEXENTRY:	Kz	Kreuz	TYPE, WORD	DETACH
LEXENTRY:	Landeskrankenhaus	Landeskrankenhaus	BUILDT	DETACH
LEXENTRY:	LANDSTRASSE	LANDSTRASSE	TYPE	DET_SUF
LEXENTRY:	Lkh	Landeskrankenhaus	BUILDT	DETACH
LEXENTRY:	LOWER SAXONY	NIEDERSACHSEN	PROV	DETACH
LEXENTRY:	Luth.	Luther	WORD	DETACH
LEXENTRY:	Luther	Luther	WORD	DETACH
LEXENTRY:	Lutherische	Luther	WORD	DETACH
LEXENTRY:	Ma	Maria	WORD	DETACH
LEXENTRY:	Maria	Maria	WORD	DETACH
LEXENTRY:	MARKT	MARKT	TYPE, WORD	ATT_SUF,DET_SUF
LEXENTRY:	MBH	MBH	PLACEN	DETACH
LEXENTRY:	MECHELEBERG POMERANIA	MECKLENBURG-VORPOMMERN	PROV	DETACH
LEXENTRY:	MECKLENBURG-VORPOMMERN	MECKLENBURG-VORPOMMERN	PROV	DETACH
LEXENTRY:	Mkt	Markt	TYPE, WORD	DET_PRE, DET_SUF
LEXENTRY:	MOOR	MOOR	TYPE	ATT_SUF
LEXENTRY:	MVA	Müllverbrennungsanlage	WORD	DETACH
LEXENTRY:	Müllverbrennungsanlage	Müllverbrennungsanlage	WORD	DETACH
LEXENTRY:	Nationalpark	Nationalpark	WORD	DETACH
LEXENTRY:	Naturschutzgebiet	Naturschutzgebiet	WORD	DETACH
LEXENTRY:	Nd	Niedere	DIRECT	DET_PRE
LEXENTRY:	Niedere	Niedere	DIRECT	DET_PRE
LEXENTRY:	Niederer	Niedere	DIRECT	DET_PRE
LEXENTRY:	Niederes	Niedere	DIRECT	DET_PRE
";
"LEXENTRY:	NIEDERSACHSEN	NIEDERSACHSEN	PROV	DETACH
LEXENTRY:	NORDRHEIN-WESTFALEN	NORDRHEIN-WESTFALEN	PROV	DETACH
LEXENTRY:	NORDRHEIN-WESTPHALEN	NORDRHEIN-WESTFALEN	PROV	DETACH
LEXENTRY:	NORTH RHINE-WESTPHALIA	NORDRHEIN-WESTFALEN	PROV	DETACH
LEXENTRY:	Neu Sankt	Neu Sankt	WORD	DETACH
LEXENTRY:	Neu St.	Neu Sankt	WORD	DETACH
LEXENTRY:	Nik.	Nikolaus	WORD	DETACH
LEXENTRY:	Nikolaus	Nikolaus	WORD	DETACH
LEXENTRY:	Np	Nationalpark	WORD	DETACH
LEXENTRY:	Nr	Nummer	WORD	DETACH
LEXENTRY:	NSG	Naturschutzgebiet	WORD	DETACH
LEXENTRY:	Nummer	Nummer	WORD	DETACH
LEXENTRY:	nördl	nördliche	DIRECT	DET_PRE
LEXENTRY:	nördliche	nördliche	DIRECT	DET_PRE
LEXENTRY:	nördlicher	nördliche	DIRECT	DET_PRE
LEXENTRY:	nördliches	nördliche	DIRECT	DET_PRE
LEXENTRY:	OHG	OHG	PLACEN	DETACH
LEXENTRY:	Ob.	Obere	WORD	DETACH
LEXENTRY:	Oberbürgermeister	Oberbürgermeister	WORD	DETACH
LEXENTRY:	Obere	Obere	WORD	DETACH
LEXENTRY:	Oberer	Obere	WORD	DETACH
LEXENTRY:	Oberes	Obere	WORD	DETACH
LEXENTRY:	östl.	Östliche	DIRECT	DET_PRE
LEXENTRY:	Östliche	Östliche	DIRECT	DET_PRE
LEXENTRY:	Östlicher	Östliche	DIRECT	DET_PRE
LEXENTRY:	Östliches	Östliche	DIRECT	DET_PRE
LEXENTRY:	P	Pater	WORD	DETACH
LEXENTRY:	P.	Pfad	TYPE, WORD	ATT_SUF, DET_SUF
LEXENTRY:	PARK	PARK	TYPE	ATT_SUF,DET_SUF
LEXENTRY:	PASSAGE	PASSAGE	TYPE	ATT_SUF,DET_SUF
LEXENTRY:	PFAD	PFAD	TYPE	ATT_SUF,DET_SUF
LEXENTRY:	PLATZ	PLATZ	TYPE	ATT_PRE,ATT_SUF,DET_PRE,DET_SUF
LEXENTRY:	PROMENADE	PROMENADE	TYPE	ATT_SUF,DET_SUF
LEXENTRY:	Pfarrer	Pfarrer	WORD	DETACH
LEXENTRY:	Pfr.	Pfarrer	WORD	DETACH
LEXENTRY:	Pl.	Platz	PLACEN,WORD	DETACH
LEXENTRY:	Platz	Platz	PLACEN,WORD	DETACH
LEXENTRY:	POSTFACH	POSTFACH	BOXH	DETACH
LEXENTRY:	Prof	Professor	WORD	DETACH
LEXENTRY:	Professor	Professor	WORD	DETACH
LEXENTRY:	Q	Quelle	WORD	DETACH
LEXENTRY:	Qu	Quelle	WORD	DETACH
LEXENTRY:	Quelle	Quelle	WORD	DETACH
LEXENTRY:	Res	Reservoir	WORD	DETACH
LEXENTRY:	Reservoir	Reservoir	WORD	DETACH
LEXENTRY:	Rh	Rhein	WORD	DETACH
LEXENTRY:	Rhein	Rhein	WORD	DETACH
LEXENTRY:	RHEINLAND-PFALZ	RHEINLAND-PFALZ	PROV	DETACH
LEXENTRY:	RHINELAND-PALATINATE	RHEINLAND-PFALZ	PROV	DETACH
LEXENTRY:	RING	RING	TYPE	ATT_SUF,DET_SUF
LEXENTRY:	ROAD	ROAD	TYPE	DET_SUF
LEXENTRY:	Rob.	Robert	WORD	DETACH
LEXENTRY:	Robert	Robert	WORD	DETACH
LEXENTRY:	Röm.	Römisch	WORD	DETACH
LEXENTRY:	Römisch	Römisch	WORD	DETACH
LEXENTRY:	S	See	WORD	DET_SUF
LEXENTRY:	SAARLAND	SAARLAND	PROV	DETACH
LEXENTRY:	SACHSEN	SACHSEN	PROV	DETACH
LEXENTRY:	SACHSEN-ANHALT	SACHSEN-ANHALT	PROV	DETACH
";
"LEXENTRY:	SAXONY	SACHSEN	PROV	DETACH
LEXENTRY:	SAXONY-ANHALT	SACHSEN-ANHALT	PROV	DETACH
LEXENTRY:	SCHLESWIG-HOLSTEIN	SCHLESWIG-HOLSTEIN	PROV	DETACH
LEXENTRY:	Schl	Schloss	BUILDT	DETACH
LEXENTRY:	Schloss	Schloss	BUILDT	DETACH
LEXENTRY:	Sdlg	Siedlung	PLACEN	DETACH
LEXENTRY:	See	See	WORD	ATT_PRE, DET_SUF
LEXENTRY:	Siedlung	Siedlung	PLACEN	DETACH
LEXENTRY:	Sp	Spitze	WORD	DETACH
LEXENTRY:	Spitze	Spitze	WORD	DETACH
LEXENTRY:	STAFFEL	STAFFEL	TYPE	DET_SUF
LEXENTRY:	Stb	Steinbruch	WORD	DETACH
LEXENTRY:	STEG	STEG	TYPE	DET_SUF
LEXENTRY:	STEIG	STEIG	TYPE	ATT_SUF,DET_SUF
LEXENTRY:	STEIGE	STEIGE	TYPE	ATT_SUF,DET_SUF
LEXENTRY:	STEIN	STEIN	TYPE	ATT_SUF,DET_SUF
LEXENTRY:	Steinbruch	Steinbruch	WORD	DETACH
LEXENTRY:	Stg	Stiege	TYPE, WORD	DETACH
LEXENTRY:	STIEG	STIEG	TYPE	ATT_SUF
LEXENTRY:	STIEGE	STIEGE	TYPE	ATT_SUF,DET_SUF
LEXENTRY:	STIFTUNG	STIFTUNG	PLACEN	DETACH
LEXENTRY:	STR	STRASSE	TYPE	ATT_SUF,DET_PRE,DET_SUF
LEXENTRY:	STR.	STRASSE	TYPE	ATT_SUF,DET_PRE,DET_SUF
LEXENTRY:	STRASSE	STRASSE	TYPE	ATT_SUF,DET_PRE,DET_SUF
LEXENTRY:	STRAßE	STRASSE	TYPE	ATT_SUF,DET_PRE,DET_SUF
LEXENTRY:	STREET	STREET	TYPE	DET_SUF
LEXENTRY:	San.	Sanitäts	WORD	DETACH
LEXENTRY:	Sanitäts	Sanitäts	WORD	DETACH
LEXENTRY:	Sanitäts-Dr.	Sanitäts	WORD	DETACH
LEXENTRY:	Sanitäts-Rat	Sanitäts	WORD	DETACH
LEXENTRY:	Sankt	Sankt	WORD	DETACH
LEXENTRY:	Seb.	Sebastian	WORD	DETACH
LEXENTRY:	Sebastian	Sebastian	WORD	DETACH
LEXENTRY:	St.	Sankt	WORD	DETACH
LEXENTRY:	Südl	Südliche	DIRECT	DET_PRE
LEXENTRY:	Südliche	Südliche	DIRECT	DET_PRE
LEXENTRY:	Südlicher	Südliche	DIRECT	DET_PRE
LEXENTRY:	Südliches	Südliche	DIRECT	DET_PRE
LEXENTRY:	T	Teich	WORD	DET_SUF
LEXENTRY:	TAL	TAL	TYPE	ATT_SUF
LEXENTRY:	TEICH	TEICH	TYPE	ATT_SUF
LEXENTRY:	THURINGIA	THÜRINGEN	PROV	DETACH
LEXENTRY:	THÜRINGEN	THÜRINGEN	PROV	DETACH
LEXENTRY:	TOR	TOR	TYPE	ATT_SUF,DET_SUF
LEXENTRY:	TREPPE	TREPPE	TYPE	ATT_SUF
LEXENTRY:	Truppenübungsplatz	Truppenübungsplatz	WORD	DETACH
LEXENTRY:	TUNNEL	TUNNEL	TYPE	ATT_SUF,DET_SUF
LEXENTRY:	Tüpl	Truppenübungsplatz	WORD	DETACH
LEXENTRY:	U	Unterer	WORD	DETACH
LEXENTRY:	UFER	UFER	TYPE	ATT_SUF
LEXENTRY:	UKH	Unfallkrankenhaus	BUILDT	DETACH
LEXENTRY:	Unfallkrankenhaus	Unfallkrankenhaus	BUILDT	DETACH
LEXENTRY:	Uni	Universität	BUILDT	DETACH
LEXENTRY:	Universität	Universität	BUILDT	DETACH
LEXENTRY:	Unt	Untere	DIRECT	DET_PRE
LEXENTRY:	Untere	Unterer	WORD	DETACH
LEXENTRY:	Unterer	Unterer	WORD	DETACH
LEXENTRY:	Unteres	Unterer	WORD	DETACH
LEXENTRY:	V.	Von	STOPWORD	DETACH
";
"LEXENTRY:	V	Van	WORD	DETACH
LEXENTRY:	V. d.	Von der	STOPWORD	DETACH
LEXENTRY:	V. d.	Vor der	STOPWORD	DETACH
LEXENTRY:	V. d.	Van der	STOPWORD	DETACH
LEXENTRY:	Van	Van	WORD	DETACH
LEXENTRY:	VEB	VEB	PLACEN	DETACH
LEXENTRY:	VEREIN	VEREIN	PLACEN	DETACH
LEXENTRY:	VOLKSEIGNER	VOLKSEIGNER	PLACEN	DETACH
LEXENTRY:	Verl.	Verlängerung	WORD	DETACH
LEXENTRY:	Verlängerung	Verlängerung	WORD	DETACH
LEXENTRY:	Von	Von	STOPWORD	DETACH
LEXENTRY:	Vs	Volksschule	BUILDT	DETACH
LEXENTRY:	W.	Wald	WORD	ATT_PRE, DET_SUF, ATT_SUF
LEXENTRY:	W.	Weg	TYPE, WORD	ATT_SUF, DET_SUF, DET_PRE
LEXENTRY:	Wald	Wald	WORD	ATT_PRE, DET_SUF, ATT_SUF
LEXENTRY:	WALL	WALL	TYPE	ATT_SUF
LEXENTRY:	Wasserfall	Wasserfall	WORD	DETACH
LEXENTRY:	WAY	WAY	TYPE	DET_SUF
LEXENTRY:	WEG	WEG	TYPE	ATT_PRE,ATT_SUF,DET_PRE,DET_SUF
LEXENTRY:	Westl	Westliche	DIRECT	DET_PRE
LEXENTRY:	Westliche	Westliche	DIRECT	DET_PRE
LEXENTRY:	Westlicher	Westliche	DIRECT	DET_PRE
LEXENTRY:	Westliches	Westliche	DIRECT	DET_PRE
LEXENTRY:	Wh	Wirtshaus	BUILDT	DETACH
LEXENTRY:	WIESE	WIESE	TYPE	ATT_SUF
LEXENTRY:	WIESEN	WIESEN	TYPE	ATT_SUF
LEXENTRY:	WINKEL	WINKEL	TYPE	ATT_SUF,DET_SUF
LEXENTRY:	Wirtshaus	Wirtshaus	BUILDT	DETACH
LEXENTRY:	WOHNUNG	WOHNUNG	UNITH	DETACH
LEXENTRY:	Ws	Wiese	WORD	DETACH
LEXENTRY:	Wsf	Wasserfall	WORD	DETACH
LEXENTRY:	Wssf	Wasserfall	WORD	DETACH
LEXENTRY:	Z.	Zum	STOPWORD	DETACH
LEXENTRY:	ZEILE	ZEILE	TYPE	ATT_SUF,DET_SUF
LEXENTRY:	Zum	Zum	STOPWORD	DETACH
LEXENTRY:	Zweite	Zweite	ORD,WORD	DETACH
LEXENTRY:	Zweiter	Zweite	ORD,WORD	DETACH
LEXENTRY:	Zweites	Zweite	ORD,WORD	DETACH
LEXENTRY:	Ü.	Über	WORD	DETACH
LEXENTRY:	Über	Über	WORD	DETACH
LEXENTRY:	BADEN-WÜRTTEMBERG	BADEN-WÜRTTEMBERG	PROV,WORD	DETACH
LEXENTRY:	BADEN WÜRTTEMBERG	BADEN-WÜRTTEMBERG	PROV,WORD	DETACH
LEXENTRY:	BAYERN	BAYERN	PROV,WORD	DETACH
LEXENTRY:	BAYERN	BAVARIA	PROV,WORD	DETACH
LEXENTRY:	BERLIN	BERLIN 	PROV,WORD	DETACH
LEXENTRY:	BRANDENBURG	BRANDENBURG	PROV,WORD	DETACH
LEXENTRY:	BREMEN	BREMEN	PROV,WORD	DETACH
LEXENTRY:	HAMBURG	HAMBURG	PROV,WORD	DETACH
LEXENTRY:	HESSEN	HESSEN	PROV,WORD	DETACH
LEXENTRY:	HESSE	HESSEN	PROV,WORD	DETACH
LEXENTRY:	MECKLENBURG-VORPOMMERN	MECKLENBURG-VORPOMMERN	PROV,WORD	DETACH
LEXENTRY:	MECKLENBURG VORPOMMERN	MECKLENBURG-VORPOMMERN	PROV,WORD	DETACH
LEXENTRY:	MECHELEBERG POMERANIA	MECKLENBURG-VORPOMMERN	PROV,WORD	DETACH
LEXENTRY:	NIEDERSACHSEN	NIEDERSACHSEN	PROV,WORD	DETACH
LEXENTRY:	LOWER SAXONY	NIEDERSACHSEN	PROV,WORD	DETACH
";
"LEXENTRY:	NORDRHEIN-WESTFALEN	NORDRHEIN-WESTFALEN	PROV,WORD	DETACH
LEXENTRY:	NORDRHEIN WESTFALEN	NORDRHEIN-WESTFALEN	PROV,WORD	DETACH
LEXENTRY:	NORTH RHINE-WESTPHALIA	NORDRHEIN-WESTFALEN	PROV,WORD	DETACH
LEXENTRY:	NORTH RHINE WESTPHALIA	NORDRHEIN-WESTFALEN	PROV,WORD	DETACH
LEXENTRY:	RHEINLAND-PFALZ	RHEINLAND-PFALZ	PROV,WORD	DETACH
LEXENTRY:	RHEINLAND PFALZ	RHEINLAND-PFALZ	PROV,WORD	DETACH
LEXENTRY:	RHINELAND-PALATINATE	RHEINLAND-PFALZ	PROV,WORD	DETACH
LEXENTRY:	RHINELAND PALATINATE	RHEINLAND-PFALZ	PROV,WORD	DETACH
LEXENTRY:	SAARLAND	SAARLAND	PROV,WORD	DETACH
LEXENTRY:	SACHSEN	SACHSEN	PROV,WORD	DETACH
LEXENTRY:	SAXONY	SACHSEN	PROV,WORD	DETACH
LEXENTRY:	SACHSEN-ANHALT	SACHSEN-ANHALT	PROV,WORD	DETACH
LEXENTRY:	SACHSEN ANHALT	SACHSEN-ANHALT	PROV,WORD	DETACH
LEXENTRY:	SAXONY-ANHALT	SACHSEN-ANHALT	PROV,WORD	DETACH
LEXENTRY:	SAXONY ANHALT	SACHSEN-ANHALT	PROV,WORD	DETACH
LEXENTRY:	SCHLESWIG-HOLSTEIN	SCHLESWIG-HOLSTEIN	PROV,WORD	DETACH
LEXENTRY:	SCHLESWIG HOLSTEIN	SCHLESWIG-HOLSTEIN	PROV,WORD	DETACH
LEXENTRY:	THÜRINGEN	THÜRINGEN	PROV,WORD	DETACH
LEXENTRY:	THURINGIA	THÜRINGEN	PROV,WORD	DETACH
"].
(** data/sample/greatbritain.lex *)
Definition slex_greatbritain : list string :=
[
"LEXICON:	lex-greatbritain.txt	ENG	en_UK
LEXENTRY:	1	1	NUMBER	DETACH
LEXENTRY:	10	10	NUMBER	DETACH
LEXENTRY:	10TH	10TH	WORD,ORD	DETACH
LEXENTRY:	11	11	NUMBER	DETACH
LEXENTRY:	11TH	11TH	WORD,ORD	DETACH
LEXENTRY:	12	12	NUMBER	DETACH
LEXENTRY:	12TH	12TH	WORD,ORD	DETACH
LEXENTRY:	13	13	NUMBER	DETACH
LEXENTRY:	13TH	13TH	WORD,ORD	DETACH
LEXENTRY:	14	14	NUMBER	DETACH
LEXENTRY:	14TH	14TH	WORD,ORD	DETACH
LEXENTRY:	15	15	NUMBER	DETACH
LEXENTRY:	15TH	15TH	WORD,ORD	DETACH
LEXENTRY:	16	16	NUMBER	DETACH
LEXENTRY:	16TH	16TH	WORD,ORD	DETACH
LEXENTRY:	17	17	NUMBER	DETACH
LEXENTRY:	17TH	17TH	WORD,ORD	DETACH
LEXENTRY:	18	18	NUMBER	DETACH
LEXENTRY:	18TH	18TH	WORD,ORD	DETACH
LEXENTRY:	19	19	NUMBER	DETACH
LEXENTRY:	19TH	19TH	WORD,ORD	DETACH
LEXENTRY:	1ST	1ST	WORD,ORD	DETACH
LEXENTRY:	2	2	NUMBER	DETACH
LEXENTRY:	20	20	NUMBER	DETACH
LEXENTRY:	20TH	20TH	WORD,ORD	DETACH
LEXENTRY:	2ND	2ND	WORD,ORD	DETACH
LEXENTRY:	3	3	NUMBER	DETACH
LEXENTRY:	30	30	NUMBER	DETACH
LEXENTRY:	30TH	30TH	WORD,ORD	DETACH
LEXENTRY:	3RD	3RD	WORD,ORD	DETACH
LEXENTRY:	4	4	NUMBER	DETACH
LEXENTRY:	40	40	NUMBER	DETACH
LEXENTRY:	40TH	40TH	WORD,ORD	DETACH
LEXENTRY:	4TH	4TH	WORD,ORD	DETACH
LEXENTRY:	5	5	NUMBER	DETACH
LEXENTRY:	50	50	NUMBER	DETACH
LEXENTRY:	50TH	50TH	WORD,ORD	DETACH
LEXENTRY:	5TH	5TH	WORD,ORD	DETACH
LEXENTRY:	6	6	NUMBER	DETACH
LEXENTRY:	60	60	NUMBER	DETACH
LEXENTRY:	60TH	60TH	WORD,ORD	DETACH
LEXENTRY:	6TH	6TH	WORD,ORD	DETACH
LEXENTRY:	7	7	NUMBER	DETACH
LEXENTRY:	70	70	NUMBER	DETACH
LEXENTRY:	70TH	70TH	WORD,ORD	DETACH
LEXENTRY:	7TH	7TH	WORD,ORD	DETACH
LEXENTRY:	8	8	NUMBER	DETACH
LEXENTRY:	80	80	NUMBER	DETACH
LEXENTRY:	80TH	80TH	WORD,ORD	DETACH
LEXENTRY:	8TH	8TH	WORD,ORD	DETACH
LEXENTRY:	9	9	NUMBER	DETACH
LEXENTRY:	90	90	NUMBER	DETACH
LEXENTRY:	90TH	90TH	WORD,ORD	DETACH
LEXENTRY:	9TH	9TH	WORD,ORD	DETACH
LEXENTRY:	ABD	ABERDEENSHIRE	PROV	DETACH
LEXENTRY:	ABERDEENSHIRE	ABERDEENSHIRE	PROV	DETACH
LEXENTRY:	AGY	ANGLESEY	PROV	DETACH
LEXENTRY:	ALD	ALDERNEY	PROV	DETACH
LEXENTRY:	ALDERNEY	ALDERNEY	PROV	DETACH
LEXENTRY:	ALLEY	AllEY	TYPE	DET_SUF
LEXENTRY:	ALLY	AllEY	TYPE	DET_SUF
LEXENTRY:	ANGLESEY	ANGLESEY	PROV	DETACH
LEXENTRY:	ANGUS	ANGUS	PROV	DETACH
LEXENTRY:	ANS	ANGUS	PROV	DETACH
LEXENTRY:	ANT	CO. ANTRIM	PROV	DETACH
LEXENTRY:	APARTMENT	APT	UNITH	DETACH
LEXENTRY:	APPR	APPROACH	TYPE	DET_SUF
LEXENTRY:	APPROACH	APPROACH	TYPE	DET_SUF
LEXENTRY:	APT	APT	UNITH	DETACH
LEXENTRY:	ARC	ARCADE	TYPE	DET_SUF
LEXENTRY:	ARCADE	ARCADE	TYPE	DET_SUF
LEXENTRY:	ARGYLLSHIRE	ARGYLLSHIRE	PROV	DETACH
LEXENTRY:	ARL	ARGYLLSHIRE	PROV	DETACH
";
"LEXENTRY:	ARM	CO. ARMAGH	PROV	DETACH
LEXENTRY:	AV	AVENUE	TYPE	DET_SUF
LEXENTRY:	AVE	AVENUE	TYPE	DET_SUF
LEXENTRY:	AVENUE	AVENUE	TYPE	DET_SUF
LEXENTRY:	AVN	AVON	PROV	DETACH
LEXENTRY:	AVON	AVON	PROV	DETACH
LEXENTRY:	AYR	AYRSHIRE	PROV	DETACH
LEXENTRY:	AYRSHIRE	AYRSHIRE	PROV	DETACH
LEXENTRY:	AllEY	AllEY	TYPE	DET_SUF
LEXENTRY:	B	B	UNITH,SINGLE,WORD	DETACH
LEXENTRY:	BAN	BANFFSHIRE	PROV	DETACH
LEXENTRY:	BANFFSHIRE	BANFFSHIRE	PROV	DETACH
LEXENTRY:	BANK	BANK	TYPE	DET_SUF
LEXENTRY:	BASEMENT	B	UNITH	DETACH
LEXENTRY:	BDF	BEDFORDSHIRE	PROV	DETACH
LEXENTRY:	BEDFORDSHIRE	BEDFORDSHIRE	PROV	DETACH
LEXENTRY:	BEDS	BEDFORDSHIRE	PROV	DETACH
LEXENTRY:	BERKS	BERKSHIRE	PROV	DETACH
LEXENTRY:	BERKSHIRE	BERKSHIRE	PROV	DETACH
LEXENTRY:	BERWICKSHIRE	BERWICKSHIRE	PROV	DETACH
LEXENTRY:	BEW	BERWICKSHIRE	PROV	DETACH
LEXENTRY:	BKM	BUCKINGHAMSHIRE	PROV	DETACH
LEXENTRY:	BLDG	BLDG	UNITH	DETACH
LEXENTRY:	BOR	BORDERS	PROV	DETACH
LEXENTRY:	BORDERS	BORDERS	PROV	DETACH
LEXENTRY:	BOULEVARD	BOULEVARD	TYPE	DET_SUF
LEXENTRY:	BRE	BRECONSHIRE	PROV	DETACH
LEXENTRY:	BRECONSHIRE	BRECONSHIRE	PROV	DETACH
LEXENTRY:	BRIDGE	BRIDGE	TYPE	DET_SUF
LEXENTRY:	BRITAIN	UNITED KINGDOM OF GREAT BRITAIN	NATION	DETACH
LEXENTRY:	BRK	BERKSHIRE	PROV	DETACH
LEXENTRY:	BROADWAY	BROADWAY	TYPE	DET_SUF
LEXENTRY:	BUCKINGHAMSHIRE	BUCKINGHAMSHIRE	PROV	DETACH
LEXENTRY:	BUCKS	BUCKINGHAMSHIRE	PROV	DETACH
LEXENTRY:	BUILDING	BLDG	UNITH	DETACH
LEXENTRY:	BUILDINGS	BUILDINGS	TYPE	DET_SUF
LEXENTRY:	BUILDINS	BUILDINGS	TYPE	DET_SUF
LEXENTRY:	BUT	BUTE	PROV	DETACH
LEXENTRY:	BUTE	BUTE	PROV	DETACH
LEXENTRY:	BVD	BOULEVARD	TYPE	DET_SUF
LEXENTRY:	CAE	CAERNARVONSHIRE	PROV	DETACH
LEXENTRY:	CAERNARVONSHIRE	CAERNARVONSHIRE	PROV	DETACH
LEXENTRY:	CAI	CAITHNESS	PROV	DETACH
LEXENTRY:	CAITHNESS	CAITHNESS	PROV	DETACH
LEXENTRY:	CAM	CAMBRIDGESHIRE	PROV	DETACH
LEXENTRY:	CAMBRIDGESHIRE	CAMBRIDGESHIRE	PROV	DETACH
LEXENTRY:	CAMBS	CAMBRIDGESHIRE	PROV	DETACH
LEXENTRY:	CARDIGANSHIRE	CARDIGANSHIRE	PROV	DETACH
LEXENTRY:	CARMARTHENSHIRE	CARMARTHENSHIRE	PROV	DETACH
LEXENTRY:	CAUSEWAY	CAUSEWAY	TYPE	DET_SUF
LEXENTRY:	CEN	CENTRAL	PROV	DETACH
LEXENTRY:	CENT	CENTRAL	PROV	DETACH
LEXENTRY:	CENTRAL	CENTRAL	PROV	DETACH
LEXENTRY:	CGN	CARDIGANSHIRE	PROV	DETACH
LEXENTRY:	CHANNEL ISLANDS	CHANNEL ISLANDS	PROV	DETACH
LEXENTRY:	CHASE	CHASE	TYPE	DET_SUF
LEXENTRY:	CHES	CHESHIRE	PROV	DETACH
LEXENTRY:	CHESHIRE	CHESHIRE	PROV	DETACH
LEXENTRY:	CHI	CHANNEL ISLANDS	PROV	DETACH
LEXENTRY:	CHS	CHESHIRE	PROV	DETACH
LEXENTRY:	CHURCHYARD	CHURCHYARD	TYPE	DET_SUF
LEXENTRY:	CIRCLE	CIRCLE	TYPE	DET_SUF
";
"LEXENTRY:	CIRCUS	CIRCUS	TYPE	DET_SUF
LEXENTRY:	CL	CLOSE	TYPE	DET_SUF
LEXENTRY:	CLA	CO. CLARE	PROV	DETACH
LEXENTRY:	CLACKMANNANSHIRE	CLACKMANNANSHIRE	PROV	DETACH
LEXENTRY:	CLEVE	CLEVELAND	PROV	DETACH
LEXENTRY:	CLEVELAND	CLEVELAND	PROV	DETACH
LEXENTRY:	CLK	CLACKMANNANSHIRE	PROV	DETACH
LEXENTRY:	CLOSE	CLOSE	TYPE	DET_SUF
LEXENTRY:	CLV	CLEVELAND	PROV	DETACH
LEXENTRY:	CLWYD	CLWYD	PROV	DETACH
LEXENTRY:	CMA	CUMBRIA	PROV	DETACH
LEXENTRY:	CMN	CARMARTHENSHIRE	PROV	DETACH
LEXENTRY:	CNWLL	CORNWALL	PROV	DETACH
LEXENTRY:	CO	CO	PLACEN	DETACH
LEXENTRY:	CO ANTRIM	CO. ANTRIM	PROV	DETACH
LEXENTRY:	CO ARMAGH	CO. ARMAGH	PROV	DETACH
LEXENTRY:	CO DOWN	CO. DOWN	PROV	DETACH
LEXENTRY:	CO FERMANAGH	CO. FERMANAGH	PROV	DETACH
LEXENTRY:	CO TYRONE	CO. TYRONE	PROV	DETACH
LEXENTRY:	CO. ANTRIM	CO. ANTRIM	PROV	DETACH
LEXENTRY:	CO. ARMAGH	CO. ARMAGH	PROV	DETACH
LEXENTRY:	CO. CLARE	CO. CLARE	PROV	DETACH
LEXENTRY:	CO. DOWN	CO. DOWN	PROV	DETACH
LEXENTRY:	CO. DURHAM	DURHAM	PROV	DETACH
LEXENTRY:	CO. FERMANAGH	CO. FERMANAGH	PROV	DETACH
LEXENTRY:	CO. LONDONDERRY	LONDONDERRY	PROV	DETACH
LEXENTRY:	CO. TYRONE	CO. TYRONE	PROV	DETACH
LEXENTRY:	COMPANY	COMPANY	PLACEN	DETACH
LEXENTRY:	CON	CORNWALL	PROV	DETACH
LEXENTRY:	COPPICE	COPPICE	TYPE	DET_SUF
LEXENTRY:	COPSE	COPSE	TYPE	DET_SUF
LEXENTRY:	CORNER	CORNER	TYPE	DET_SUF
LEXENTRY:	CORNWALL	CORNWALL	PROV	DETACH
LEXENTRY:	CORP	CORP	PLACEN	DETACH
LEXENTRY:	CORPORATION	CORPORATION	PLACEN	DETACH
LEXENTRY:	COTTAGES	COTTAGES	TYPE,WORD	DET_SUF
LEXENTRY:	COUNTY ANTRIM	CO. ANTRIM	PROV	DETACH
LEXENTRY:	COUNTY ARMAGH	CO. ARMAGH	PROV	DETACH
LEXENTRY:	COUNTY CLARE	CO. CLARE	PROV	DETACH
LEXENTRY:	COUNTY DOWN	CO. DOWN	PROV	DETACH
LEXENTRY:	COUNTY DURHAM	DURHAM	PROV	DETACH
LEXENTRY:	COUNTY FERMANAGH	CO. FERMANAGH	PROV	DETACH
LEXENTRY:	COUNTY LONDONDERRY	LONDONDERRY	PROV	DETACH
LEXENTRY:	COURT	COURT	TYPE	DET_SUF
LEXENTRY:	CRES	CRESCENT	TYPE	DET_SUF
LEXENTRY:	CRESCENT	CRESCENT	TYPE	DET_SUF
LEXENTRY:	CT	COURT	TYPE	DET_SUF
LEXENTRY:	CUL	CUMBERLAND	PROV	DETACH
LEXENTRY:	CUMB	CUMBRIA	PROV	DETACH
LEXENTRY:	CUMBERLAND	CUMBERLAND	PROV	DETACH
LEXENTRY:	CUMBRIA	CUMBRIA	PROV	DETACH
LEXENTRY:	CWD	CLWYD	PROV	DETACH
LEXENTRY:	D & G	DUMFRIES-SHIRE	PROV	DETACH
LEXENTRY:	D&G	DUMFRIES-SHIRE	PROV	DETACH
LEXENTRY:	DALE	DALE	TYPE	DET_SUF
LEXENTRY:	DBY	DERBYSHIRE	PROV	DETACH
LEXENTRY:	DEN	DENBIGHSHIRE	PROV	DETACH
LEXENTRY:	DENBIGHSHIRE	DENBIGHSHIRE	PROV	DETACH
LEXENTRY:	DERBYS	DERBYSHIRE	PROV	DETACH
LEXENTRY:	DERBYSHIRE	DERBYSHIRE	PROV	DETACH
LEXENTRY:	DEV	DEVON	PROV	DETACH
";
"LEXENTRY:	DEVON	DEVON	PROV	DETACH
LEXENTRY:	DEVON	DEVONSHIRE	PROV	DETACH
LEXENTRY:	DEVONSHIRE	DEVONSHIRE	PROV	DETACH
LEXENTRY:	DFD	DYFED	PROV	DETACH
LEXENTRY:	DFS	DUMFRIES-SHIRE	PROV	DETACH
LEXENTRY:	DGY	DUMFRIES AND GALLOWAY	PROV	DETACH
LEXENTRY:	DNB	DUNBARTONSHIRE	PROV	DETACH
LEXENTRY:	DO DURHAM	DURHAM	PROV	DETACH
LEXENTRY:	DOR	DORSET	PROV	DETACH
LEXENTRY:	DORSET	DORSET	PROV	DETACH
LEXENTRY:	DOW	CO. DOWN	PROV	DETACH
LEXENTRY:	DR	DRIVE	TYPE	DET_SUF
LEXENTRY:	DRIVE	DRIVE	TYPE	DET_SUF
LEXENTRY:	DROVE	DROVE	TYPE	DET_SUF
LEXENTRY:	DUMFRIES & SHIRE	DUMFRIES-SHIRE	PROV	DETACH
LEXENTRY:	DUMFRIES AND GALLOWAY	DUMFRIES AND GALLOWAY	PROV	DETACH
LEXENTRY:	DUMFRIES&SHIRE	DUMFRIES-SHIRE	PROV	DETACH
LEXENTRY:	DUMFRIES-SHIRE	DUMFRIES-SHIRE	PROV	DETACH
LEXENTRY:	DUNBARTONSHIRE	DUNBARTONSHIRE	PROV	DETACH
LEXENTRY:	DUR	DURHAM	PROV	DETACH
LEXENTRY:	DURHAM	DURHAM	PROV	DETACH
LEXENTRY:	DYFED	DYFED	PROV	DETACH
LEXENTRY:	E	E	DIRECT	DETACH
LEXENTRY:	E SUSSEX	EAST SUSSEX	PROV	DETACH
LEXENTRY:	E SUSX	EAST SUSSEX	PROV	DETACH
LEXENTRY:	EAST	E	DIRECT	DETACH
LEXENTRY:	EAST LOTHIAN	EAST LOTHIAN	PROV	DETACH
LEXENTRY:	EAST RIDING OF YORKSHIRE	EAST RIDING OF YORKSHIRE	PROV	DETACH
LEXENTRY:	EAST SUSSEX	EAST SUSSEX	PROV	DETACH
LEXENTRY:	EIGHT	8	NUMBER	DETACH
LEXENTRY:	EIGHTEEN	18	NUMBER	DETACH
LEXENTRY:	EIGHTEENTH	18TH	WORD,ORD	DETACH
LEXENTRY:	EIGHTH	8TH	WORD,ORD	DETACH
LEXENTRY:	EIGHTIETH	80TH	WORD,ORD	DETACH
LEXENTRY:	EIGHTY	80	NUMBER	DETACH
LEXENTRY:	ELEVEN	11	NUMBER	DETACH
LEXENTRY:	ELEVENTH	11TH	WORD,ORD	DETACH
LEXENTRY:	ELN	EAST LOTHIAN	PROV	DETACH
LEXENTRY:	EMBANKMENT	EMBANKMENT	TYPE	DET_SUF
LEXENTRY:	END	END	TYPE	DET_SUF
LEXENTRY:	ENGLAND	UNITED KINGDOM OF GREAT BRITAIN	NATION	DETACH
LEXENTRY:	ERY	EAST RIDING OF YORKSHIRE	PROV	DETACH
LEXENTRY:	ESS	ESSEX	PROV	DETACH
LEXENTRY:	ESSEX	ESSEX	PROV	DETACH
LEXENTRY:	ESTATE	ESTATE	TYPE	DET_SUF
LEXENTRY:	F	F	UNITH	DETACH
LEXENTRY:	FACTORY	FY	UNITH	DETACH
LEXENTRY:	FER	CO. FERMANAGH	PROV	DETACH
LEXENTRY:	FIELD	FIELD	TYPE	DET_SUF
LEXENTRY:	FIELDS	FIELDS	TYPE	DET_SUF
LEXENTRY:	FIF	FIFE	PROV	DETACH
LEXENTRY:	FIFE	FIFE	PROV	DETACH
LEXENTRY:	FIFTEEN	15	NUMBER	DETACH
LEXENTRY:	FIFTEENTH	15TH	WORD,ORD	DETACH
LEXENTRY:	FIFTH	5TH	WORD,ORD	DETACH
LEXENTRY:	FIFTIETH	50TH	WORD,ORD	DETACH
LEXENTRY:	FIFTY	50	NUMBER	DETACH
LEXENTRY:	FIRST	1ST	WORD,ORD	DETACH
LEXENTRY:	FIVE	5	NUMBER	DETACH
LEXENTRY:	FLAT	F	UNITH	DETACH
LEXENTRY:	FLINTSHIRE	FLINTSHIRE	PROV	DETACH
LEXENTRY:	FLN	FLINTSHIRE	PROV	DETACH
LEXENTRY:	FLOOR	FLOOR	UNITH	DETACH
";
"LEXENTRY:	GROUND	GROUND	UNITT	DETACH
LEXENTRY:	G	GROUND	UNITT	DETACH
LEXENTRY:	LOWER GROUND	LOWER GROUND	UNITT	DETACH
LEXENTRY:	LG	LOWER GROUND	UNITT	DETACH
LEXENTRY:	UPPER GROUND	UPPER GROUND	UNITT	DETACH
LEXENTRY:	UG	UPPER GROUND	UNITT	DETACH
LEXENTRY:	FOLD	FOLD	TYPE	DET_SUF
LEXENTRY:	FORTIETH	40TH	WORD,ORD	DETACH
LEXENTRY:	FORTY	40	NUMBER	DETACH
LEXENTRY:	FOUR	4	NUMBER	DETACH
LEXENTRY:	FOURTEEN	14	NUMBER	DETACH
LEXENTRY:	FOURTEENTH	14TH	WORD,ORD	DETACH
LEXENTRY:	FOURTH	4TH	WORD,ORD	DETACH
LEXENTRY:	FOUTH	4TH	WORD,ORD	DETACH
LEXENTRY:	FY	FY	UNITH	DETACH
LEXENTRY:	GARDEN	GARDEN	TYPE	DET_SUF
LEXENTRY:	GARDENS	GARDENS	TYPE	DET_SUF
LEXENTRY:	GATE	GATE	TYPE	DET_SUF
LEXENTRY:	GB	UNITED KINGDOM OF GREAT BRITAIN	NATION	DETACH
LEXENTRY:	GBR	UNITED KINGDOM OF GREAT BRITAIN	NATION	DETACH
LEXENTRY:	GLA	GLAMORGAN	PROV	DETACH
LEXENTRY:	GLADE	GLADE	TYPE	DET_SUF
LEXENTRY:	GLAMORGAN	GLAMORGAN	PROV	DETACH
LEXENTRY:	GLOS	GLOUCESTERSHIRE	PROV	DETACH
LEXENTRY:	GLOUC	GLOUCESTERSHIRE	PROV	DETACH
LEXENTRY:	GLOUCESTERSHIRE	GLOUCESTERSHIRE	PROV	DETACH
LEXENTRY:	GLS	GLOUCESTERSHIRE	PROV	DETACH
LEXENTRY:	GMP	GRAMPIAN	PROV	DETACH
LEXENTRY:	GNT	GWENT	PROV	DETACH
LEXENTRY:	GR	GROVE	TYPE	DET_SUF
LEXENTRY:	GRAMP	GRAMPIAN	PROV	DETACH
LEXENTRY:	GRAMPIAN	GRAMPIAN	PROV	DETACH
LEXENTRY:	GRANGE	GRANGE	TYPE	DET_SUF
LEXENTRY:	GREAT BRITAIN	UNITED KINGDOM OF GREAT BRITAIN	NATION	DETACH
LEXENTRY:	GREATER MANCHESTER	GREATER MANCHESTER	PROV	DETACH
LEXENTRY:	GROVE	GROVE	TYPE	DET_SUF
LEXENTRY:	GSY	GUERNSEY	PROV	DETACH
LEXENTRY:	GT MAN	GREATER MANCHESTER	PROV	DETACH
LEXENTRY:	GTM	GREATER MANCHESTER	PROV	DETACH
LEXENTRY:	GUERN	GUERNSEY	PROV	DETACH
LEXENTRY:	GUERNSEY	GUERNSEY	PROV	DETACH
LEXENTRY:	GWENT	GWENT	PROV	DETACH
LEXENTRY:	GWN	GWYNEDD	PROV	DETACH
LEXENTRY:	GWYNEDD	GWYNEDD	PROV	DETACH
LEXENTRY:	H & W	HEREFORD AND WORCESTER	PROV	DETACH
LEXENTRY:	H&W	HEREFORD AND WORCESTER	PROV	DETACH
LEXENTRY:	HAM	HAMPSHIRE	PROV	DETACH
LEXENTRY:	HAMPSHIRE	HAMPSHIRE	PROV	DETACH
LEXENTRY:	HANTS	HAMPSHIRE	PROV	DETACH
LEXENTRY:	HEATH	HEATH	TYPE	DET_SUF
LEXENTRY:	HEF	HEREFORDSHIRE	PROV	DETACH
LEXENTRY:	HEREFORD AND WORCESTER	HEREFORD AND WORCESTER	PROV	DETACH
LEXENTRY:	HEREFORDSHIRE	HEREFORDSHIRE	PROV	DETACH
LEXENTRY:	HERTFORDSHIRE	HERTFORDSHIRE	PROV	DETACH
LEXENTRY:	HERTS	HERTFORDSHIRE	PROV	DETACH
LEXENTRY:	HIGHLAND	HIGHLAND	PROV	DETACH
LEXENTRY:	HIGHLD	HIGHLAND	PROV	DETACH
LEXENTRY:	HIGHWAY	HIGHWAY	TYPE	DET_SUF
LEXENTRY:	HILL	HILL	TYPE	DET_SUF
LEXENTRY:	HLD	HIGHLAND	PROV	DETACH
LEXENTRY:	HOUSES	HOUSES	TYPE	DET_SUF
";
"LEXENTRY:	HRT	HERTFORDSHIRE	PROV	DETACH
LEXENTRY:	HUM	HUMBERSIDE	PROV	DETACH
LEXENTRY:	HUMB	HUMBERSIDE	PROV	DETACH
LEXENTRY:	HUMBERSIDE	HUMBERSIDE	PROV	DETACH
LEXENTRY:	HUN	HUNTINGDONSHIRE	PROV	DETACH
LEXENTRY:	HUNTINGDONSHIRE	HUNTINGDONSHIRE	PROV	DETACH
LEXENTRY:	HWR	HEREFORD AND WORCESTER	PROV	DETACH
LEXENTRY:	HWY	HIGHWAY	TYPE	DET_SUF
LEXENTRY:	INV	INVERNESS-SHIRE	PROV	DETACH
LEXENTRY:	INVERNESS-SHIRE	INVERNESS-SHIRE	PROV	DETACH
LEXENTRY:	IOM	ISLE OF MAN	PROV	DETACH
LEXENTRY:	IOS	ISLES OF SCILLY	PROV	DETACH
LEXENTRY:	IOW	ISLE OF WIGHT	PROV	DETACH
LEXENTRY:	ISLE OF MAN	ISLE OF MAN	PROV	DETACH
LEXENTRY:	ISLE OF WIGHT	ISLE OF WIGHT	PROV	DETACH
LEXENTRY:	ISLES OF SCILLY	ISLES OF SCILLY	PROV	DETACH
LEXENTRY:	JERSEY	JERSEY	PROV	DETACH
LEXENTRY:	JSY	JERSEY	PROV	DETACH
LEXENTRY:	KCD	KINCARDINESHIRE	PROV	DETACH
LEXENTRY:	KEN	KENT	PROV	DETACH
LEXENTRY:	KENT	KENT	PROV	DETACH
LEXENTRY:	KINCARDINESHIRE	KINCARDINESHIRE	PROV	DETACH
LEXENTRY:	KINROSS-SHIRE	KINROSS-SHIRE	PROV	DETACH
LEXENTRY:	KIRKCUDBRIGHTSHIRE	KIRKCUDBRIGHTSHIRE	PROV	DETACH
LEXENTRY:	KKD	KIRKCUDBRIGHTSHIRE	PROV	DETACH
LEXENTRY:	KRS	KINROSS-SHIRE	PROV	DETACH
LEXENTRY:	L	L	UNITH	DETACH
LEXENTRY:	LAN	LANCASHIRE	PROV	DETACH
LEXENTRY:	LANARKSHIRE	LANARKSHIRE	PROV	DETACH
LEXENTRY:	LANCASHIRE	LANCASHIRE	PROV	DETACH
LEXENTRY:	LANCS	LANCASHIRE	PROV	DETACH
LEXENTRY:	LANE	LANE	TYPE	DET_SUF
LEXENTRY:	LAWN	LAWN	TYPE	DET_SUF
LEXENTRY:	LDY	LONDONDERRY	PROV	DETACH
LEXENTRY:	LEI	LEICESTERSHIRE	PROV	DETACH
LEXENTRY:	LEICESTERSHIRE	LEICESTERSHIRE	PROV	DETACH
LEXENTRY:	LEICS	LEICESTERSHIRE	PROV	DETACH
LEXENTRY:	LEVEL	L	UNITH	DETACH
LEXENTRY:	LIMITED	LIMITED	PLACEN	DETACH
LEXENTRY:	LIN	LINCOLNSHIRE	PROV	DETACH
LEXENTRY:	LINCOLNSHIRE	LINCOLNSHIRE	PROV	DETACH
LEXENTRY:	LINCS	LINCOLNSHIRE	PROV	DETACH
LEXENTRY:	LKS	LANARKSHIRE	PROV	DETACH
LEXENTRY:	LN	LANE	TYPE	DET_SUF
LEXENTRY:	LONDON	LONDON	PROV	DETACH
LEXENTRY:	LONDONDERRY	LONDONDERRY	PROV	DETACH
LEXENTRY:	LOTH	LOTHIAN	PROV	DETACH
LEXENTRY:	LOTHIAN	LOTHIAN	PROV	DETACH
LEXENTRY:	LTD	LTD	PLACEN	DETACH
LEXENTRY:	LTN	LOTHIAN	PROV	DETACH
LEXENTRY:	M	M	UNITH	DETACH
LEXENTRY:	M GLAM	MID GLAMORGAN	PROV	DETACH
LEXENTRY:	MARINE BERTH	MB	UNITH	DETACH
LEXENTRY:	MARKET	MARKET	TYPE	DET_SUF
LEXENTRY:	MB	MB	UNITH	DETACH
LEXENTRY:	MDX	MIDDLESEX	PROV	DETACH
LEXENTRY:	MEAD	MEADOW	TYPE	DET_SUF
LEXENTRY:	MEADOW	MEADOW	TYPE	DET_SUF
LEXENTRY:	MEADOWS	MEADOWS	TYPE	DET_SUF
LEXENTRY:	MER	MERIONETHSHIRE	PROV	DETACH
LEXENTRY:	MERIONETHSHIRE	MERIONETHSHIRE	PROV	DETACH
";
"LEXENTRY:	MERSEYSIDE	MERSEYSIDE	PROV	DETACH
LEXENTRY:	MERSYD	MERSEYSIDE	PROV	DETACH
LEXENTRY:	MEWS	MEWS	TYPE	DET_SUF
LEXENTRY:	MEZZANINE	M	UNITH	DETACH
LEXENTRY:	MGM	MID GLAMORGAN	PROV	DETACH
LEXENTRY:	MGY	MONTGOMERYSHIRE	PROV	DETACH
LEXENTRY:	MID GLAMORGAN	MID GLAMORGAN	PROV	DETACH
LEXENTRY:	MIDDLESEX	MIDDLESEX	PROV	DETACH
LEXENTRY:	MIDDX	MIDDLESEX	PROV	DETACH
LEXENTRY:	MIDLOTHIAN	MIDLOTHIAN	PROV	DETACH
LEXENTRY:	MLN	MIDLOTHIAN	PROV	DETACH
LEXENTRY:	MON	MONMOUTHSHIRE	PROV	DETACH
LEXENTRY:	MONMOUTHSHIRE	MONMOUTHSHIRE	PROV	DETACH
LEXENTRY:	MONTGOMERYSHIRE	MONTGOMERYSHIRE	PROV	DETACH
LEXENTRY:	MOR	MORAYSHIRE	PROV	DETACH
LEXENTRY:	MORAYSHIRE	MORAYSHIRE	PROV	DETACH
LEXENTRY:	MOUNT	MOUNT	TYPE	DET_SUF
LEXENTRY:	MSY	MERSEYSIDE	PROV	DETACH
LEXENTRY:	N	N	DIRECT	DETACH
LEXENTRY:	N HUMB	N HUMBERSIDE	PROV	DETACH
LEXENTRY:	N YORK	NORTH YORKSHIRE	PROV	DETACH
LEXENTRY:	N YORKSHIRE	NORTH YORKSHIRE	PROV	DETACH
LEXENTRY:	NAI	NAIRN	PROV	DETACH
LEXENTRY:	NAIRN	NAIRN	PROV	DETACH
LEXENTRY:	NBL	NORTHUMBERLAND	PROV	DETACH
LEXENTRY:	NE	NE	DIRECT	DETACH
LEXENTRY:	NFK	NORFOLK	PROV	DETACH
LEXENTRY:	NHANTS	NORTHAMPTONSHIRE	PROV	DETACH
LEXENTRY:	NINE	9	NUMBER	DETACH
LEXENTRY:	NINETEEN	19	NUMBER	DETACH
LEXENTRY:	NINETEENTH	19TH	WORD,ORD	DETACH
LEXENTRY:	NINETIETH	90TH	WORD,ORD	DETACH
LEXENTRY:	NINETY	90	NUMBER	DETACH
LEXENTRY:	NINTH	9TH	WORD,ORD	DETACH
LEXENTRY:	NORFK	NORFOLK	PROV	DETACH
LEXENTRY:	NORFOLK	NORFOLK	PROV	DETACH
LEXENTRY:	NORTH	N	DIRECT	DETACH
LEXENTRY:	NORTH HUMBERSIDE	N HUMBERSIDE	PROV	DETACH
LEXENTRY:	NORTH IRELAND	UNITED KINGDOM OF GREAT BRITAIN	NATION	DETACH
LEXENTRY:	NORTH RIDING OF YORKSHIRE	NORTH RIDING OF YORKSHIRE	PROV	DETACH
LEXENTRY:	NORTH YORKSHIRE	NORTH YORKSHIRE	PROV	DETACH
LEXENTRY:	NORTHAMPTONSHIRE	NORTHAMPTONSHIRE	PROV	DETACH
LEXENTRY:	NORTHANTS	NORTHAMPTONSHIRE	PROV	DETACH
LEXENTRY:	NORTHD	NORTHAMPTONSHIRE	PROV	DETACH
LEXENTRY:	NORTHEAST	NE	DIRECT	DETACH
LEXENTRY:	NORTHUMBERLAND	NORTHUMBERLAND	PROV	DETACH
LEXENTRY:	NORTHWEST	NW	DIRECT	DETACH
LEXENTRY:	NOTTINGHAMSHIRE	NOTTINGHAMSHIRE	PROV	DETACH
LEXENTRY:	NOTTS	NOTTINGHAMSHIRE	PROV	DETACH
LEXENTRY:	NRY	NORTH RIDING OF YORKSHIRE	PROV	DETACH
LEXENTRY:	NTH	NORTHAMPTONSHIRE	PROV	DETACH
LEXENTRY:	NTHUMB	NORTHUMBERLAND	PROV	DETACH
LEXENTRY:	NTT	NOTTINGHAMSHIRE	PROV	DETACH
LEXENTRY:	NW	NW	DIRECT	DETACH
LEXENTRY:	NYK	NORTH YORKSHIRE	PROV	DETACH
LEXENTRY:	OFF	OFF	UNITH	DETACH
LEXENTRY:	OFFICE	OFF	UNITH	DETACH
LEXENTRY:	OKI	ORKNEY	PROV	DETACH
LEXENTRY:	ONE	1	NUMBER	DETACH
LEXENTRY:	ORCHARD	ORCHARD	TYPE	DET_SUF
";
"LEXENTRY:	ORK	ORKNEY	PROV	DETACH
LEXENTRY:	ORKNEY	ORKNEY	PROV	DETACH
LEXENTRY:	OVAL	OVAL	TYPE	DET_SUF
LEXENTRY:	OXF	OXFORDSHIRE	PROV	DETACH
LEXENTRY:	OXFORDSHIRE	OXFORDSHIRE	PROV	DETACH
LEXENTRY:	OXON	OXFORDSHIRE	PROV	DETACH
LEXENTRY:	P.O.	PO BOX	BOXH	DETACH
LEXENTRY:	P.O. BOX	PO BOX	BOXH	DETACH
LEXENTRY:	PADDOCK	PADDOCK	TYPE	DET_SUF
LEXENTRY:	PARADE	PARADE	TYPE	DET_SUF
LEXENTRY:	PARK	PARK	TYPE	DET_SUF
LEXENTRY:	PARKWAY	PARKWAY	TYPE	DET_SUF
LEXENTRY:	PARTNERSHIP	PARTNERSHIP	PLACEN	DETACH
LEXENTRY:	PASSAGE	PASSAGE	TYPE	DET_SUF
LEXENTRY:	PATH	PATH	TYPE	DET_SUF
LEXENTRY:	PDE	PARADE	TYPE	DET_SUF
LEXENTRY:	PEE	PEEBLES-SHIRE	PROV	DETACH
LEXENTRY:	PEEBLES-SHIRE	PEEBLES-SHIRE	PROV	DETACH
LEXENTRY:	PEM	PEMBROKESHIRE	PROV	DETACH
LEXENTRY:	PEMBROKESHIRE	PEMBROKESHIRE	PROV	DETACH
LEXENTRY:	PER	PERTH	PROV	DETACH
LEXENTRY:	PERTH	PERTH	PROV	DETACH
LEXENTRY:	PK	PARK	TYPE	DET_SUF
LEXENTRY:	PKWY	PARKWAY	TYPE	DET_SUF
LEXENTRY:	PL	PLACE	TYPE	DET_SUF
LEXENTRY:	PLACE	PLACE	TYPE	DET_SUF
LEXENTRY:	PLC	PLC	PLACEN	DETACH
LEXENTRY:	PO	PO BOX	BOXH	DETACH
LEXENTRY:	PO BOX	PO BOX	BOXH	DETACH
LEXENTRY:	POST OFFICE BOX	PO BOX	BOXH	DETACH
LEXENTRY:	POW	POWYS	PROV	DETACH
LEXENTRY:	POWYS	POWYS	PROV	DETACH
LEXENTRY:	PRECINCT	PRECINCT	TYPE	DET_SUF
LEXENTRY:	PROMENADE	PROMENADE	TYPE	DET_SUF
LEXENTRY:	PROPRIETORSHIP	PROPRIETORSHIP	PLACEN	DETACH
LEXENTRY:	QUAY	QUAY	TYPE	DET_SUF
LEXENTRY:	QUAY 	QUAY	TYPE	DET_SUF
LEXENTRY:	RAD	RADNORSHIRE	PROV	DETACH
LEXENTRY:	RADNORSHIRE	RADNORSHIRE	PROV	DETACH
LEXENTRY:	RD	ROAD	TYPE	DET_SUF
LEXENTRY:	RENFREWSHIRE	RENFREWSHIRE	PROV	DETACH
LEXENTRY:	RFW	RENFREWSHIRE	PROV	DETACH
LEXENTRY:	RIDE	RIDE	TYPE	DET_SUF
LEXENTRY:	RIDGE	RIDGE	TYPE	DET_SUF
LEXENTRY:	RISE	RISE	TYPE	DET_SUF
LEXENTRY:	RM	RM	UNITH	DETACH
LEXENTRY:	ROAD	ROAD	TYPE	DET_SUF
LEXENTRY:	ROC	ROSS AND CROMARTY	PROV	DETACH
LEXENTRY:	ROOM	RM	UNITH	DETACH
LEXENTRY:	ROSS AND CROMARTY	ROSS AND CROMARTY	PROV	DETACH
LEXENTRY:	ROW	ROW	TYPE	DET_SUF
LEXENTRY:	ROX	ROXBURGHSHIRE	PROV	DETACH
LEXENTRY:	ROXBURGHSHIRE	ROXBURGHSHIRE	PROV	DETACH
LEXENTRY:	RUT	RUTLAND	PROV	DETACH
LEXENTRY:	RUTLAND	RUTLAND	PROV	DETACH
LEXENTRY:	S	S	DIRECT	DETACH
LEXENTRY:	S GLAM	SOUTH GLAMORGAN	PROV	DETACH
LEXENTRY:	S HUMB	S HUMBERSIDE	PROV	DETACH
LEXENTRY:	S YORK	SOUTH YORKSHIRE	PROV	DETACH
LEXENTRY:	S YORKSHIRE	SOUTH YORKSHIRE	PROV	DETACH
LEXENTRY:	SAINT	ST	WORD	DETACH
LEXENTRY:	SAL	SHROPSHIRE	PROV	DETACH
LEXENTRY:	SARK	SARK	PROV	DETACH
LEXENTRY:	SCOTLAND	UNITED KINGDOM OF GREAT BRITAIN	NATION	DETACH
LEXENTRY:	SE	SE	DIRECT,UNITH	DETACH
";
"LEXENTRY:	SECOND	2ND	WORD,ORD	DETACH
LEXENTRY:	SEL	SELKIRKSHIRE	PROV	DETACH
LEXENTRY:	SELKIRKSHIRE	SELKIRKSHIRE	PROV	DETACH
LEXENTRY:	SEVEN	7	NUMBER	DETACH
LEXENTRY:	SEVENTEEN	17	NUMBER	DETACH
LEXENTRY:	SEVENTEENTH	17TH	WORD,ORD	DETACH
LEXENTRY:	SEVENTH	7TH	WORD,ORD	DETACH
LEXENTRY:	SEVENTIETH	70TH	WORD,ORD	DETACH
LEXENTRY:	SEVENTY	70	NUMBER	DETACH
LEXENTRY:	SFK	SUFFOLK	PROV	DETACH
LEXENTRY:	SGM	SOUTH GLAMORGAN	PROV	DETACH
LEXENTRY:	SHED	SHED	UNITH	DETACH
LEXENTRY:	SHED 	SHED	UNITH	DETACH
LEXENTRY:	SHET	SHETLAND	PROV	DETACH
LEXENTRY:	SHETLAND	SHETLAND	PROV	DETACH
LEXENTRY:	SHI	SHETLAND	PROV	DETACH
LEXENTRY:	SHOP	SHOP	UNITH	DETACH
LEXENTRY:	SHROPS	SHROPSHIRE	PROV	DETACH
LEXENTRY:	SHROPSHIRE	SHROPSHIRE	PROV	DETACH
LEXENTRY:	SITE	SITE	UNITH	DETACH
LEXENTRY:	SITE	SE	UNITH	DETACH
LEXENTRY:	SIX	6	NUMBER	DETACH
LEXENTRY:	SIXTEEN	16	NUMBER	DETACH
LEXENTRY:	SIXTEENTH	16TH	WORD,ORD	DETACH
LEXENTRY:	SIXTH	6TH	WORD,ORD	DETACH
LEXENTRY:	SIXTIETH	60TH	WORD,ORD	DETACH
LEXENTRY:	SIXTY	60	NUMBER	DETACH
LEXENTRY:	SL	SL	UNITH	DETACH
LEXENTRY:	SOCIETY	SOCIETY	PLACEN	DETACH
LEXENTRY:	SOM	SOMERSETSHIRE	PROV	DETACH
LEXENTRY:	SOMERSET	SOMERSETSHIRE	PROV	DETACH
LEXENTRY:	SOMERSETSHIRE	SOMERSETSHIRE	PROV	DETACH
LEXENTRY:	SOMSET	SOMERSETSHIRE	PROV	DETACH
LEXENTRY:	SOUTH	S	DIRECT	DETACH
LEXENTRY:	SOUTH GLAMORGAN	SOUTH GLAMORGAN	PROV	DETACH
LEXENTRY:	SOUTH HUMBERSIDE	S HUMBERSIDE	PROV	DETACH
LEXENTRY:	SOUTH YORKSHIRE	SOUTH YORKSHIRE	PROV	DETACH
LEXENTRY:	SOUTHEAST	SE	DIRECT	DETACH
LEXENTRY:	SOUTHWEST	SW	DIRECT	DETACH
LEXENTRY:	SQ	SQUARE	TYPE	DET_SUF
LEXENTRY:	SQUARE	SQUARE	TYPE	DET_SUF
LEXENTRY:	SRK	SARK	PROV	DETACH
LEXENTRY:	SRY	SURREY	PROV	DETACH
LEXENTRY:	SSX	SUSSEX	PROV	DETACH
LEXENTRY:	ST	STREET	TYPE	DET_SUF
LEXENTRY:	ST	ST	WORD	DETACH
LEXENTRY:	ST.	ST	WORD	DETACH
LEXENTRY:	STAFFORDSHIRE	STAFFORDSHIRE	PROV	DETACH
LEXENTRY:	STAFFS	STAFFORDSHIRE	PROV	DETACH
LEXENTRY:	STALL	SL	UNITH	DETACH
LEXENTRY:	STD	STRATHCLYDE	PROV	DETACH
LEXENTRY:	STE	STE	UNITH	DETACH
LEXENTRY:	STI	STIRLINGSHIRE	PROV	DETACH
LEXENTRY:	STIRLINGSHIRE	STIRLINGSHIRE	PROV	DETACH
LEXENTRY:	STR	STREET	TYPE	DET_SUF
LEXENTRY:	STRAND	STRAND	TYPE	DET_SUF
LEXENTRY:	STRATH	STRATHCLYDE	PROV	DETACH
LEXENTRY:	STRATHCLYDE	STRATHCLYDE	PROV	DETACH
LEXENTRY:	STREET	STREET	TYPE	DET_SUF
LEXENTRY:	STS	STAFFORDSHIRE	PROV	DETACH
LEXENTRY:	SUFFK	SUFFOLK	PROV	DETACH
LEXENTRY:	SUFFOLK	SUFFOLK	PROV	DETACH
LEXENTRY:	SUITE	STE	UNITH	DETACH
LEXENTRY:	SURREY	SURREY	PROV	DETACH
LEXENTRY:	SUSSEX	SUSSEX	PROV	DETACH
";
"LEXENTRY:	SUT	SUTHERLAND	PROV	DETACH
LEXENTRY:	SUTHERLAND	SUTHERLAND	PROV	DETACH
LEXENTRY:	SW	SW	DIRECT	DETACH
LEXENTRY:	SXE	EAST SUSSEX	PROV	DETACH
LEXENTRY:	SXW	WEST SUSSEX	PROV	DETACH
LEXENTRY:	SYK	SOUTH YORKSHIRE	PROV	DETACH
LEXENTRY:	T & W	TYNE AND WEAR	PROV	DETACH
LEXENTRY:	T&W	TYNE AND WEAR	PROV	DETACH
LEXENTRY:	TAY	TAYSIDE	PROV	DETACH
LEXENTRY:	TAYS	TAYSIDE	PROV	DETACH
LEXENTRY:	TAYSIDE	TAYSIDE	PROV	DETACH
LEXENTRY:	TCE	TERRACE	TYPE	DET_SUF
LEXENTRY:	TEN	10	NUMBER	DETACH
LEXENTRY:	TENTH	10TH	WORD,ORD	DETACH
LEXENTRY:	TERRACE	TERRACE	TYPE	DET_SUF
LEXENTRY:	THIRD	3RD	WORD,ORD	DETACH
LEXENTRY:	THIRTEEN	13	NUMBER	DETACH
LEXENTRY:	THIRTEENTH	13TH	WORD,ORD	DETACH
LEXENTRY:	THIRTIETH	30TH	WORD,ORD	DETACH
LEXENTRY:	THIRTY	30	NUMBER	DETACH
LEXENTRY:	THREE	3	NUMBER	DETACH
LEXENTRY:	TOWER	TOWER	PLACEN,WORD	DETACH
LEXENTRY:	TUNNEL	TUNNEL	TYPE	DET_SUF
LEXENTRY:	TWELFTH	12TH	WORD,ORD	DETACH
LEXENTRY:	TWELVE	12	NUMBER	DETACH
LEXENTRY:	TWENTIETH	20TH	WORD,ORD	DETACH
LEXENTRY:	TWENTY	20	NUMBER	DETACH
LEXENTRY:	TWO	2	NUMBER	DETACH
LEXENTRY:	TWR	TYNE AND WEAR	PROV	DETACH
LEXENTRY:	TYNE & WEAR	TYNE AND WEAR	PROV	DETACH
LEXENTRY:	TYNE AND WEAR	TYNE AND WEAR	PROV	DETACH
LEXENTRY:	TYR	CO. TYRONE	PROV	DETACH
LEXENTRY:	U	U	UNITH	DETACH
LEXENTRY:	UK	UNITED KINGDOM OF GREAT BRITAIN	NATION	DETACH
LEXENTRY:	UNIT	U	UNITH	DETACH
LEXENTRY:	UNITED KINGDOM	UNITED KINGDOM OF GREAT BRITAIN	NATION	DETACH
LEXENTRY:	UNITED KINGDOM OF GREAT BRITAIN	UNITED KINGDOM OF GREAT BRITAIN	NATION	DETACH
LEXENTRY:	VALE	VALE	TYPE	DET_SUF
LEXENTRY:	VALLEY	VALLEY	TYPE	DET_SUF
LEXENTRY:	VIEW	VIEW	TYPE	DET_SUF
LEXENTRY:	VILLA	VLLA	UNITH	DETACH
LEXENTRY:	VILLAS	VILLAS	TYPE	DET_SUF
LEXENTRY:	VLLA	VLLA	UNITH	DETACH
LEXENTRY:	W	W	DIRECT	DETACH
LEXENTRY:	W GLAM	WEST GLAMORGAN	PROV	DETACH
LEXENTRY:	W ISLS	WESTERN ISLES	PROV	DETACH
LEXENTRY:	W MIDLANDS	WEST MIDLANDS	PROV	DETACH
LEXENTRY:	W MIDS	WEST MIDLANDS	PROV	DETACH
LEXENTRY:	W SUSSEX	WEST SUSSEX	PROV	DETACH
LEXENTRY:	W SUSX	WEST SUSSEX	PROV	DETACH
LEXENTRY:	W YORK	WEST YORKSHIRE	PROV	DETACH
LEXENTRY:	W YORKSHIRE	WEST YORKSHIRE	PROV	DETACH
LEXENTRY:	WALES	UNITED KINGDOM OF GREAT BRITAIN	NATION	DETACH
LEXENTRY:	WALK	WALK	TYPE	DET_SUF
LEXENTRY:	WALL	WALL	TYPE	DET_SUF
LEXENTRY:	WAR	WARWICKSHIRE	PROV	DETACH
LEXENTRY:	WAREHOUSE	WE	UNITH	DETACH
LEXENTRY:	WARKS	WARWICKSHIRE	PROV	DETACH
LEXENTRY:	WARWICKSHIRE	WARWICKSHIRE	PROV	DETACH
LEXENTRY:	WARWKS	WARWICKSHIRE	PROV	DETACH
LEXENTRY:	WAY	WAY	TYPE	DET_SUF
LEXENTRY:	WE	WE	UNITH	DETACH
";
"LEXENTRY:	WES	WESTMORLAND	PROV	DETACH
LEXENTRY:	WEST	W	DIRECT	DETACH
LEXENTRY:	WEST GLAMORGAN	WEST GLAMORGAN	PROV	DETACH
LEXENTRY:	WEST LOTHIAN	WEST LOTHIAN	PROV	DETACH
LEXENTRY:	WEST MIDLANDS	WEST MIDLANDS	PROV	DETACH
LEXENTRY:	WEST RIDING OF YORKSHIRE	WEST RIDING OF YORKSHIRE	PROV	DETACH
LEXENTRY:	WEST SUSSEX	WEST SUSSEX	PROV	DETACH
LEXENTRY:	WEST YORKSHIRE	WEST YORKSHIRE	PROV	DETACH
LEXENTRY:	WESTERN ISLES	WESTERN ISLES	PROV	DETACH
LEXENTRY:	WESTMORLAND	WESTMORLAND	PROV	DETACH
LEXENTRY:	WGM	WEST GLAMORGAN	PROV	DETACH
LEXENTRY:	WHARF	WHARF	TYPE	DET_SUF
LEXENTRY:	WIG	WIGTOWNSHIRE	PROV	DETACH
LEXENTRY:	WIGTOWNSHIRE	WIGTOWNSHIRE	PROV	DETACH
LEXENTRY:	WIL	WILTSHIRE	PROV	DETACH
LEXENTRY:	WILTS	WILTSHIRE	PROV	DETACH
LEXENTRY:	WILTSHIRE	WILTSHIRE	PROV	DETACH
LEXENTRY:	WIS	WESTERN ISLES	PROV	DETACH
LEXENTRY:	WLN	WEST LOTHIAN	PROV	DETACH
LEXENTRY:	WMD	WEST MIDLANDS	PROV	DETACH
LEXENTRY:	WOR	WORCESTERSHIRE	PROV	DETACH
LEXENTRY:	WORCESTERSHIRE	WORCESTERSHIRE	PROV	DETACH
LEXENTRY:	WORCS	WORCESTERSHIRE	PROV	DETACH
LEXENTRY:	WRY	WEST RIDING OF YORKSHIRE	PROV	DETACH
LEXENTRY:	WYK	WEST YORKSHIRE	PROV	DETACH
LEXENTRY:	YARD	YARD	TYPE	DET_SUF
LEXENTRY:	YKS	YORKSHIRE	PROV	DETACH
LEXENTRY:	YORKSHIRE	YORKSHIRE	PROV	DETACH
"].
(** data/sample/ireland.lex *)
Definition slex_ireland : list string :=
[
"LEXICON:	lex-ireland.txt	ENG	en_IE
LEXENTRY:	1	1	NUMBER	DETACH
LEXENTRY:	10	10	NUMBER	DETACH
LEXENTRY:	10TH	10TH	WORD,ORD	DETACH
LEXENTRY:	11	11	NUMBER	DETACH
LEXENTRY:	11TH	11TH	WORD,ORD	DETACH
LEXENTRY:	12	12	NUMBER	DETACH
LEXENTRY:	12TH	12TH	WORD,ORD	DETACH
LEXENTRY:	13	13	NUMBER	DETACH
LEXENTRY:	13TH	13TH	WORD,ORD	DETACH
LEXENTRY:	14	14	NUMBER	DETACH
LEXENTRY:	14TH	14TH	WORD,ORD	DETACH
LEXENTRY:	15	15	NUMBER	DETACH
LEXENTRY:	15TH	15TH	WORD,ORD	DETACH
LEXENTRY:	16	16	NUMBER	DETACH
LEXENTRY:	16TH	16TH	WORD,ORD	DETACH
LEXENTRY:	17	17	NUMBER	DETACH
LEXENTRY:	17TH	17TH	WORD,ORD	DETACH
LEXENTRY:	18	18	NUMBER	DETACH
LEXENTRY:	18TH	18TH	WORD,ORD	DETACH
LEXENTRY:	19	19	NUMBER	DETACH
LEXENTRY:	19TH	19TH	WORD,ORD	DETACH
LEXENTRY:	1ST	1ST	WORD,ORD	DETACH
LEXENTRY:	2	2	NUMBER	DETACH
LEXENTRY:	20	20	NUMBER	DETACH
LEXENTRY:	20TH	20TH	WORD,ORD	DETACH
LEXENTRY:	2ND	2ND	WORD,ORD	DETACH
LEXENTRY:	3	3	NUMBER	DETACH
LEXENTRY:	30	30	NUMBER	DETACH
LEXENTRY:	30TH	30TH	WORD,ORD	DETACH
LEXENTRY:	3RD	3RD	WORD,ORD	DETACH
LEXENTRY:	4	4	NUMBER	DETACH
LEXENTRY:	40	40	NUMBER	DETACH
LEXENTRY:	40TH	40TH	WORD,ORD	DETACH
LEXENTRY:	4TH	4TH	WORD,ORD	DETACH
LEXENTRY:	5	5	NUMBER	DETACH
LEXENTRY:	50	50	NUMBER	DETACH
LEXENTRY:	50TH	50TH	WORD,ORD	DETACH
LEXENTRY:	5TH	5TH	WORD,ORD	DETACH
LEXENTRY:	6	6	NUMBER	DETACH
LEXENTRY:	60	60	NUMBER	DETACH
LEXENTRY:	60TH	60TH	WORD,ORD	DETACH
LEXENTRY:	6TH	6TH	WORD,ORD	DETACH
LEXENTRY:	7	7	NUMBER	DETACH
LEXENTRY:	70	70	NUMBER	DETACH
LEXENTRY:	70TH	70TH	WORD,ORD	DETACH
LEXENTRY:	7TH	7TH	WORD,ORD	DETACH
LEXENTRY:	8	8	NUMBER	DETACH
LEXENTRY:	80	80	NUMBER	DETACH
LEXENTRY:	80TH	80TH	WORD,ORD	DETACH
LEXENTRY:	8TH	8TH	WORD,ORD	DETACH
LEXENTRY:	9	9	NUMBER	DETACH
LEXENTRY:	90	90	NUMBER	DETACH
LEXENTRY:	90TH	90TH	WORD,ORD	DETACH
LEXENTRY:	9TH	9TH	WORD,ORD	DETACH
LEXENTRY:	ALLEY	AllEY	TYPE	DET_SUF
LEXENTRY:	ALLY	AllEY	TYPE	DET_SUF
LEXENTRY:	APARTMENT	APT	UNITH	DETACH
LEXENTRY:	APPR	APPROACH	TYPE	DET_SUF
LEXENTRY:	APPROACH	APPROACH	TYPE	DET_SUF
LEXENTRY:	APT	APT	UNITH	DETACH
LEXENTRY:	ARC	ARCADE	TYPE	DET_SUF
LEXENTRY:	ARCADE	ARCADE	TYPE	DET_SUF
LEXENTRY:	AV	AVENUE	TYPE	DET_SUF
LEXENTRY:	AVE	AVENUE	TYPE	DET_SUF
LEXENTRY:	AVENUE	AVENUE	TYPE	DET_SUF
LEXENTRY:	AllEY	AllEY	TYPE	DET_SUF
LEXENTRY:	B	B	UNITH	DETACH
LEXENTRY:	BANK	BANK	TYPE	DET_SUF
LEXENTRY:	BASEMENT	B	UNITH	DETACH
LEXENTRY:	BLDG	BLDG	UNITH	DETACH
LEXENTRY:	BOULEVARD	BOULEVARD	TYPE	DET_SUF
LEXENTRY:	BRIDGE	BRIDGE	TYPE	DET_SUF
LEXENTRY:	BROADWAY	BROADWAY	TYPE	DET_SUF
LEXENTRY:	BUILDING	BLDG	UNITH	DETACH
";
"LEXENTRY:	BUILDINGS	BUILDINGS	TYPE	DET_SUF
LEXENTRY:	BUILDINS	BUILDINGS	TYPE	DET_SUF
LEXENTRY:	BVD	BOULEVARD	TYPE	DET_SUF
LEXENTRY:	CARLOW  	CO. CARLOW	PROV	DETACH
LEXENTRY:	CAUSEWAY	CAUSEWAY	TYPE	DET_SUF
LEXENTRY:	CAVAN	CO. CAVAN	PROV	DETACH
LEXENTRY:	CENTER	CENTER	PLACEN,WORD	DET_SUF
LEXENTRY:	CHASE	CHASE	TYPE	DET_SUF
LEXENTRY:	CHURCHYARD	CHURCHYARD	TYPE	DET_SUF
LEXENTRY:	CIRCLE	CIRCLE	TYPE	DET_SUF
LEXENTRY:	CIRCUS	CIRCUS	TYPE	DET_SUF
LEXENTRY:	CL	CLOSE	TYPE	DET_SUF
LEXENTRY:	CLARE	CO. CLARE	PROV	DETACH
LEXENTRY:	CLOSE	CLOSE	TYPE	DET_SUF
LEXENTRY:	CO	CO	PLACEN	DETACH
LEXENTRY:	CO-OP	CO-OP	PLACEN	DETACH
LEXENTRY:	COMPANY	COMPANY	PLACEN	DETACH
LEXENTRY:	COPPICE	COPPICE	TYPE	DET_SUF
LEXENTRY:	COPSE	COPSE	TYPE	DET_SUF
LEXENTRY:	CORK	CO. CORK	PROV	DETACH
LEXENTRY:	CORNER	CORNER	TYPE	DET_SUF
LEXENTRY:	CORP	CORP	PLACEN	DETACH
LEXENTRY:	COTTAGES	COTTAGES	TYPE	DET_SUF
LEXENTRY:	COUNTY CARLOW	CO. CARLOW	PROV	DETACH
LEXENTRY:	COUNTY CAVAN	CO. CAVAN	PROV	DETACH
LEXENTRY:	COUNTY CLARE	CO. CLARE	PROV	DETACH
LEXENTRY:	COUNTY CORK	CO. CORK	PROV	DETACH
LEXENTRY:	COUNTY DONEGAL	CO. DONEGAL	PROV	DETACH
LEXENTRY:	COUNTY DUBLIN	CO. DUBLIN	PROV	DETACH
LEXENTRY:	COUNTY GALWAY	CO. GALWAY	PROV	DETACH
LEXENTRY:	COUNTY KERRY	CO. KERRY	PROV	DETACH
LEXENTRY:	COUNTY KILDARE	CO. KILDARE	PROV	DETACH
LEXENTRY:	COUNTY KILKENNY	CO. KILKENNY	PROV	DETACH
LEXENTRY:	COUNTY LAOIS	CO. LAOIS	PROV	DETACH
LEXENTRY:	COUNTY LEITRIM	CO. LEITRIM	PROV	DETACH
LEXENTRY:	COUNTY LIMERICK	CO. LIMERICK	PROV	DETACH
LEXENTRY:	COUNTY LONGFORD	CO. LONGFORD	PROV	DETACH
LEXENTRY:	COUNTY LOUTH	CO. LOUTH	PROV	DETACH
LEXENTRY:	COUNTY MAYO	CO. MAYO	PROV	DETACH
LEXENTRY:	COUNTY MEATH	CO. MEATH	PROV	DETACH
LEXENTRY:	COUNTY MONAGHAN	CO. MONAGHAN	PROV	DETACH
LEXENTRY:	COUNTY OFFALY	CO. OFFALY	PROV	DETACH
LEXENTRY:	COUNTY ROSCOMMON	CO. ROSCOMMON	PROV	DETACH
LEXENTRY:	COUNTY SLIGO	CO. SLIGO	PROV	DETACH
LEXENTRY:	COUNTY TIPPERARY	CO. TIPPERARY	PROV	DETACH
LEXENTRY:	COUNTY WATERFORD	CO. WATERFORD	PROV	DETACH
LEXENTRY:	COUNTY WESTMEATH	CO. WESTMEATH	PROV	DETACH
LEXENTRY:	COUNTY WEXFORD	CO. WEXFORD	PROV	DETACH
LEXENTRY:	COUNTY WICKLOW	CO. WICKLOW	PROV	DETACH
LEXENTRY:	CO CARLOW	CO. CARLOW	PROV	DETACH
LEXENTRY:	CO CAVAN	CO. CAVAN	PROV	DETACH
LEXENTRY:	CO CLARE	CO. CLARE	PROV	DETACH
LEXENTRY:	CO CORK	CO. CORK	PROV	DETACH
LEXENTRY:	CO DONEGAL	CO. DONEGAL	PROV	DETACH
LEXENTRY:	CO DUBLIN	CO. DUBLIN	PROV	DETACH
LEXENTRY:	CO GALWAY	CO. GALWAY	PROV	DETACH
LEXENTRY:	CO KERRY	CO. KERRY	PROV	DETACH
";
"LEXENTRY:	CO KILDARE	CO. KILDARE	PROV	DETACH
LEXENTRY:	CO KILKENNY	CO. KILKENNY	PROV	DETACH
LEXENTRY:	CO LAOIS	CO. LAOIS	PROV	DETACH
LEXENTRY:	CO LEITRIM	CO. LEITRIM	PROV	DETACH
LEXENTRY:	CO LIMERICK	CO. LIMERICK	PROV	DETACH
LEXENTRY:	CO LONGFORD	CO. LONGFORD	PROV	DETACH
LEXENTRY:	CO LOUTH	CO. LOUTH	PROV	DETACH
LEXENTRY:	CO MAYO	CO. MAYO	PROV	DETACH
LEXENTRY:	CO MEATH	CO. MEATH	PROV	DETACH
LEXENTRY:	CO MONAGHAN	CO. MONAGHAN	PROV	DETACH
LEXENTRY:	CO OFFALY	CO. OFFALY	PROV	DETACH
LEXENTRY:	CO ROSCOMMON	CO. ROSCOMMON	PROV	DETACH
LEXENTRY:	CO SLIGO	CO. SLIGO	PROV	DETACH
LEXENTRY:	CO TIPPERARY	CO. TIPPERARY	PROV	DETACH
LEXENTRY:	CO WATERFORD	CO. WATERFORD	PROV	DETACH
LEXENTRY:	CO WESTMEATH	CO. WESTMEATH	PROV	DETACH
LEXENTRY:	CO WEXFORD	CO. WEXFORD	PROV	DETACH
LEXENTRY:	CO WICKLOW	CO. WICKLOW	PROV	DETACH
LEXENTRY:	COURT	COURT	TYPE	DET_SUF
LEXENTRY:	CPT	CPT	PLACEN	DETACH
LEXENTRY:	CRES	CRESCENT	TYPE	DET_SUF
LEXENTRY:	CRESCENT	CRESCENT	TYPE	DET_SUF
LEXENTRY:	CT	COURT	TYPE	DET_SUF
LEXENTRY:	DALE	DALE	TYPE	DET_SUF
LEXENTRY:	DONEGAL	CO. DONEGAL	PROV	DETACH
LEXENTRY:	DR	DRIVE	TYPE	DET_SUF
LEXENTRY:	DRIVE	DRIVE	TYPE	DET_SUF
LEXENTRY:	DROVE	DROVE	TYPE	DET_SUF
LEXENTRY:	DUBLIN	CO. DUBLIN	PROV	DETACH
LEXENTRY:	DUBLIN	DUBLIN	CITY,WORD	DETACH
LEXENTRY:	E	E	DIRECT	DETACH
LEXENTRY:	EAST	E	DIRECT	DETACH
LEXENTRY:	EIGHT	8	NUMBER	DETACH
LEXENTRY:	EIGHTEEN	18	NUMBER	DETACH
LEXENTRY:	EIGHTEENTH	18TH	WORD,ORD	DETACH
LEXENTRY:	EIGHTH	8TH	WORD,ORD	DETACH
LEXENTRY:	EIGHTIETH	80TH	WORD,ORD	DETACH
LEXENTRY:	EIGHTY	80	NUMBER	DETACH
LEXENTRY:	ELEVEN	11	NUMBER	DETACH
LEXENTRY:	ELEVENTH	11TH	WORD,ORD	DETACH
LEXENTRY:	EMBANKMENT	EMBANKMENT	TYPE	DET_SUF
LEXENTRY:	END	END	TYPE	DET_SUF
LEXENTRY:	ESTATE	ESTATE	TYPE	DET_SUF
LEXENTRY:	F	F	UNITH	DETACH
LEXENTRY:	FACTORY	FY	UNITH	DETACH
LEXENTRY:	FIELD	FIELD	TYPE	DET_SUF
LEXENTRY:	FIELDS	FIELDS	TYPE	DET_SUF
LEXENTRY:	FIFTEEN	15	NUMBER	DETACH
LEXENTRY:	FIFTEENTH	15TH	WORD,ORD	DETACH
LEXENTRY:	FIFTH	5TH	WORD,ORD	DETACH
LEXENTRY:	FIFTIETH	50TH	WORD,ORD	DETACH
LEXENTRY:	FIFTY	50	NUMBER	DETACH
LEXENTRY:	FIRST	1ST	WORD,ORD	DETACH
LEXENTRY:	FIVE	5	NUMBER	DETACH
LEXENTRY:	FL	FL	UNITH	DETACH
LEXENTRY:	FLAT	F	UNITH	DETACH
LEXENTRY:	FLOOR	FL	UNITH	DETACH
LEXENTRY:	FOLD	FOLD	TYPE	DET_SUF
LEXENTRY:	FORTIETH	40TH	WORD,ORD	DETACH
LEXENTRY:	FORTY	40	NUMBER	DETACH
LEXENTRY:	FOUR	4	NUMBER	DETACH
LEXENTRY:	FOURTEEN	14	NUMBER	DETACH
LEXENTRY:	FOURTEENTH	14TH	WORD,ORD	DETACH
LEXENTRY:	FOUTH	4TH	WORD,ORD	DETACH
LEXENTRY:	FY	FY	UNITH	DETACH
";
"LEXENTRY:	GALWAY	CO. GALWAY	PROV	DETACH
LEXENTRY:	GARDEN	GARDEN	TYPE	DET_SUF
LEXENTRY:	GARDENS	GARDENS	TYPE	DET_SUF
LEXENTRY:	GATE	GATE	TYPE	DET_SUF
LEXENTRY:	GLADE	GLADE	TYPE	DET_SUF
LEXENTRY:	GR	GROVE	TYPE	DET_SUF
LEXENTRY:	GRANGE	GRANGE	TYPE	DET_SUF
LEXENTRY:	GROVE	GROVE	TYPE	DET_SUF
LEXENTRY:	HEATH	HEATH	TYPE	DET_SUF
LEXENTRY:	HIGHWAY	HIGHWAY	TYPE	DET_SUF
LEXENTRY:	HILL	HILL	TYPE	DET_SUF
LEXENTRY:	HOUSES	HOUSES	TYPE	DET_SUF
LEXENTRY:	HWY	HIGHWAY	TYPE	DET_SUF
LEXENTRY:	IE	IRELAND	NATION	DETACH
LEXENTRY:	IRELAND	IRELAND	NATION	DETACH
LEXENTRY:	IRL	IRELAND	NATION	DETACH
LEXENTRY:	KERRY	CO. KERRY	PROV	DETACH
LEXENTRY:	KILDARE	CO. KILDARE	PROV	DETACH
LEXENTRY:	KILKENNY	CO. KILKENNY	PROV	DETACH
LEXENTRY:	L	L	UNITH	DETACH
LEXENTRY:	LANE	LANE	TYPE	DET_SUF
LEXENTRY:	LAOIS	CO. LAOIS	PROV	DETACH
LEXENTRY:	LAWN	LAWN	TYPE	DET_SUF
LEXENTRY:	LEITRIM	CO. LEITRIM	PROV	DETACH
LEXENTRY:	LEVEL	L	UNITH	DETACH
LEXENTRY:	LIMERICK	CO. LIMERICK	PROV	DETACH
LEXENTRY:	LIMITED	LIMITED	PLACEN	DETACH
LEXENTRY:	LN	LANE	TYPE	DET_SUF
LEXENTRY:	LONGFORD	CO. LONGFORD	PROV	DETACH
LEXENTRY:	LOUTH	CO. LOUTH	PROV	DETACH
LEXENTRY:	LTD	LTD	PLACEN	DETACH
LEXENTRY:	M	M	UNITH	DETACH
LEXENTRY:	MARINE BERTH	MB	UNITH	DETACH
LEXENTRY:	MARKET	MARKET	TYPE	DET_SUF
LEXENTRY:	MAYO	CO. MAYO	PROV	DETACH
LEXENTRY:	MB	MB	UNITH	DETACH
LEXENTRY:	MEAD	MEADOW	TYPE	DET_SUF
LEXENTRY:	MEADOW	MEADOW	TYPE	DET_SUF
LEXENTRY:	MEADOWS	MEADOWS	TYPE	DET_SUF
LEXENTRY:	MEATH	CO. MEATH	PROV	DETACH
LEXENTRY:	MEWS	MEWS	TYPE	DET_SUF
LEXENTRY:	MEZZANINE	M	UNITH	DETACH
LEXENTRY:	MONAGHAN	CO. MONAGHAN	PROV	DETACH
LEXENTRY:	MOUNT	MOUNT	TYPE	DET_SUF
LEXENTRY:	N	N	DIRECT	DETACH
LEXENTRY:	NE	NE	DIRECT	DETACH
LEXENTRY:	NINE	9	NUMBER	DETACH
LEXENTRY:	NINETEEN	19	NUMBER	DETACH
LEXENTRY:	NINETEENTH	19TH	WORD,ORD	DETACH
LEXENTRY:	NINETIETH	90TH	WORD,ORD	DETACH
LEXENTRY:	NINETY	90	NUMBER	DETACH
LEXENTRY:	NINTH	9TH	WORD,ORD	DETACH
LEXENTRY:	NORTH	N	DIRECT	DETACH
LEXENTRY:	NORTHEAST	NE	DIRECT	DETACH
LEXENTRY:	NORTHWEST	NW	DIRECT	DETACH
LEXENTRY:	NW	NW	DIRECT	DETACH
LEXENTRY:	OFF	OFF	UNITH	DETACH
LEXENTRY:	OFFALY	CO. OFFALY	PROV	DETACH
LEXENTRY:	OFFICE	OFF	UNITH	DETACH
LEXENTRY:	ONE	1	NUMBER	DETACH
LEXENTRY:	ORCHARD	ORCHARD	TYPE	DET_SUF
LEXENTRY:	OVAL	OVAL	TYPE	DET_SUF
LEXENTRY:	P.O.	PO BOX	BOXH	DETACH
LEXENTRY:	P.O. BOX	PO BOX	BOXH	DETACH
LEXENTRY:	PADDOCK	PADDOCK	TYPE	DET_SUF
LEXENTRY:	PARADE	PARADE	TYPE	DET_SUF
LEXENTRY:	PARK	PARK	TYPE	DET_SUF
LEXENTRY:	PARKWAY	PARKWAY	TYPE	DET_SUF
LEXENTRY:	PARTNERSHIP	PARTNERSHIP	PLACEN	DETACH
";
"LEXENTRY:	PASSAGE	PASSAGE	TYPE	DET_SUF
LEXENTRY:	PATH	PATH	TYPE	DET_SUF
LEXENTRY:	PDE	PARADE	TYPE	DET_SUF
LEXENTRY:	PK	PARK	TYPE	DET_SUF
LEXENTRY:	PKWY	PARKWAY	TYPE	DET_SUF
LEXENTRY:	PL	PLACE	TYPE	DET_SUF
LEXENTRY:	PLACE	PLACE	TYPE	DET_SUF
LEXENTRY:	PLC	PLC	PLACEN	DETACH
LEXENTRY:	PO	PO BOX	BOXH	DETACH
LEXENTRY:	PO BOX	PO BOX	BOXH	DETACH
LEXENTRY:	POST OFFICE BOX	PO BOX	BOXH	DETACH
LEXENTRY:	PRC	PRC	PLACEN	DETACH
LEXENTRY:	PRECINCT	PRECINCT	TYPE	DET_SUF
LEXENTRY:	PROMENADE	PROMENADE	TYPE	DET_SUF
LEXENTRY:	QUAY	QUAY	TYPE	DET_SUF
LEXENTRY:	QUAY 	QUAY	TYPE	DET_SUF
LEXENTRY:	RD	ROAD	TYPE	DET_SUF
LEXENTRY:	RIDE	RIDE	TYPE	DET_SUF
LEXENTRY:	RIDGE	RIDGE	TYPE	DET_SUF
LEXENTRY:	RISE	RISE	TYPE	DET_SUF
LEXENTRY:	RM	RM	UNITH	DETACH
LEXENTRY:	ROAD	ROAD	TYPE	DET_SUF
LEXENTRY:	ROOM	RM	UNITH	DETACH
LEXENTRY:	ROSCOMMON	CO. ROSCOMMON	PROV	DETACH
LEXENTRY:	ROW	ROW	TYPE	DET_SUF
LEXENTRY:	S	S	DIRECT	DETACH
LEXENTRY:	SE	SE	DIRECT,UNITH	DETACH
LEXENTRY:	SECOND	2ND	WORD,ORD	DETACH
LEXENTRY:	SEVEN	7	NUMBER	DETACH
LEXENTRY:	SEVENTEEN	17	NUMBER	DETACH
LEXENTRY:	SEVENTEENTH	17TH	WORD,ORD	DETACH
LEXENTRY:	SEVENTH	7TH	WORD,ORD	DETACH
LEXENTRY:	SEVENTIETH	70TH	WORD,ORD	DETACH
LEXENTRY:	SEVENTY	70	NUMBER	DETACH
LEXENTRY:	SHED	SHED	UNITH	DETACH
LEXENTRY:	SHED 	SHED	UNITH	DETACH
LEXENTRY:	SHOP	SHOP	UNITH	DETACH
LEXENTRY:	SITE	SITE	UNITH	DETACH
LEXENTRY:	SITE	SE	UNITH	DETACH
LEXENTRY:	SIX	6	NUMBER	DETACH
LEXENTRY:	SIXTEEN	16	NUMBER	DETACH
LEXENTRY:	SIXTEENTH	16TH	WORD,ORD	DETACH
LEXENTRY:	SIXTH	6TH	WORD,ORD	DETACH
LEXENTRY:	SIXTIETH	60TH	WORD,ORD	DETACH
LEXENTRY:	SIXTY	60	NUMBER	DETACH
LEXENTRY:	SL	SL	UNITH	DETACH
LEXENTRY:	SLIGO	CO. SLIGO	PROV	DETACH
LEXENTRY:	SOCIETY	SOCIETY	PLACEN	DETACH
LEXENTRY:	SOUTH	S	DIRECT	DETACH
LEXENTRY:	SOUTHEAST	SE	DIRECT	DETACH
LEXENTRY:	SOUTHWEST	SW	DIRECT	DETACH
LEXENTRY:	SQ	SQUARE	TYPE	DET_SUF
LEXENTRY:	SQUARE	SQUARE	TYPE	DET_SUF
LEXENTRY:	ST	STREET	TYPE	DET_SUF
LEXENTRY:	STALL	SL	UNITH	DETACH
LEXENTRY:	STE	STE	UNITH	DETACH
LEXENTRY:	STR	STREET	TYPE	DET_SUF
LEXENTRY:	STRAND	STRAND	TYPE	DET_SUF
LEXENTRY:	STREET	STREET	TYPE	DET_SUF
LEXENTRY:	SUITE	STE	UNITH	DETACH
LEXENTRY:	SW	SW	DIRECT	DETACH
LEXENTRY:	TCE	TERRACE	TYPE	DET_SUF
LEXENTRY:	TEN	10	NUMBER	DETACH
LEXENTRY:	TENTH	10TH	WORD,ORD	DETACH
LEXENTRY:	TEO	TEO	PLACEN	DETACH
LEXENTRY:	TEORANTA	TEORANTA	PLACEN	DETACH
LEXENTRY:	TERRACE	TERRACE	TYPE	DET_SUF
LEXENTRY:	THIRD	3RD	WORD,ORD	DETACH
LEXENTRY:	THIRTEEN	13	NUMBER	DETACH
LEXENTRY:	THIRTEENTH	13TH	WORD,ORD	DETACH
LEXENTRY:	THIRTIETH	30TH	WORD,ORD	DETACH
";
"LEXENTRY:	THIRTY	30	NUMBER	DETACH
LEXENTRY:	THREE	3	NUMBER	DETACH
LEXENTRY:	TIPPERARY	CO. TIPPERARY	PROV	DETACH
LEXENTRY:	TUNNEL	TUNNEL	TYPE	DET_SUF
LEXENTRY:	TWELFTH	12TH	WORD,ORD	DETACH
LEXENTRY:	TWELVE	12	NUMBER	DETACH
LEXENTRY:	TWENTIETH	20TH	WORD,ORD	DETACH
LEXENTRY:	TWENTY	20	NUMBER	DETACH
LEXENTRY:	TWO	2	NUMBER	DETACH
LEXENTRY:	U	U	UNITH	DETACH
LEXENTRY:	UNIT	U	UNITH	DETACH
LEXENTRY:	VALE	VALE	TYPE	DET_SUF
LEXENTRY:	VALLEY	VALLEY	TYPE	DET_SUF
LEXENTRY:	VIEW	VIEW	TYPE	DET_SUF
LEXENTRY:	VILLA	VLLA	UNITH	DETACH
LEXENTRY:	VILLAS	VILLAS	TYPE	DET_SUF
LEXENTRY:	VLLA	VLLA	UNITH	DETACH
LEXENTRY:	W	W	DIRECT	DETACH
LEXENTRY:	WALK	WALK	TYPE	DET_SUF
LEXENTRY:	WALL	WALL	TYPE	DET_SUF
LEXENTRY:	WAREHOUSE	WE	UNITH	DETACH
LEXENTRY:	WATERFORD	CO. WATERFORD	PROV	DETACH
LEXENTRY:	WAY	WAY	TYPE	DET_SUF
LEXENTRY:	WE	WE	UNITH	DETACH
LEXENTRY:	WEST	W	DIRECT	DETACH
LEXENTRY:	WESTMEATH	CO. WESTMEATH	PROV	DETACH
LEXENTRY:	WEXFORD	CO. WEXFORD	PROV	DETACH
LEXENTRY:	WHARF	WHARF	TYPE	DET_SUF
LEXENTRY:	WICKLOW	CO. WICKLOW	PROV	DETACH
LEXENTRY:	YARD	YARD	TYPE	DET_SUF
"].
(** data/sample/italy.lex *)
Definition slex_italy : list string :=
[
"LEXICON:	lex-italy.txt	ITA	it_IT	
LEXENTRY:	ACCESSO	ACCESSO	TYPE	DET_PRE
LEXENTRY:	ACCESSO A	ACCESSO A	TYPE	DET_PRE
LEXENTRY:	AG	AG	PROV	DETACH
LEXENTRY:	AGRIGENTO	AG	WORD,PROV	DETACH
LEXENTRY:	AL	AL	PROV	DETACH
LEXENTRY:	ALEJANDRIA	AL	WORD,PROV	DETACH
LEXENTRY:	ALESSANDRIA	AL	WORD,PROV	DETACH
LEXENTRY:	ALEXANDRIE	AL	WORD,PROV	DETACH
LEXENTRY:	ALLEE	ALLEE	TYPE	ATT_SUF,DET_SUF
LEXENTRY:	ALLÉE	ALLÉE	TYPE	DET_PRE
LEXENTRY:	ALTO	ALTO	TYPE	DET_PRE
LEXENTRY:	ALZAIA	ALZAIA	TYPE	DET_PRE
LEXENTRY:	AN	AN	PROV	DETACH
LEXENTRY:	ANCIENNE ROUTE DE	ANCIENNE ROUTE DE	TYPE	DET_PRE
LEXENTRY:	ANCONA	AN	WORD,PROV	DETACH
LEXENTRY:	ANCÔNE	AN	WORD,PROV	DETACH
LEXENTRY:	AO	AO	PROV	DETACH
LEXENTRY:	AOSTA	AO	WORD,PROV	DETACH
LEXENTRY:	AOSTE	AO	WORD,PROV	DETACH
LEXENTRY:	AP	AP	PROV	DETACH
LEXENTRY:	AQ	AQ	PROV	DETACH
LEXENTRY:	AR	AR	PROV	DETACH
LEXENTRY:	ARCHIVOLTO	ARCHIVOLTO	TYPE	DET_PRE
LEXENTRY:	ARCHIVOLTO DELLE	ARCHIVOLTO DELLE	TYPE	DET_PRE
LEXENTRY:	ARCHIVOLTO DI	ARCHIVOLTO DI	TYPE	DET_PRE
LEXENTRY:	ARCO	ARCO	TYPE	DET_PRE
LEXENTRY:	AREZZO	AR	WORD,PROV	DETACH
LEXENTRY:	ASCOLI PICENO	AP	WORD,PROV	DETACH
LEXENTRY:	ASSOCIAZIONE	ASSOCIAZIONE	PLACEN	DETACH
LEXENTRY:	ASTI	AT	WORD,PROV	DETACH
LEXENTRY:	AT	AT	PROV	DETACH
LEXENTRY:	AUTOSTRADA	AUTOSTRADA	TYPE	DET_PRE
LEXENTRY:	AUTOSTRADA D'	AUTOSTRADA D'	TYPE	ATT_PRE
LEXENTRY:	AUTOSTRADA DEI	AUTOSTRADA DEI	TYPE	DET_PRE
LEXENTRY:	AUTOSTRADA DEL	AUTOSTRADA DEL	TYPE	DET_PRE
LEXENTRY:	AUTOSTRADA DELLA	AUTOSTRADA DELLA	TYPE	DET_PRE
LEXENTRY:	AV	AV	PROV	DETACH
LEXENTRY:	AVELLINO	AV	WORD,PROV	DETACH
LEXENTRY:	AVENUE	AVENUE	TYPE	DET_PRE
LEXENTRY:	AVENUE DE	AVENUE DE	TYPE	DET_PRE
LEXENTRY:	AVENUE DE LA	AVENUE DE LA	TYPE	DET_PRE
LEXENTRY:	AVENUE DES	AVENUE DES	TYPE	DET_PRE
LEXENTRY:	AVENUE DU	AVENUE DU	TYPE	DET_PRE
LEXENTRY:	AZIENDA	AZIENDA	PLACEN	DETACH
LEXENTRY:	BA	BA	PROV	DETACH
LEXENTRY:	BACH	BACH	TYPE	ATT_SUF
LEXENTRY:	BACINO	BACINO	TYPE	DET_PRE
LEXENTRY:	BANCA	BANCA	PLACEN	DETACH
LEXENTRY:	BANCO	BANCO	PLACEN	DETACH
LEXENTRY:	BARI	BA 	WORD,PROV	DETACH
LEXENTRY:	BARRIERA	BARRIERA	TYPE	DET_PRE
LEXENTRY:	BASTIONE	BASTIONE	TYPE	DET_PRE
LEXENTRY:	BASTIONE DELLA	BASTIONE DELLA	TYPE	DET_PRE
LEXENTRY:	BASTIONI DI	BASTIONI DI	TYPE	DET_PRE
LEXENTRY:	BELLUNO	BL	WORD,PROV	DETACH
LEXENTRY:	BELVEDERE	BELVEDERE	TYPE	DET_PRE
LEXENTRY:	BENEVENTO	BN 	WORD,PROV	DETACH
LEXENTRY:	BERG	BERG	TYPE	ATT_SUF
LEXENTRY:	BERGAME 	BL	WORD,PROV	DETACH
LEXENTRY:	BERGAMO	BG 	WORD,PROV	DETACH
LEXENTRY:	BERGWEG	BERGWEG	TYPE	ATT_SUF
LEXENTRY:	BG	BG	PROV	DETACH
";
"LEXENTRY:	BI	BI	PROV	DETACH
LEXENTRY:	BIELLA	BI	WORD,PROV	DETACH
LEXENTRY:	BL	BL	PROV	DETACH
LEXENTRY:	BN	BN	PROV	DETACH
LEXENTRY:	BO	BO	PROV	DETACH
LEXENTRY:	BOLOGNA	BO	WORD,PROV	DETACH
LEXENTRY:	BOLOGNE	BO	WORD,PROV	DETACH
LEXENTRY:	BOLONIA	BO	WORD,PROV	DETACH
LEXENTRY:	BOLZANO	BOLZANO-BOZEN	WORD,PROV	DETACH
LEXENTRY:	BORGATA	BORGATA	TYPE	DET_PRE
LEXENTRY:	BORGO	BORGO	TYPE	DET_PRE
LEXENTRY:	BOULEVARD	BOULEVARD	TYPE	DET_PRE
LEXENTRY:	BOULEVARD DES	BOULEVARD DES	TYPE	DET_PRE
LEXENTRY:	BOZEN	BOLZANO-BOZEN	WORD,PROV	DETACH
LEXENTRY:	BR	BR	PROV	DETACH
LEXENTRY:	BRESCIA	BS	WORD,PROV	DETACH
LEXENTRY:	BRINDES	BR	WORD,PROV	DETACH
LEXENTRY:	BRINDIS	BR	WORD,PROV	DETACH
LEXENTRY:	BRINDISI	BR	WORD,PROV	DETACH
LEXENTRY:	BRÜCKE	BRÜCKE	TYPE	ATT_SUF,DET_SUF
LEXENTRY:	BS	BS	PROV	DETACH
LEXENTRY:	BT	BT	PROV	DETACH
LEXENTRY:	BURG	BURG	TYPE	ATT_SUF
LEXENTRY:	BZ	BOLZANO-BOZEN	PROV	DETACH
LEXENTRY:	BZ	BZ	PROV	DETACH
LEXENTRY:	C.DA	CONTRADA	TYPE	DET_PRE
LEXENTRY:	C.L	CALLE	TYPE	DET_PRE
LEXENTRY:	C.PO	CAMPO	TYPE	DET_PRE
LEXENTRY:	C.SO	CORSO	TYPE	DET_PRE
LEXENTRY:	CA	CA	PROV	DETACH
LEXENTRY:	CA'	CA'	TYPE	DET_PRE
LEXENTRY:	CA' DEI	CA' DEI	TYPE	DET_PRE
LEXENTRY:	CA' DEL	CA' DEL	TYPE	DET_PRE
LEXENTRY:	CA' DI	CA' DI	TYPE	DET_PRE
LEXENTRY:	CAGLIARI	CA	WORD,PROV	DETACH
LEXENTRY:	CAL	CAL	TYPE	DET_PRE
LEXENTRY:	CALATA	CALATA	TYPE	DET_PRE
LEXENTRY:	CALLE	CALLE	TYPE	DET_PRE
LEXENTRY:	CALLE DEL	CALLE DEL	TYPE	DET_PRE
LEXENTRY:	CALLER	CA	WORD,PROV	DETACH
LEXENTRY:	CALTANISSETTA	CL	WORD,PROV	DETACH
LEXENTRY:	CAMPIELLO	CAMPIELLO	TYPE	DET_PRE
LEXENTRY:	CAMPO	CAMPO	TYPE	DET_PRE
LEXENTRY:	CAMPOBASSO	CB 	WORD,PROV	DETACH
LEXENTRY:	CANTON	CANTON	TYPE	DET_PRE
LEXENTRY:	CANTONE	CANTONE	TYPE	DET_PRE
LEXENTRY:	CARRER	CARRER	TYPE	DET_PRE
LEXENTRY:	CARRER DE L'	CARRER DE L'	TYPE	ATT_PRE
LEXENTRY:	CARRER DE LA	CARRER DE LA	TYPE	DET_PRE
LEXENTRY:	CARRER DE LES	CARRER DE LES	TYPE	DET_PRE
LEXENTRY:	CARRER DEL	CARRER DEL	TYPE	DET_PRE
LEXENTRY:	CARRER DELS	CARRER DELS	TYPE	DET_PRE
LEXENTRY:	CASA	CASA	PLACEN	DETACH
LEXENTRY:	CASALE	CASALE	TYPE	DET_PRE
LEXENTRY:	CASCINA	CASCINA	TYPE	DET_PRE
LEXENTRY:	CASE	CASE	TYPE	DET_PRE
LEXENTRY:	CASE SPARSE	CASE SPARSE	TYPE	DET_PRE
LEXENTRY:	CASELLA POSTALE	CASELLA POSTALE	BOXH	DETACH
LEXENTRY:	CASERTA	CE	WORD,PROV	DETACH
LEXENTRY:	CASERTE	CE	WORD,PROV	DETACH
LEXENTRY:	CATANIA	CT 	WORD,PROV	DETACH
LEXENTRY:	CATANZARO	CZ 	WORD,PROV	DETACH
LEXENTRY:	CAVALCAVIA	CAVALCAVIA	TYPE	DET_PRE
LEXENTRY:	CB	CB	PROV	DETACH
LEXENTRY:	CE	CE	PROV	DETACH
LEXENTRY:	CH	CH	PROV	DETACH
";
"LEXENTRY:	CHEMIN	CHEMIN	TYPE	DET_PRE
LEXENTRY:	CHEMIN DE	CHEMIN DE	TYPE	DET_PRE
LEXENTRY:	CHEMIN DE L'	CHEMIN DE L'	TYPE	ATT_PRE
LEXENTRY:	CHEMIN DE LA	CHEMIN DE LA	TYPE	DET_PRE
LEXENTRY:	CHEMIN DES	CHEMIN DES	TYPE	DET_PRE
LEXENTRY:	CHEMIN DU	CHEMIN DU	TYPE	DET_PRE
LEXENTRY:	CHIASSO	CHIASSO	TYPE	DET_PRE
LEXENTRY:	CHIASSO DE'	CHIASSO DE'	TYPE	DET_PRE
LEXENTRY:	CHIASSO DEGLI	CHIASSO DEGLI	TYPE	DET_PRE
LEXENTRY:	CHIASSO DEI	CHIASSO DEI	TYPE	DET_PRE
LEXENTRY:	CHIASSO DEL	CHIASSO DEL	TYPE	DET_PRE
LEXENTRY:	CHIASSO DELLE	CHIASSO DELLE	TYPE	DET_PRE
LEXENTRY:	CHIASSO DI	CHIASSO DI	TYPE	DET_PRE
LEXENTRY:	CHIESA	CHIESA	PLACEN	DETACH
LEXENTRY:	CHIETI	CH 	WORD,PROV	DETACH
LEXENTRY:	CI	CI	PROV	DETACH
LEXENTRY:	CIRCONVALLAZIONE	CIRCONVALLAZIONE	TYPE	DET_PRE
LEXENTRY:	CIRCONVALLAZIONE DELLE	CIRCONVALLAZIONE DELLE	TYPE	DET_PRE
LEXENTRY:	CL	CL	PROV	DETACH
LEXENTRY:	CN	CN	PROV	DETACH
LEXENTRY:	CO	CO	PROV	DETACH
LEXENTRY:	COMO	CO 	WORD,PROV	DETACH
LEXENTRY:	COMPANIA	COMPANIA	PLACEN	DETACH
LEXENTRY:	CONSORZIO	CONSORZIO	PLACEN	DETACH
LEXENTRY:	CONTRADA	CONTRADA	TYPE	DET_PRE
LEXENTRY:	CONTRADA DEL	CONTRADA DEL	TYPE	DET_PRE
LEXENTRY:	CONTRÀ	CONTRÀ	TYPE	DET_PRE
LEXENTRY:	CONTRÀ DEI	CONTRÀ DEI	TYPE	DET_PRE
LEXENTRY:	CONTRÀ DEL	CONTRÀ DEL	TYPE	DET_PRE
LEXENTRY:	CONTRÀ DELLA	CONTRÀ DELLA	TYPE	DET_PRE
LEXENTRY:	CONTRÀ DELLE	CONTRÀ DELLE	TYPE	DET_PRE
LEXENTRY:	COPAGNIA	COPAGNIA	PLACEN	DETACH
LEXENTRY:	CORSIA	CORSIA	TYPE	DET_PRE
LEXENTRY:	CORSO	CORSO	TYPE	DET_PRE
LEXENTRY:	CORSO AL	CORSO AL	TYPE	DET_PRE
LEXENTRY:	CORSO D'	CORSO D'	TYPE	ATT_PRE
LEXENTRY:	CORSO DEGLI	CORSO DEGLI	TYPE	DET_PRE
LEXENTRY:	CORSO DEL	CORSO DEL	TYPE	DET_PRE
LEXENTRY:	CORSO DELLA	CORSO DELLA	TYPE	DET_PRE
LEXENTRY:	CORSO DI	CORSO DI	TYPE	DET_PRE
LEXENTRY:	CORTE	CORTE	TYPE	DET_PRE
LEXENTRY:	CORTE DEI	CORTE DEI	TYPE	DET_PRE
LEXENTRY:	CORTICELLA	CORTICELLA	TYPE	DET_PRE
LEXENTRY:	CORTILE	CORTILE	TYPE	DET_PRE
LEXENTRY:	COSENZA	CS 	WORD,PROV	DETACH
LEXENTRY:	COSTA	COSTA	TYPE	DET_PRE
LEXENTRY:	COSTA DEL	COSTA DEL	TYPE	DET_PRE
LEXENTRY:	COSTA DELLE	COSTA DELLE	TYPE	DET_PRE
LEXENTRY:	COSTA DI	COSTA DI	TYPE	DET_PRE
LEXENTRY:	CP	CASELLA POSTALE	BOXH	DETACH
LEXENTRY:	CR	CR	PROV	DETACH
LEXENTRY:	CREDITO	CREDITO	PLACEN	DETACH
LEXENTRY:	CREMONA	CR	WORD,PROV	DETACH
LEXENTRY:	CROSA	CROSA	TYPE	DET_PRE
LEXENTRY:	CROSA DI	CROSA DI	TYPE	DET_PRE
LEXENTRY:	CROSINO DELLO	CROSINO DELLO	TYPE	DET_PRE
LEXENTRY:	CROSINO DI	CROSINO DI	TYPE	DET_PRE
LEXENTRY:	CROTONE	KR	WORD,PROV	DETACH
LEXENTRY:	CRÉMONE   	CR	WORD,PROV	DETACH
";
"LEXENTRY:	CS	CS	PROV	DETACH
LEXENTRY:	CSO	CORSO	TYPE	DET_PRE
LEXENTRY:	CT	CT	PROV	DETACH
LEXENTRY:	CUNEO	CN 	WORD,PROV	DETACH
LEXENTRY:	CZ	CZ	PROV	DETACH
LEXENTRY:	DAMM	DAMM	TYPE	ATT_SUF,DET_SUF
LEXENTRY:	DISCESA	DISCESA	TYPE	DET_PRE
LEXENTRY:	DISCESA A	DISCESA A	TYPE	DET_PRE
LEXENTRY:	DISTACCO DI PIAZZA	DISTACCO DI PIAZZA	TYPE	DET_PRE
LEXENTRY:	EN	EN	PROV	DETACH
LEXENTRY:	ENNA	EN 	WORD,PROV	DETACH
LEXENTRY:	ENTE	ENTE	PLACEN	DETACH
LEXENTRY:	FC	FC	PROV	DETACH
LEXENTRY:	FE	FE	PROV	DETACH
LEXENTRY:	FELD	FELD	TYPE	ATT_SUF,DET_SUF
LEXENTRY:	FERRARA	FE	WORD,PROV	DETACH
LEXENTRY:	FERRARE 	FE	WORD,PROV	DETACH
LEXENTRY:	FG	FG	PROV	DETACH
LEXENTRY:	FI	FI	PROV	DETACH
LEXENTRY:	FIRENZE	FI	WORD,PROV	DETACH
LEXENTRY:	FLORENCE	FI	WORD,PROV	DETACH
LEXENTRY:	FLORENCIA	FI	WORD,PROV	DETACH
LEXENTRY:	FLORENS	FI	WORD,PROV	DETACH
LEXENTRY:	FLORENZ	FI	WORD,PROV	DETACH
LEXENTRY:	FM	FM	PROV	DETACH
LEXENTRY:	FOGGIA	FG	WORD,PROV	DETACH
LEXENTRY:	FOND	FONDAMENTA	TYPE	DET_PRE
LEXENTRY:	FOND.	FONDAMENTA	TYPE	DET_PRE
LEXENTRY:	FONDACO	FONDACO	TYPE	DET_PRE
LEXENTRY:	FONDAMENTA	FONDAMENTA	TYPE	DET_PRE
LEXENTRY:	FORLÌ-CESENA 	FO	WORD,PROV	DETACH
LEXENTRY:	FORO	FORO	TYPE	DET_PRE
LEXENTRY:	FOSSATO	FOSSATO	TYPE	DET_PRE
LEXENTRY:	FOSSATO DI	FOSSATO DI	TYPE	DET_PRE
LEXENTRY:	FR	FR	PROV	DETACH
LEXENTRY:	FR. FR	FRAZIONE	TYPE	DET_PRE
LEXENTRY:	FRAZ	FRAZIONE	TYPE	DET_PRE
LEXENTRY:	FRAZ.	FRAZIONE	TYPE	DET_PRE
LEXENTRY:	FRAZIONE	FRAZIONE	TYPE	DET_PRE
LEXENTRY:	FROSINONE	FR 	WORD,PROV	DETACH
LEXENTRY:	G.	GIOVANNI	WORD	DETACH
LEXENTRY:	GALLERIA	GALLERIA	TYPE	DET_PRE
LEXENTRY:	GALLERIA DEGLI	GALLERIA DEGLI	TYPE	DET_PRE
LEXENTRY:	GALLERIA DEI	GALLERIA DEI	TYPE	DET_PRE
LEXENTRY:	GALLERIA DEL	GALLERIA DEL	TYPE	DET_PRE
LEXENTRY:	GALLERIA DELLE	GALLERIA DELLE	TYPE	DET_PRE
LEXENTRY:	GANG	GANG	TYPE	ATT_SUF
LEXENTRY:	GASSE	GASSE	TYPE	ATT_SUF,DET_SUF
LEXENTRY:	GE	GE	PROV	DETACH
LEXENTRY:	GENOVA	GE	WORD,PROV	DETACH
LEXENTRY:	GENUA	GE	WORD,PROV	DETACH
LEXENTRY:	GIARDINI	GIARDINI	TYPE	DET_PRE
LEXENTRY:	GIARDINO	GIARDINO	TYPE	DET_PRE
LEXENTRY:	GIOVANNI	GIOVANNI	WORD	DETACH
LEXENTRY:	GO	GO	PROV	DETACH
LEXENTRY:	GORIZIA	GO 	WORD,PROV	DETACH
LEXENTRY:	GR	GR	PROV	DETACH
LEXENTRY:	GRABEN	GRABEN	TYPE	ATT_SUF,DET_SUF
LEXENTRY:	GROSSETO	GR	WORD,PROV	DETACH
LEXENTRY:	HAMEAU	HAMEAU	TYPE	DET_PRE
LEXENTRY:	HAMEAU DE	HAMEAU DE	TYPE	DET_PRE
LEXENTRY:	HAMEAU DE LA	HAMEAU DE LA	TYPE	DET_PRE
LEXENTRY:	HAMEAU LA	HAMEAU LA	TYPE	DET_PRE
LEXENTRY:	HOF	HOF	TYPE	ATT_SUF
LEXENTRY:	HÖHE	HÖHE	TYPE	DET_SUF
LEXENTRY:	ICDP	ICDP	PLACEN	DETACH
";
"LEXENTRY:	IM	IM	PROV	DETACH
LEXENTRY:	IMPASSE	IMPASSE	TYPE	DET_PRE
LEXENTRY:	IMPASSE DES	IMPASSE DES	TYPE	DET_PRE
LEXENTRY:	IMPERIA	IM 	WORD,PROV	DETACH
LEXENTRY:	INTERRATO	INTERRATO	TYPE	DET_PRE
LEXENTRY:	INTERNO	INTERNO	UNITH	DETACH
LEXENTRY:	PIANO	PIANO	UNITH	DETACH
LEXENTRY:	IS	IS	PROV	DETACH
LEXENTRY:	ISERNIA	IS 	WORD,PROV	DETACH
LEXENTRY:	IT	ITALY	NATION	DETACH
LEXENTRY:	ITA	ITALY	NATION	DETACH
LEXENTRY:	ITALY	ITALY	NATION	DETACH
LEXENTRY:	KM	KM	RR	DETACH
LEXENTRY:	KR	KR	PROV	DETACH
LEXENTRY:	L'AQUILA	AQ 	WORD,PROV	DETACH
LEXENTRY:	L.	LUDOVICO	WORD	DETACH
LEXENTRY:	LA SPEZIA	SP 	WORD,PROV	DETACH
LEXENTRY:	LANDSTRASSE	LANDSTRASSE	TYPE	DET_SUF
LEXENTRY:	LARGO	LARGO	TYPE	DET_PRE
LEXENTRY:	LARGO DEGLI	LARGO DEGLI	TYPE	DET_PRE
LEXENTRY:	LARGO DEI	LARGO DEI	TYPE	DET_PRE
LEXENTRY:	LARGO DEL	LARGO DEL	TYPE	DET_PRE
LEXENTRY:	LARGO DELL'	LARGO DELL'	TYPE	ATT_PRE
LEXENTRY:	LARGO DELLA	LARGO DELLA	TYPE	DET_PRE
LEXENTRY:	LARGO DELLE	LARGO DELLE	TYPE	DET_PRE
LEXENTRY:	LARGO DI	LARGO DI	TYPE	DET_PRE
LEXENTRY:	LATINA	LT 	WORD,PROV	DETACH
LEXENTRY:	LC	LC	PROV	DETACH
LEXENTRY:	LE	LE	PROV	DETACH
LEXENTRY:	LECCE	LE 	WORD,PROV	DETACH
LEXENTRY:	LECCO	LC 	WORD,PROV	DETACH
LEXENTRY:	LEGHORN	LI	WORD,PROV	DETACH
LEXENTRY:	LGO	LARGO	TYPE	DET_PRE
LEXENTRY:	LGO.	LARGO	TYPE	DET_PRE
LEXENTRY:	LI	LI	PROV	DETACH
LEXENTRY:	LIORNA	LI	WORD,PROV	DETACH
LEXENTRY:	LISTA	LISTA	TYPE	DET_PRE
LEXENTRY:	LIVORNO	LI	WORD,PROV	DETACH
LEXENTRY:	LIVOURNE 	LI	WORD,PROV	DETACH
LEXENTRY:	LO	LO	PROV	DETACH
LEXENTRY:	LOCALITÀ	LOCALITÀ	TYPE	DET_PRE
LEXENTRY:	LODI	LO 	WORD,PROV	DETACH
LEXENTRY:	LT	LT	PROV	DETACH
LEXENTRY:	LU	LU	PROV	DETACH
LEXENTRY:	LUCA	LU	WORD,PROV	DETACH
LEXENTRY:	LUCCA	LU	WORD,PROV	DETACH
LEXENTRY:	LUCQUES 	LU	WORD,PROV	DETACH
LEXENTRY:	LUDOVICO	LUDOVICO	WORD	DETACH
LEXENTRY:	LUNGADIGE	LUNGADIGE	TYPE	DET_PRE
LEXENTRY:	LUNGARGINE	LUNGARGINE	TYPE	DET_PRE
LEXENTRY:	LUNGARGINE DEL	LUNGARGINE DEL	TYPE	DET_PRE
LEXENTRY:	LUNGARNO	LUNGARNO	TYPE	DET_PRE
LEXENTRY:	LUNGARNO DEGLI	LUNGARNO DEGLI	TYPE	DET_PRE
LEXENTRY:	LUNGARNO DEI	LUNGARNO DEI	TYPE	DET_PRE
LEXENTRY:	LUNGARNO DEL	LUNGARNO DEL	TYPE	DET_PRE
LEXENTRY:	LUNGARNO DELLA	LUNGARNO DELLA	TYPE	DET_PRE
LEXENTRY:	LUNGARNO DELLE	LUNGARNO DELLE	TYPE	DET_PRE
LEXENTRY:	LUNGARNO DI	LUNGARNO DI	TYPE	DET_PRE
LEXENTRY:	LUNGO DORA	LUNGO DORA	TYPE	DET_PRE
LEXENTRY:	LUNGO PO	LUNGO PO	TYPE	DET_PRE
LEXENTRY:	LUNGO STURA	LUNGO STURA	TYPE	DET_PRE
LEXENTRY:	LUNGO TORRENTE	LUNGO TORRENTE	TYPE	DET_PRE
LEXENTRY:	LUNGOBISAGNO	LUNGOBISAGNO	TYPE	DET_PRE
";
"LEXENTRY:	LUNGOMARE	LUNGOMARE	TYPE	DET_PRE
LEXENTRY:	LUNGOMARE DI	LUNGOMARE DI	TYPE	DET_PRE
LEXENTRY:	LUNGOMONTE	LUNGOMONTE	TYPE	DET_PRE
LEXENTRY:	LUNGOPARCO	LUNGOPARCO	TYPE	DET_PRE
LEXENTRY:	LUNGOSTURA CORSO	LUNGOSTURA CORSO	TYPE	DET_PRE
LEXENTRY:	LUNGOTEVERE	LUNGOTEVERE	TYPE	DET_PRE
LEXENTRY:	LUNGOTEVERE DE'	LUNGOTEVERE DE'	TYPE	DET_PRE
LEXENTRY:	LUNGOTEVERE DEGLI	LUNGOTEVERE DEGLI	TYPE	DET_PRE
LEXENTRY:	LUNGOTEVERE DEI	LUNGOTEVERE DEI	TYPE	DET_PRE
LEXENTRY:	LUNGOTEVERE DELL'	LUNGOTEVERE DELL'	TYPE	ATT_PRE
LEXENTRY:	LUNGOTEVERE DELLA	LUNGOTEVERE DELLA	TYPE	DET_PRE
LEXENTRY:	LUNGOTEVERE DELLE	LUNGOTEVERE DELLE	TYPE	DET_PRE
LEXENTRY:	LUNGOTEVERE DI	LUNGOTEVERE DI	TYPE	DET_PRE
LEXENTRY:	LUNGOTEVERE IN	LUNGOTEVERE IN	TYPE	DET_PRE
LEXENTRY:	MACERATA	MC 	WORD,PROV	DETACH
LEXENTRY:	MAILAND	MI	WORD,PROV	DETACH
LEXENTRY:	MANTOUE	MN	WORD,PROV	DETACH
LEXENTRY:	MANTOVA	MN	WORD,PROV	DETACH
LEXENTRY:	MANTUA 	MN	WORD,PROV	DETACH
LEXENTRY:	MARKT	MARKT	TYPE	ATT_SUF
LEXENTRY:	MASSA-CARRARA	MS	WORD,PROV	DETACH
LEXENTRY:	MASSA-CARRARE	MS	WORD,PROV	DETACH
LEXENTRY:	MATERA	MT 	WORD,PROV	DETACH
LEXENTRY:	MB	MB	PROV	DETACH
LEXENTRY:	MC	MC	PROV	DETACH
LEXENTRY:	ME	ME	PROV	DETACH
LEXENTRY:	MESSINA	ME 	WORD,PROV	DETACH
LEXENTRY:	MI	MI	PROV	DETACH
LEXENTRY:	MILAAN	MI	WORD,PROV	DETACH
LEXENTRY:	MILAN	MI	WORD,PROV	DETACH
LEXENTRY:	MILANO	MI	WORD,PROV	DETACH
LEXENTRY:	MILÁN 	MI	WORD,PROV	DETACH
LEXENTRY:	MN	MN	PROV	DETACH
LEXENTRY:	MO	MO	PROV	DETACH
LEXENTRY:	MODENA	MO	WORD,PROV	DETACH
LEXENTRY:	MODÈNE 	MO	WORD,PROV	DETACH
LEXENTRY:	MOLO	MOLO	TYPE	DET_PRE
LEXENTRY:	MS	MS	PROV	DETACH
LEXENTRY:	MT	MT	PROV	DETACH
LEXENTRY:	MUNICIPALE	MUNICIPALE	PLACEN	DETACH
LEXENTRY:	MUNICIPIO	MUNICIPIO	PLACEN	DETACH
LEXENTRY:	MURA	MURA	TYPE	DET_PRE
LEXENTRY:	MURA DEGLI	MURA DEGLI	TYPE	DET_PRE
LEXENTRY:	MURA DEL	MURA DEL	TYPE	DET_PRE
LEXENTRY:	MURA DELLA	MURA DELLA	TYPE	DET_PRE
LEXENTRY:	MURA DELLE	MURA DELLE	TYPE	DET_PRE
LEXENTRY:	MURA DELLO	MURA DELLO	TYPE	DET_PRE
LEXENTRY:	MURA DI	MURA DI	TYPE	DET_PRE
LEXENTRY:	MURALLA DEL	MURALLA DEL	TYPE	DET_PRE
LEXENTRY:	NA	NA	PROV	DETACH
LEXENTRY:	NAPELS	NA	WORD,PROV	DETACH
LEXENTRY:	NAPLES	NA	WORD,PROV	DETACH
LEXENTRY:	NAPOLI	NA	WORD,PROV	DETACH
LEXENTRY:	NEAPEL	NA	WORD,PROV	DETACH
LEXENTRY:	NO	NO	PROV	DETACH
LEXENTRY:	NOVARA	NO	WORD,PROV	DETACH
LEXENTRY:	NOVARE	NO	WORD,PROV	DETACH
LEXENTRY:	NU	NU	PROV	DETACH
LEXENTRY:	NUORO	NU	WORD,PROV	DETACH
LEXENTRY:	NUOVA STRADA	NUOVA STRADA	TYPE	DET_PRE
LEXENTRY:	NÁPOLES	NA	WORD,PROV	DETACH
LEXENTRY:	OG	OG	PROV	DETACH
";
"LEXENTRY:	OR	OR	PROV	DETACH
LEXENTRY:	ORISTANO	OR 	WORD,PROV	DETACH
LEXENTRY:	OT	OT	PROV	DETACH
LEXENTRY:	P.	PIAZZA	TYPE	DET_PRE
LEXENTRY:	P.LE	PIAZZALE	TYPE	DET_PRE
LEXENTRY:	P.ZA	PIAZZA	TYPE	DET_PRE
LEXENTRY:	PA	PA	PROV	DETACH
LEXENTRY:	PADOUE	PD	WORD,PROV	DETACH
LEXENTRY:	PADOVA	PD	WORD,PROV	DETACH
LEXENTRY:	PADUA	PD	WORD,PROV	DETACH
LEXENTRY:	PALERMO	PA 	WORD,PROV	DETACH
LEXENTRY:	PARCO	PARCO	TYPE	DET_PRE
LEXENTRY:	PARCO DELLE	PARCO DELLE	TYPE	DET_PRE
LEXENTRY:	PARK	PARK	TYPE	ATT_SUF
LEXENTRY:	PARMA	PR	WORD,PROV	DETACH
LEXENTRY:	PARME	PR	WORD,PROV	DETACH
LEXENTRY:	PASSAGE	PASSAGE	TYPE	DET_PRE
LEXENTRY:	PASSAGE DU	PASSAGE DU	TYPE	DET_PRE
LEXENTRY:	PASSAGGIO	PASSAGGIO	TYPE	DET_PRE
LEXENTRY:	PASSAGGIO DEGLI	PASSAGGIO DEGLI	TYPE	DET_PRE
LEXENTRY:	PASSAGGIO PRIVATO	PASSAGGIO PRIVATO	TYPE	DET_PRE
LEXENTRY:	PASSEGGIATA	PASSEGGIATA	TYPE	DET_PRE
LEXENTRY:	PASSEGGIATA DEL	PASSEGGIATA DEL	TYPE	DET_PRE
LEXENTRY:	PASSETTO	PASSETTO	TYPE	DET_PRE
LEXENTRY:	PASSO	PASSO	TYPE	DET_PRE
LEXENTRY:	PASSO A	PASSO A	TYPE	DET_PRE
LEXENTRY:	PASSO AL	PASSO AL	TYPE	DET_PRE
LEXENTRY:	PASSO DEI	PASSO DEI	TYPE	DET_PRE
LEXENTRY:	PASSO DEL	PASSO DEL	TYPE	DET_PRE
LEXENTRY:	PASSO DELL'	PASSO DELL'	TYPE	ATT_PRE
LEXENTRY:	PASSO DELLA	PASSO DELLA	TYPE	DET_PRE
LEXENTRY:	PASSO DELLE	PASSO DELLE	TYPE	DET_PRE
LEXENTRY:	PASSO DELLO	PASSO DELLO	TYPE	DET_PRE
LEXENTRY:	PASSO DI	PASSO DI	TYPE	DET_PRE
LEXENTRY:	PAVIA	PV	WORD,PROV	DETACH
LEXENTRY:	PAVIE	PV	WORD,PROV	DETACH
LEXENTRY:	PC	PC	PROV	DETACH
LEXENTRY:	PD	PD	PROV	DETACH
LEXENTRY:	PE	PE	PROV	DETACH
LEXENTRY:	PERCORSO	PERCORSO	TYPE	DET_PRE
LEXENTRY:	PERUGIA	PG	WORD,PROV	DETACH
LEXENTRY:	PERUSA	PG	WORD,PROV	DETACH
LEXENTRY:	PESARO E URBINO	PS 	WORD,PROV	DETACH
LEXENTRY:	PESCARA	PE 	WORD,PROV	DETACH
LEXENTRY:	PG	PG	PROV	DETACH
LEXENTRY:	PI	PI	PROV	DETACH
LEXENTRY:	PIACENZA	PC 	WORD,PROV	DETACH
LEXENTRY:	PIANO DI	PIANO DI	TYPE	DET_PRE
LEXENTRY:	PIAZZA	PIAZZA	TYPE	DET_PRE
LEXENTRY:	PIAZZA AI	PIAZZA AI	TYPE	DET_PRE
LEXENTRY:	PIAZZA DE'	PIAZZA DE'	TYPE	DET_PRE
LEXENTRY:	PIAZZA DEGLI	PIAZZA DEGLI	TYPE	DET_PRE
LEXENTRY:	PIAZZA DEI	PIAZZA DEI	TYPE	DET_PRE
LEXENTRY:	PIAZZA DEL	PIAZZA DEL	TYPE	DET_PRE
LEXENTRY:	PIAZZA DELL'	PIAZZA DELL'	TYPE	ATT_PRE
LEXENTRY:	PIAZZA DELLA	PIAZZA DELLA	TYPE	DET_PRE
LEXENTRY:	PIAZZA DELLE	PIAZZA DELLE	TYPE	DET_PRE
LEXENTRY:	PIAZZA DELLO	PIAZZA DELLO	TYPE	DET_PRE
LEXENTRY:	PIAZZA DI	PIAZZA DI	TYPE	DET_PRE
LEXENTRY:	PIAZZA IN	PIAZZA IN	TYPE	DET_PRE
LEXENTRY:	PIAZZA INFERIORE	PIAZZA INFERIORE	TYPE	DET_PRE
";
"LEXENTRY:	PIAZZA INFERIORE DI	PIAZZA INFERIORE DI	TYPE	DET_PRE
LEXENTRY:	PIAZZA SUPERIORE	PIAZZA SUPERIORE	TYPE	DET_PRE
LEXENTRY:	PIAZZA À	PIAZZA À	TYPE	DET_PRE
LEXENTRY:	PIAZZALE	PIAZZALE	TYPE	DET_PRE
LEXENTRY:	PIAZZALE AI	PIAZZALE AI	TYPE	DET_PRE
LEXENTRY:	PIAZZALE DEGLI	PIAZZALE DEGLI	TYPE	DET_PRE
LEXENTRY:	PIAZZALE DEI	PIAZZALE DEI	TYPE	DET_PRE
LEXENTRY:	PIAZZALE DEL	PIAZZALE DEL	TYPE	DET_PRE
LEXENTRY:	PIAZZALE DELL'	PIAZZALE DELL'	TYPE	ATT_PRE
LEXENTRY:	PIAZZALE DELLA	PIAZZALE DELLA	TYPE	DET_PRE
LEXENTRY:	PIAZZALE DELLE	PIAZZALE DELLE	TYPE	DET_PRE
LEXENTRY:	PIAZZALE DELLO	PIAZZALE DELLO	TYPE	DET_PRE
LEXENTRY:	PIAZZALE DI	PIAZZALE DI	TYPE	DET_PRE
LEXENTRY:	PIAZZETTA	PIAZZETTA	TYPE	DET_PRE
LEXENTRY:	PIAZZETTA DEI	PIAZZETTA DEI	TYPE	DET_PRE
LEXENTRY:	PIAZZETTA DEL	PIAZZETTA DEL	TYPE	DET_PRE
LEXENTRY:	PIAZZETTA DELL'	PIAZZETTA DELL'	TYPE	ATT_PRE
LEXENTRY:	PIAZZETTA DELLA	PIAZZETTA DELLA	TYPE	DET_PRE
LEXENTRY:	PIAZZETTA DI	PIAZZETTA DI	TYPE	DET_PRE
LEXENTRY:	PIAZZETTA PRIVATA	PIAZZETTA PRIVATA	TYPE	DET_PRE
LEXENTRY:	PISA	PI	WORD,PROV	DETACH
LEXENTRY:	PISCINA	PISCINA	TYPE	DET_PRE
LEXENTRY:	PISE	PI	WORD,PROV	DETACH
LEXENTRY:	PISTOIA	PT	WORD,PROV	DETACH
LEXENTRY:	PISTOYA 	PT	WORD,PROV	DETACH
LEXENTRY:	PLACE	PLACE	TYPE	DET_PRE
LEXENTRY:	PLACE DE	PLACE DE	TYPE	DET_PRE
LEXENTRY:	PLACE DE L'	PLACE DE L'	TYPE	ATT_PRE
LEXENTRY:	PLACE DE LA	PLACE DE LA	TYPE	DET_PRE
LEXENTRY:	PLACE DES	PLACE DES	TYPE	DET_PRE
LEXENTRY:	PLACE DU	PLACE DU	TYPE	DET_PRE
LEXENTRY:	PLACETA DE	PLACETA DE	TYPE	DET_PRE
LEXENTRY:	PLATZ	PLATZ	TYPE	ATT_PRE,ATT_SUF,DET_PRE,DET_SUF
LEXENTRY:	PLAÇA DE	PLAÇA DE	TYPE	DET_PRE
LEXENTRY:	PLAÇA DEL	PLAÇA DEL	TYPE	DET_PRE
LEXENTRY:	PN	PN	PROV	DETACH
LEXENTRY:	PO	PO	PROV	DETACH
LEXENTRY:	POGGIO	POGGIO	TYPE	DET_PRE
LEXENTRY:	POGGIO DELLA	POGGIO DELLA	TYPE	DET_PRE
LEXENTRY:	POGGIO DI	POGGIO DI	TYPE	DET_PRE
LEXENTRY:	PONTE	PONTE	TYPE	DET_PRE
LEXENTRY:	PONTE DEI	PONTE DEI	TYPE	DET_PRE
LEXENTRY:	PONTE DEL	PONTE DEL	TYPE	DET_PRE
LEXENTRY:	PONTE DELL'	PONTE DELL'	TYPE	ATT_PRE
LEXENTRY:	PONTE DELLA	PONTE DELLA	TYPE	DET_PRE
LEXENTRY:	PONTE DI	PONTE DI	TYPE	DET_PRE
LEXENTRY:	PONTE SUL	PONTE SUL	TYPE	DET_PRE
LEXENTRY:	PORDENONE	PN 	WORD,PROV	DETACH
LEXENTRY:	PORTA	PORTA	TYPE	DET_PRE
LEXENTRY:	PORTICHETTI	PORTICHETTI	TYPE	DET_PRE
LEXENTRY:	PORTICI	PORTICI	TYPE	DET_PRE
LEXENTRY:	PORTICO	PORTICO	TYPE	DET_PRE
LEXENTRY:	POTENZA	PZ 	WORD,PROV	DETACH
LEXENTRY:	PR	PR	PROV	DETACH
LEXENTRY:	PRATO	PO 	WORD,PROV	DETACH
LEXENTRY:	PROMENADE	PROMENADE	TYPE	ATT_SUF,DET_SUF
";
"LEXENTRY:	PT	PT	PROV	DETACH
LEXENTRY:	PU	PU	PROV	DETACH
LEXENTRY:	PV	PV	PROV	DETACH
LEXENTRY:	PZ	PZ	PROV	DETACH
LEXENTRY:	QUADRATO	QUADRATO	TYPE	DET_PRE
LEXENTRY:	QUADRATO DELLA	QUADRATO DELLA	TYPE	DET_PRE
LEXENTRY:	QUADRIVIO	QUADRIVIO	TYPE	DET_PRE
LEXENTRY:	RA	RA	PROV	DETACH
LEXENTRY:	RACCORDO	RACCORDO	TYPE	DET_PRE
LEXENTRY:	RACCORDO AUTOSTRADALE	RACCORDO AUTOSTRADALE	TYPE	DET_PRE
LEXENTRY:	RAGUSA	RG 	WORD,PROV	DETACH
LEXENTRY:	RAMO	RAMO	TYPE	DET_PRE
LEXENTRY:	RAMPA	RAMPA	TYPE	DET_PRE
LEXENTRY:	RAMPA DELLA	RAMPA DELLA	TYPE	DET_PRE
LEXENTRY:	RAMPA DELLE	RAMPA DELLE	TYPE	DET_PRE
LEXENTRY:	RAMPA DI	RAMPA DI	TYPE	DET_PRE
LEXENTRY:	RAVENNA	RA	WORD,PROV	DETACH
LEXENTRY:	RAVENNE  	RA	WORD,PROV	DETACH
LEXENTRY:	RC	RC	PROV	DETACH
LEXENTRY:	RE	RE	PROV	DETACH
LEXENTRY:	REGGIO D'ÉMILIE	RE	WORD,PROV	DETACH
LEXENTRY:	REGGIO DE CALABRE	RC	WORD,PROV	DETACH
LEXENTRY:	REGGIO DI CALABRIA	RC	WORD,PROV	DETACH
LEXENTRY:	REGGIO NELL'EMILIA	RE	WORD,PROV	DETACH
LEXENTRY:	REGIONE	REGIONE	TYPE	DET_PRE
LEXENTRY:	RG	RG	PROV	DETACH
LEXENTRY:	RI	RI	PROV	DETACH
LEXENTRY:	RIETI	RI 	WORD,PROV	DETACH
LEXENTRY:	RIMINI	RN 	WORD,PROV	DETACH
LEXENTRY:	RING	RING	TYPE	ATT_SUF
LEXENTRY:	RIO	RIO	TYPE	DET_PRE
LEXENTRY:	RIO TERRÀ	RIO TERRÀ	TYPE	DET_PRE
LEXENTRY:	RIPA	RIPA	TYPE	DET_PRE
LEXENTRY:	RIPA DI	RIPA DI	TYPE	DET_PRE
LEXENTRY:	RIVA	RIVA	TYPE	DET_PRE
LEXENTRY:	RIVA DEL	RIVA DEL	TYPE	DET_PRE
LEXENTRY:	RIVALE	RIVALE	TYPE	DET_PRE
LEXENTRY:	RIVIERA	RIVIERA	TYPE	DET_PRE
LEXENTRY:	RIVIERA DEI	RIVIERA DEI	TYPE	DET_PRE
LEXENTRY:	RIVO	RIVO	TYPE	DET_PRE
LEXENTRY:	RM	RM	PROV	DETACH
LEXENTRY:	RN	RN	PROV	DETACH
LEXENTRY:	RO	RO	PROV	DETACH
LEXENTRY:	ROM	RM	WORD,PROV	DETACH
LEXENTRY:	ROMA	RM	WORD,PROV	DETACH
LEXENTRY:	ROME	RM	WORD,PROV	DETACH
LEXENTRY:	RONDÒ	RONDÒ	TYPE	DET_PRE
LEXENTRY:	ROTONDA	ROTONDA	TYPE	DET_PRE
LEXENTRY:	ROUTE	ROUTE	TYPE	DET_PRE
LEXENTRY:	ROUTE DE	ROUTE DE	TYPE	DET_PRE
LEXENTRY:	ROUTE DE LA	ROUTE DE LA	TYPE	DET_PRE
LEXENTRY:	ROUTE DES	ROUTE DES	TYPE	DET_PRE
LEXENTRY:	ROUTE DU	ROUTE DU	TYPE	DET_PRE
LEXENTRY:	ROVIGO	RO 	WORD,PROV	DETACH
LEXENTRY:	RUA	RUA	TYPE	DET_PRE
LEXENTRY:	RUE	RUE	TYPE	DET_PRE
LEXENTRY:	RUE D'	RUE D'	TYPE	ATT_PRE
LEXENTRY:	RUE DE	RUE DE	TYPE	DET_PRE
LEXENTRY:	RUE DE L'	RUE DE L'	TYPE	ATT_PRE
LEXENTRY:	RUE DE LA	RUE DE LA	TYPE	DET_PRE
LEXENTRY:	RUE DES	RUE DES	TYPE	DET_PRE
LEXENTRY:	RUE DU	RUE DU	TYPE	DET_PRE
LEXENTRY:	RUE L'	RUE L'	TYPE	ATT_PRE
LEXENTRY:	RUE LA	RUE LA	TYPE	DET_PRE
LEXENTRY:	RUELLE	RUELLE	TYPE	DET_PRE
LEXENTRY:	RUELLE DE	RUELLE DE	TYPE	DET_PRE
";
"LEXENTRY:	RUELLE DE L'	RUELLE DE L'	TYPE	ATT_PRE
LEXENTRY:	RUELLE DES	RUELLE DES	TYPE	DET_PRE
LEXENTRY:	RUELLE DU	RUELLE DU	TYPE	DET_PRE
LEXENTRY:	RUGA	RUGA	TYPE	DET_PRE
LEXENTRY:	S.	SAN	WORD	DETACH
LEXENTRY:	SA	SA	PLACEN	DETACH
LEXENTRY:	SA	SA	PROV	DETACH
LEXENTRY:	SALERNE	SA	WORD,PROV	DETACH
LEXENTRY:	SALERNO	SA	WORD,PROV	DETACH
LEXENTRY:	SALITA	SALITA	TYPE	DET_PRE
LEXENTRY:	SALITA A	SALITA A	TYPE	DET_PRE
LEXENTRY:	SALITA AI	SALITA AI	TYPE	DET_PRE
LEXENTRY:	SALITA AL	SALITA AL	TYPE	DET_PRE
LEXENTRY:	SALITA ALLA	SALITA ALLA	TYPE	DET_PRE
LEXENTRY:	SALITA ALLE	SALITA ALLE	TYPE	DET_PRE
LEXENTRY:	SALITA DEGLI	SALITA DEGLI	TYPE	DET_PRE
LEXENTRY:	SALITA DEI	SALITA DEI	TYPE	DET_PRE
LEXENTRY:	SALITA DEL	SALITA DEL	TYPE	DET_PRE
LEXENTRY:	SALITA DELL'	SALITA DELL'	TYPE	ATT_PRE
LEXENTRY:	SALITA DELLA	SALITA DELLA	TYPE	DET_PRE
LEXENTRY:	SALITA DELLE	SALITA DELLE	TYPE	DET_PRE
LEXENTRY:	SALITA DI	SALITA DI	TYPE	DET_PRE
LEXENTRY:	SALITA INFERIORE	SALITA INFERIORE	TYPE	DET_PRE
LEXENTRY:	SALITA INFERIORE AL	SALITA INFERIORE AL	TYPE	DET_PRE
LEXENTRY:	SALITA INFERIORE DI	SALITA INFERIORE DI	TYPE	DET_PRE
LEXENTRY:	SALITA SUPERIORE	SALITA SUPERIORE	TYPE	DET_PRE
LEXENTRY:	SALITA SUPERIORE AI	SALITA SUPERIORE AI	TYPE	DET_PRE
LEXENTRY:	SALITA SUPERIORE DELLA	SALITA SUPERIORE DELLA	TYPE	DET_PRE
LEXENTRY:	SALITA SUPERIORE DI	SALITA SUPERIORE DI	TYPE	DET_PRE
LEXENTRY:	SALITA VECCHIA DI	SALITA VECCHIA DI	TYPE	DET_PRE
LEXENTRY:	SAN	SAN	WORD	DETACH
LEXENTRY:	SAPA	SAPA	PLACEN	DETACH
LEXENTRY:	SAS	SAS	PLACEN	DETACH
LEXENTRY:	SASSARI	SS 	WORD,PROV	DETACH
LEXENTRY:	SAVONA	SV	WORD,PROV	DETACH
LEXENTRY:	SAVONE 	SV	WORD,PROV	DETACH
LEXENTRY:	SCALA	SCALA	TYPE	DET_PRE
LEXENTRY:	SCALA DEI	SCALA DEI	TYPE	DET_PRE
LEXENTRY:	SCALA DELL'	SCALA DELL'	TYPE	ATT_PRE
LEXENTRY:	SCALEA	SCALEA	TYPE	DET_PRE
LEXENTRY:	SCALETTA	SCALETTA	TYPE	DET_PRE
LEXENTRY:	SCALINATA	SCALINATA	TYPE	DET_PRE
LEXENTRY:	SCALINATA A	SCALINATA A	TYPE	DET_PRE
LEXENTRY:	SCALINATA A VIA	SCALINATA A VIA	TYPE	DET_PRE
LEXENTRY:	SCALINATA CHIUSA	SCALINATA CHIUSA	TYPE	DET_PRE
LEXENTRY:	SCALINATA DEI	SCALINATA DEI	TYPE	DET_PRE
LEXENTRY:	SCALINATA DEL	SCALINATA DEL	TYPE	DET_PRE
LEXENTRY:	SCALINATA DELL'	SCALINATA DELL'	TYPE	ATT_PRE
LEXENTRY:	SCALINATA DELLA	SCALINATA DELLA	TYPE	DET_PRE
LEXENTRY:	SCALINATA DELLE	SCALINATA DELLE	TYPE	DET_PRE
LEXENTRY:	SCALINATA DI	SCALINATA DI	TYPE	DET_PRE
LEXENTRY:	SCALO	SCALO	TYPE	DET_PRE
LEXENTRY:	SCALONE	SCALONE	TYPE	DET_PRE
LEXENTRY:	SCALONE VOLTO	SCALONE VOLTO	TYPE	DET_PRE
";
"LEXENTRY:	SDRUCCIOLO DE'	SDRUCCIOLO DE'	TYPE	DET_PRE
LEXENTRY:	SELCIATO	SELCIATO	TYPE	DET_PRE
LEXENTRY:	SENA	SI	WORD,PROV	DETACH
LEXENTRY:	SENTIERO	SENTIERO	TYPE	DET_PRE
LEXENTRY:	SENTIERO DEL	SENTIERO DEL	TYPE	DET_PRE
LEXENTRY:	SI	SI	PROV	DETACH
LEXENTRY:	SIENA	SI	WORD,PROV	DETACH
LEXENTRY:	SIENNE 	SI	WORD,PROV	DETACH
LEXENTRY:	SIRACUSA	SR	WORD,PROV	DETACH
LEXENTRY:	SITO DEI	SITO DEI	TYPE	DET_PRE
LEXENTRY:	SITO DELLA	SITO DELLA	TYPE	DET_PRE
LEXENTRY:	SNC	SNC	PLACEN	DETACH
LEXENTRY:	SO	SO	PROV	DETACH
LEXENTRY:	SOCIETÀ	SOCIETÀ	PLACEN	DETACH
LEXENTRY:	SONDRIO	SO 	WORD,PROV	DETACH
LEXENTRY:	SOTTOPASSAGGIO	SOTTOPASSAGGIO	TYPE	DET_PRE
LEXENTRY:	SOTTOPORTICO	SOTTOPORTICO	TYPE	DET_PRE
LEXENTRY:	SOTTOVIA	SOTTOVIA	TYPE	DET_PRE
LEXENTRY:	SP	SP	PROV	DETACH
LEXENTRY:	SPA	SPA	PLACEN	DETACH
LEXENTRY:	SPALTO	SPALTO	TYPE	DET_PRE
LEXENTRY:	SPIANATA DI	SPIANATA DI	TYPE	DET_PRE
LEXENTRY:	SQUARE	SQUARE	TYPE	DET_PRE
LEXENTRY:	SR	SR	PROV	DETACH
LEXENTRY:	SRL	SRL	PLACEN	DETACH
LEXENTRY:	SS	SS	PROV	DETACH
LEXENTRY:	SS	SUPERSTRADA	TYPE	DET_PRE
LEXENTRY:	SS.	SUPERSTRADA	TYPE	DET_PRE
LEXENTRY:	STAZIONE	STAZIONE	PLACEN	DETACH
LEXENTRY:	STEG	STEG	TYPE	ATT_SUF,DET_SUF
LEXENTRY:	STEIG	STEIG	TYPE	ATT_SUF
LEXENTRY:	STEIN	STEIN	TYPE	ATT_SUF
LEXENTRY:	STRADA	STRADA	TYPE	DET_PRE
LEXENTRY:	STRADA AI	STRADA AI	TYPE	DET_PRE
LEXENTRY:	STRADA AL	STRADA AL	TYPE	DET_PRE
LEXENTRY:	STRADA ALLA	STRADA ALLA	TYPE	DET_PRE
LEXENTRY:	STRADA ALLE	STRADA ALLE	TYPE	DET_PRE
LEXENTRY:	STRADA ALTA DI	STRADA ALTA DI	TYPE	DET_PRE
LEXENTRY:	STRADA ANTICA	STRADA ANTICA	TYPE	DET_PRE
LEXENTRY:	STRADA ANTICA DELLA	STRADA ANTICA DELLA	TYPE	DET_PRE
LEXENTRY:	STRADA ANTICA DI	STRADA ANTICA DI	TYPE	DET_PRE
LEXENTRY:	STRADA COMUNALE	STRADA COMUNALE	TYPE	DET_PRE
LEXENTRY:	STRADA COMUNALE ALLA	STRADA COMUNALE ALLA	TYPE	DET_PRE
LEXENTRY:	STRADA COMUNALE ANTICA DI	STRADA COMUNALE ANTICA DI	TYPE	DET_PRE
LEXENTRY:	STRADA COMUNALE DA	STRADA COMUNALE DA	TYPE	DET_PRE
LEXENTRY:	STRADA COMUNALE DEI	STRADA COMUNALE DEI	TYPE	DET_PRE
LEXENTRY:	STRADA COMUNALE DEL	STRADA COMUNALE DEL	TYPE	DET_PRE
LEXENTRY:	STRADA COMUNALE DELLA	STRADA COMUNALE DELLA	TYPE	DET_PRE
LEXENTRY:	STRADA COMUNALE DELLE	STRADA COMUNALE DELLE	TYPE	DET_PRE
LEXENTRY:	STRADA COMUNALE DI	STRADA COMUNALE DI	TYPE	DET_PRE
LEXENTRY:	STRADA COMUNALE PER	STRADA COMUNALE PER	TYPE	DET_PRE
LEXENTRY:	STRADA CONSORTILE	STRADA CONSORTILE	TYPE	DET_PRE
LEXENTRY:	STRADA CONSORTILE ALLA	STRADA CONSORTILE ALLA	TYPE	DET_PRE
";
"LEXENTRY:	STRADA CONSORTILE DEI	STRADA CONSORTILE DEI	TYPE	DET_PRE
LEXENTRY:	STRADA CONSORTILE DEL	STRADA CONSORTILE DEL	TYPE	DET_PRE
LEXENTRY:	STRADA CONSORTILE DELLA	STRADA CONSORTILE DELLA	TYPE	DET_PRE
LEXENTRY:	STRADA DA	STRADA DA	TYPE	DET_PRE
LEXENTRY:	STRADA DAI	STRADA DAI	TYPE	DET_PRE
LEXENTRY:	STRADA DAL	STRADA DAL	TYPE	DET_PRE
LEXENTRY:	STRADA DEGLI	STRADA DEGLI	TYPE	DET_PRE
LEXENTRY:	STRADA DEI	STRADA DEI	TYPE	DET_PRE
LEXENTRY:	STRADA DEL	STRADA DEL	TYPE	DET_PRE
LEXENTRY:	STRADA DELL'	STRADA DELL'	TYPE	ATT_PRE
LEXENTRY:	STRADA DELLA	STRADA DELLA	TYPE	DET_PRE
LEXENTRY:	STRADA DELLE	STRADA DELLE	TYPE	DET_PRE
LEXENTRY:	STRADA DI	STRADA DI	TYPE	DET_PRE
LEXENTRY:	STRADA ESTERNA	STRADA ESTERNA	TYPE	DET_PRE
LEXENTRY:	STRADA INTERPODERALE	STRADA INTERPODERALE	TYPE	DET_PRE
LEXENTRY:	STRADA MILITARE	STRADA MILITARE	TYPE	DET_PRE
LEXENTRY:	STRADA PER	STRADA PER	TYPE	DET_PRE
LEXENTRY:	STRADA PODERALE	STRADA PODERALE	TYPE	DET_PRE
LEXENTRY:	STRADA PRIVATA	STRADA PRIVATA	TYPE	DET_PRE
LEXENTRY:	STRADA PROVINCIALE	STRADA PROVINCIALE	TYPE	DET_PRE
LEXENTRY:	STRADA PROVINCIALE DEI	STRADA PROVINCIALE DEI	TYPE	DET_PRE
LEXENTRY:	STRADA PROVINCIALE DEL	STRADA PROVINCIALE DEL	TYPE	DET_PRE
LEXENTRY:	STRADA PROVINCIALE DELL'	STRADA PROVINCIALE DELL'	TYPE	ATT_PRE
LEXENTRY:	STRADA PROVINCIALE DELLA	STRADA PROVINCIALE DELLA	TYPE	DET_PRE
LEXENTRY:	STRADA PROVINCIALE DELLE	STRADA PROVINCIALE DELLE	TYPE	DET_PRE
LEXENTRY:	STRADA PROVINCIALE DI	STRADA PROVINCIALE DI	TYPE	DET_PRE
LEXENTRY:	STRADA PROVINCIALE PER	STRADA PROVINCIALE PER	TYPE	DET_PRE
LEXENTRY:	STRADA REGIONALE DELLA	STRADA REGIONALE DELLA	TYPE	DET_PRE
LEXENTRY:	STRADA REGIONALE DI	STRADA REGIONALE DI	TYPE	DET_PRE
LEXENTRY:	STRADA STATALE	STRADA STATALE	TYPE	DET_PRE
LEXENTRY:	STRADA STATALE DEL	STRADA STATALE DEL	TYPE	DET_PRE
LEXENTRY:	STRADA STATALE DELLA	STRADA STATALE DELLA	TYPE	DET_PRE
LEXENTRY:	STRADA STATALE DELLE	STRADA STATALE DELLE	TYPE	DET_PRE
LEXENTRY:	STRADA STATALE DI	STRADA STATALE DI	TYPE	DET_PRE
LEXENTRY:	STRADA VICINALE	STRADA VICINALE	TYPE	DET_PRE
LEXENTRY:	STRADA VICINALE DA	STRADA VICINALE DA	TYPE	DET_PRE
LEXENTRY:	STRADA VICINALE DEI	STRADA VICINALE DEI	TYPE	DET_PRE
LEXENTRY:	STRADA VICINALE DEL	STRADA VICINALE DEL	TYPE	DET_PRE
LEXENTRY:	STRADA VICINALE DELLA	STRADA VICINALE DELLA	TYPE	DET_PRE
LEXENTRY:	STRADA VICINALE DELLE	STRADA VICINALE DELLE	TYPE	DET_PRE
LEXENTRY:	STRADA VICINALE DI	STRADA VICINALE DI	TYPE	DET_PRE
LEXENTRY:	STRADALE	STRADALE	TYPE	DET_PRE
";
"LEXENTRY:	STRADELLA	STRADELLA	TYPE	DET_PRE
LEXENTRY:	STRADELLA DELLE	STRADELLA DELLE	TYPE	DET_PRE
LEXENTRY:	STRADONE	STRADONE	TYPE	DET_PRE
LEXENTRY:	STRADONE DEI	STRADONE DEI	TYPE	DET_PRE
LEXENTRY:	STRADONE DI	STRADONE DI	TYPE	DET_PRE
LEXENTRY:	STRASSE	STRASSE	TYPE	ATT_SUF,DET_PRE,DET_SUF
LEXENTRY:	SUPERSTRADA	SUPERSTRADA	TYPE	DET_PRE
LEXENTRY:	SUPERSTRADA PER	SUPERSTRADA PER	TYPE	DET_PRE
LEXENTRY:	SV	SV	PROV	DETACH
LEXENTRY:	SVINCOLO	SVINCOLO	TYPE	DET_PRE
LEXENTRY:	SYRACUSE	SR	WORD,PROV	DETACH
LEXENTRY:	SYRAKUS	SR	WORD,PROV	DETACH
LEXENTRY:	TA	TA	PROV	DETACH
LEXENTRY:	TAL	TAL	TYPE	ATT_SUF
LEXENTRY:	TANGENZIALE	TANGENZIALE	TYPE	DET_PRE
LEXENTRY:	TANGENZIALE DI	TANGENZIALE DI	TYPE	DET_PRE
LEXENTRY:	TARANTO	TA	WORD,PROV	DETACH
LEXENTRY:	TARENT	TA	WORD,PROV	DETACH
LEXENTRY:	TARENTE	TA	WORD,PROV	DETACH
LEXENTRY:	TARENTO	TA	WORD,PROV	DETACH
LEXENTRY:	TE	TE	PROV	DETACH
LEXENTRY:	TERAMO	TE 	WORD,PROV	DETACH
LEXENTRY:	TERNI	TR 	WORD,PROV	DETACH
LEXENTRY:	TN	TN	PROV	DETACH
LEXENTRY:	TO	TO	PROV	DETACH
LEXENTRY:	TORINO	TO	WORD,PROV	DETACH
LEXENTRY:	TP	TP	PROV	DETACH
LEXENTRY:	TR	TR	PROV	DETACH
LEXENTRY:	TRAFORO	TRAFORO	TYPE	DET_PRE
LEXENTRY:	TRAFORO DEL	TRAFORO DEL	TYPE	DET_PRE
LEXENTRY:	TRAPANI	TP 	WORD,PROV	DETACH
LEXENTRY:	TRAVERSA	TRAVERSA	TYPE	DET_PRE
LEXENTRY:	TRAVERSA ALLA	TRAVERSA ALLA	TYPE	DET_PRE
LEXENTRY:	TRAVERSA DEGLI	TRAVERSA DEGLI	TYPE	DET_PRE
LEXENTRY:	TRAVERSA DEI	TRAVERSA DEI	TYPE	DET_PRE
LEXENTRY:	TRAVERSA DI	TRAVERSA DI	TYPE	DET_PRE
LEXENTRY:	TRENTE	TN	WORD,PROV	DETACH
LEXENTRY:	TRENTO	TN	WORD,PROV	DETACH
LEXENTRY:	TREVISO	TV	WORD,PROV	DETACH
LEXENTRY:	TRIENT 	TN	WORD,PROV	DETACH
LEXENTRY:	TRIEST	TS	WORD,PROV	DETACH
LEXENTRY:	TRIESTE	TS	WORD,PROV	DETACH
LEXENTRY:	TRIËST	TS	WORD,PROV	DETACH
LEXENTRY:	TRÉVISE 	TV	WORD,PROV	DETACH
LEXENTRY:	TS	TS	PROV	DETACH
LEXENTRY:	TUNNEL	TUNNEL	TYPE	ATT_SUF
LEXENTRY:	TURIJN	TO	WORD,PROV	DETACH
LEXENTRY:	TURIN	TO	WORD,PROV	DETACH
LEXENTRY:	TV	TV	PROV	DETACH
LEXENTRY:	UD	UD	PROV	DETACH
LEXENTRY:	UDINE	UD 	WORD,PROV	DETACH
LEXENTRY:	UFER	UFER	TYPE	ATT_SUF
LEXENTRY:	V	VIA	TYPE	DET_PRE
LEXENTRY:	V A	VIA A	TYPE	DET_PRE
LEXENTRY:	V AI	VIA AI	TYPE	DET_PRE
LEXENTRY:	V AL	VIA AL	TYPE	DET_PRE
LEXENTRY:	V ALLA	VIA ALLA	TYPE	DET_PRE
LEXENTRY:	V ALLE	VIA ALLE	TYPE	DET_PRE
LEXENTRY:	V DA	VIA DA	TYPE	DET_PRE
LEXENTRY:	V DAI	VIA DAI	TYPE	DET_PRE
LEXENTRY:	V DAL	VIA DAL	TYPE	DET_PRE
LEXENTRY:	V DE'	VIA DE'	TYPE	DET_PRE
LEXENTRY:	V DEI	VIA DEI	TYPE	DET_PRE
LEXENTRY:	V DEL	VIA DEL	TYPE	DET_PRE
LEXENTRY:	V DI	VIA DI	TYPE	DET_PRE
";
"LEXENTRY:	V FRA	VIA FRA	TYPE	DET_PRE
LEXENTRY:	V IN	VIA IN	TYPE	DET_PRE
LEXENTRY:	V PER	VIA PER	TYPE	DET_PRE
LEXENTRY:	V.	VIA	TYPE	DET_PRE
LEXENTRY:	V. A	VIA A	TYPE	DET_PRE
LEXENTRY:	V. AI	VIA AI	TYPE	DET_PRE
LEXENTRY:	V. AL	VIA AL	TYPE	DET_PRE
LEXENTRY:	V. ALLA	VIA ALLA	TYPE	DET_PRE
LEXENTRY:	V. ALLE	VIA ALLE	TYPE	DET_PRE
LEXENTRY:	V. DA	VIA DA	TYPE	DET_PRE
LEXENTRY:	V. DAI	VIA DAI	TYPE	DET_PRE
LEXENTRY:	V. DAL	VIA DAL	TYPE	DET_PRE
LEXENTRY:	V. DE'	VIA DE'	TYPE	DET_PRE
LEXENTRY:	V. DEI	VIA DEI	TYPE	DET_PRE
LEXENTRY:	V. DEL	VIA DEL	TYPE	DET_PRE
LEXENTRY:	V. DI	VIA DI	TYPE	DET_PRE
LEXENTRY:	V. FRA	VIA FRA	TYPE	DET_PRE
LEXENTRY:	V. IN	VIA IN	TYPE	DET_PRE
LEXENTRY:	V. PER	VIA PER	TYPE	DET_PRE
LEXENTRY:	VA	VA	PROV	DETACH
LEXENTRY:	VALLETTA	VALLETTA	TYPE	DET_PRE
LEXENTRY:	VARCO	VARCO	TYPE	DET_PRE
LEXENTRY:	VARESE	VA 	WORD,PROV	DETACH
LEXENTRY:	VB	VB	PROV	DETACH
LEXENTRY:	VERBANO-CÚSIO-OSSOLA	VB	WORD,PROV	DETACH
LEXENTRY:	VC	VC	PROV	DETACH
LEXENTRY:	VE	VE	PROV	DETACH
LEXENTRY:	VENECIA	VE	WORD,PROV	DETACH
LEXENTRY:	VENEDIG	VE	WORD,PROV	DETACH
LEXENTRY:	VENETIË	VE	WORD,PROV	DETACH
LEXENTRY:	VENEZIA	VE	WORD,PROV	DETACH
LEXENTRY:	VENICE	VE	WORD,PROV	DETACH
LEXENTRY:	VENISE	VE	WORD,PROV	DETACH
LEXENTRY:	VERBANO-CUSIO-OSSOLA	VB	WORD,PROV	DETACH
LEXENTRY:	VERCEIL 	VC	WORD,PROV	DETACH
LEXENTRY:	VERCELLI	VC	WORD,PROV	DETACH
LEXENTRY:	VERONA	VR 	WORD,PROV	DETACH
LEXENTRY:	VI	VI	PROV	DETACH
LEXENTRY:	VIA	VIA	TYPE	DET_PRE
LEXENTRY:	VIA A	VIA A	TYPE	DET_PRE
LEXENTRY:	VIA A.	VIA ALLE	TYPE	DET_PRE
LEXENTRY:	VIA AI	VIA AI	TYPE	DET_PRE
LEXENTRY:	VIA AL	VIA AL	TYPE	DET_PRE
LEXENTRY:	VIA ALL'	VIA ALL'	TYPE	ATT_PRE
LEXENTRY:	VIA ALLA	VIA ALLA	TYPE	DET_PRE
LEXENTRY:	VIA ALLE	VIA ALLE	TYPE	DET_PRE
LEXENTRY:	VIA ALLE VECCHIE	VIA ALLE VECCHIE	TYPE	DET_PRE
LEXENTRY:	VIA ANTICA	VIA ANTICA	TYPE	DET_PRE
LEXENTRY:	VIA D'	VIA D'	TYPE	ATT_PRE
LEXENTRY:	VIA DA	VIA DA	TYPE	DET_PRE
LEXENTRY:	VIA DAI	VIA DAI	TYPE	DET_PRE
LEXENTRY:	VIA DAL	VIA DAL	TYPE	DET_PRE
LEXENTRY:	VIA DE'	VIA DE'	TYPE	DET_PRE
LEXENTRY:	VIA DEGLI	VIA DEGLI	TYPE	DET_PRE
LEXENTRY:	VIA DEI	VIA DEI	TYPE	DET_PRE
LEXENTRY:	VIA DEL	VIA DEL	TYPE	DET_PRE
LEXENTRY:	VIA DELL'	VIA DELL'	TYPE	ATT_PRE
LEXENTRY:	VIA DELLA	VIA DELLA	TYPE	DET_PRE
LEXENTRY:	VIA DELLE	VIA DELLE	TYPE	DET_PRE
LEXENTRY:	VIA DELLO	VIA DELLO	TYPE	DET_PRE
LEXENTRY:	VIA DI	VIA DI	TYPE	DET_PRE
LEXENTRY:	VIA DIETRO	VIA DIETRO	TYPE	DET_PRE
LEXENTRY:	VIA FRA	VIA FRA	TYPE	DET_PRE
LEXENTRY:	VIA IN	VIA IN	TYPE	DET_PRE
LEXENTRY:	VIA INFERIORE	VIA INFERIORE	TYPE	DET_PRE
";
"LEXENTRY:	VIA INFERIORE DEI	VIA INFERIORE DEI	TYPE	DET_PRE
LEXENTRY:	VIA INFERIORE DI	VIA INFERIORE DI	TYPE	DET_PRE
LEXENTRY:	VIA INTERNA	VIA INTERNA	TYPE	DET_PRE
LEXENTRY:	VIA MILITARE DI	VIA MILITARE DI	TYPE	DET_PRE
LEXENTRY:	VIA MURA DI	VIA MURA DI	TYPE	DET_PRE
LEXENTRY:	VIA PER	VIA PER	TYPE	DET_PRE
LEXENTRY:	VIA PONTE	VIA PONTE	TYPE	DET_PRE
LEXENTRY:	VIA PRIVATA	VIA PRIVATA	TYPE	DET_PRE
LEXENTRY:	VIA PRIVATA DEGLI	VIA PRIVATA DEGLI	TYPE	DET_PRE
LEXENTRY:	VIA PRIVATA DEI	VIA PRIVATA DEI	TYPE	DET_PRE
LEXENTRY:	VIA PRIVATA DEL	VIA PRIVATA DEL	TYPE	DET_PRE
LEXENTRY:	VIA PRIVATA DELL'	VIA PRIVATA DELL'	TYPE	ATT_PRE
LEXENTRY:	VIA PRIVATA DELLA	VIA PRIVATA DELLA	TYPE	DET_PRE
LEXENTRY:	VIA PRIVATA DELLE	VIA PRIVATA DELLE	TYPE	DET_PRE
LEXENTRY:	VIA PRIVATA DI	VIA PRIVATA DI	TYPE	DET_PRE
LEXENTRY:	VIA PROVINCIALE	VIA PROVINCIALE	TYPE	DET_PRE
LEXENTRY:	VIA SOTTO	VIA SOTTO	TYPE	DET_PRE
LEXENTRY:	VIA SOTTO I	VIA SOTTO I	TYPE	DET_PRE
LEXENTRY:	VIA SOTTO LE	VIA SOTTO LE	TYPE	DET_PRE
LEXENTRY:	VIA SUPERIORE	VIA SUPERIORE	TYPE	DET_PRE
LEXENTRY:	VIA SUPERIORE DEI	VIA SUPERIORE DEI	TYPE	DET_PRE
LEXENTRY:	VIA SUPERIORE DEL	VIA SUPERIORE DEL	TYPE	DET_PRE
LEXENTRY:	VIA SUPERIORE DELL'	VIA SUPERIORE DELL'	TYPE	ATT_PRE
LEXENTRY:	VIA SUPERIORE DELLE	VIA SUPERIORE DELLE	TYPE	DET_PRE
LEXENTRY:	VIA VECCHIA DI	VIA VECCHIA DI	TYPE	DET_PRE
LEXENTRY:	VIA VICINALE	VIA VICINALE	TYPE	DET_PRE
LEXENTRY:	VIADOTTO	VIADOTTO	TYPE	DET_PRE
LEXENTRY:	VIADOTTO DELLA	VIADOTTO DELLA	TYPE	DET_PRE
LEXENTRY:	VIALE	VIALE	TYPE	DET_PRE
LEXENTRY:	VIALE AI	VIALE AI	TYPE	DET_PRE
LEXENTRY:	VIALE AL	VIALE AL	TYPE	DET_PRE
LEXENTRY:	VIALE ALLA	VIALE ALLA	TYPE	DET_PRE
LEXENTRY:	VIALE DEGLI	VIALE DEGLI	TYPE	DET_PRE
LEXENTRY:	VIALE DEI	VIALE DEI	TYPE	DET_PRE
LEXENTRY:	VIALE DEL	VIALE DEL	TYPE	DET_PRE
LEXENTRY:	VIALE DELL'	VIALE DELL'	TYPE	ATT_PRE
LEXENTRY:	VIALE DELLA	VIALE DELLA	TYPE	DET_PRE
LEXENTRY:	VIALE DELLE	VIALE DELLE	TYPE	DET_PRE
LEXENTRY:	VIALE DELLO	VIALE DELLO	TYPE	DET_PRE
LEXENTRY:	VIALE DI	VIALE DI	TYPE	DET_PRE
LEXENTRY:	VIALETTO	VIALETTO	TYPE	DET_PRE
LEXENTRY:	VIALETTO DEL	VIALETTO DEL	TYPE	DET_PRE
LEXENTRY:	VIALETTO DELLA	VIALETTO DELLA	TYPE	DET_PRE
LEXENTRY:	VIBO VALENTIA	VV	WORD,PROV	DETACH
LEXENTRY:	VICENCE 	VI	WORD,PROV	DETACH
LEXENTRY:	VICENZA	VI	WORD,PROV	DETACH
LEXENTRY:	VICO	VICO	TYPE	DET_PRE
LEXENTRY:	VICO A	VICO A	TYPE	DET_PRE
LEXENTRY:	VICO ALLA	VICO ALLA	TYPE	DET_PRE
LEXENTRY:	VICO CHIUSO	VICO CHIUSO	TYPE	DET_PRE
LEXENTRY:	VICO CHIUSO DEGLI	VICO CHIUSO DEGLI	TYPE	DET_PRE
";
"LEXENTRY:	VICO CHIUSO DEI	VICO CHIUSO DEI	TYPE	DET_PRE
LEXENTRY:	VICO CHIUSO DEL	VICO CHIUSO DEL	TYPE	DET_PRE
LEXENTRY:	VICO CHIUSO DELLA	VICO CHIUSO DELLA	TYPE	DET_PRE
LEXENTRY:	VICO CHIUSO DELLO	VICO CHIUSO DELLO	TYPE	DET_PRE
LEXENTRY:	VICO CIECO DIETRO	VICO CIECO DIETRO	TYPE	DET_PRE
LEXENTRY:	VICO DE	VICO DE	TYPE	DET_PRE
LEXENTRY:	VICO DEGLI	VICO DEGLI	TYPE	DET_PRE
LEXENTRY:	VICO DEI	VICO DEI	TYPE	DET_PRE
LEXENTRY:	VICO DEL	VICO DEL	TYPE	DET_PRE
LEXENTRY:	VICO DELL'	VICO DELL'	TYPE	ATT_PRE
LEXENTRY:	VICO DELLA	VICO DELLA	TYPE	DET_PRE
LEXENTRY:	VICO DELLE	VICO DELLE	TYPE	DET_PRE
LEXENTRY:	VICO DI	VICO DI	TYPE	DET_PRE
LEXENTRY:	VICO DIETRO	VICO DIETRO	TYPE	DET_PRE
LEXENTRY:	VICO DIETRO IL	VICO DIETRO IL	TYPE	DET_PRE
LEXENTRY:	VICO INFERIORE	VICO INFERIORE	TYPE	DET_PRE
LEXENTRY:	VICO INFERIORE DEL	VICO INFERIORE DEL	TYPE	DET_PRE
LEXENTRY:	VICO SECONDO	VICO SECONDO	TYPE	DET_PRE
LEXENTRY:	VICO SECONDO DELLO	VICO SECONDO DELLO	TYPE	DET_PRE
LEXENTRY:	VICO SUPERIORE	VICO SUPERIORE	TYPE	DET_PRE
LEXENTRY:	VICO SUPERIORE DEL	VICO SUPERIORE DEL	TYPE	DET_PRE
LEXENTRY:	VICO SUPERIORE DI	VICO SUPERIORE DI	TYPE	DET_PRE
LEXENTRY:	VICOLETTO	VICOLETTO	TYPE	DET_PRE
LEXENTRY:	VICOLETTO CIECO	VICOLETTO CIECO	TYPE	DET_PRE
LEXENTRY:	VICOLETTO CIECO DIETRO	VICOLETTO CIECO DIETRO	TYPE	DET_PRE
LEXENTRY:	VICOLETTO CORTICELLA	VICOLETTO CORTICELLA	TYPE	DET_PRE
LEXENTRY:	VICOLO	VICOLO	TYPE	DET_PRE
LEXENTRY:	VICOLO AL	VICOLO AL	TYPE	DET_PRE
LEXENTRY:	VICOLO CIECO	VICOLO CIECO	TYPE	DET_PRE
LEXENTRY:	VICOLO D'	VICOLO D'	TYPE	ATT_PRE
LEXENTRY:	VICOLO DE'	VICOLO DE'	TYPE	DET_PRE
LEXENTRY:	VICOLO DEGLI	VICOLO DEGLI	TYPE	DET_PRE
LEXENTRY:	VICOLO DEI	VICOLO DEI	TYPE	DET_PRE
LEXENTRY:	VICOLO DEL	VICOLO DEL	TYPE	DET_PRE
LEXENTRY:	VICOLO DELL'	VICOLO DELL'	TYPE	ATT_PRE
LEXENTRY:	VICOLO DELLA	VICOLO DELLA	TYPE	DET_PRE
LEXENTRY:	VICOLO DELLE	VICOLO DELLE	TYPE	DET_PRE
LEXENTRY:	VICOLO DELLO	VICOLO DELLO	TYPE	DET_PRE
LEXENTRY:	VICOLO DI	VICOLO DI	TYPE	DET_PRE
LEXENTRY:	VICOLO DIETRO	VICOLO DIETRO	TYPE	DET_PRE
LEXENTRY:	VICOLO PER	VICOLO PER	TYPE	DET_PRE
LEXENTRY:	VICOLO PRIVATO	VICOLO PRIVATO	TYPE	DET_PRE
LEXENTRY:	VIE	VIALE	TYPE	DET_PRE
LEXENTRY:	VIE.	VIALE	TYPE	DET_PRE
LEXENTRY:	VILLAGGIO	VILLAGGIO	TYPE	DET_PRE
LEXENTRY:	VIOTTOLA	VIOTTOLA	TYPE	DET_PRE
LEXENTRY:	VIOTTOLO	VIOTTOLO	TYPE	DET_PRE
LEXENTRY:	VITERBE	VT	WORD,PROV	DETACH
LEXENTRY:	VITERBO	VT	WORD,PROV	DETACH
LEXENTRY:	VIUZZO	VIUZZO	TYPE	DET_PRE
LEXENTRY:	VIUZZO DE'	VIUZZO DE'	TYPE	DET_PRE
LEXENTRY:	VIUZZO DEI	VIUZZO DEI	TYPE	DET_PRE
";
"LEXENTRY:	VIUZZO DEL	VIUZZO DEL	TYPE	DET_PRE
LEXENTRY:	VIUZZO DELLA	VIUZZO DELLA	TYPE	DET_PRE
LEXENTRY:	VIUZZO DELLE	VIUZZO DELLE	TYPE	DET_PRE
LEXENTRY:	VIUZZO DI	VIUZZO DI	TYPE	DET_PRE
LEXENTRY:	VL	VIALE	TYPE	DET_PRE
LEXENTRY:	VL.	VIALE	TYPE	DET_PRE
LEXENTRY:	VO'	VO'	TYPE	DET_PRE
LEXENTRY:	VOCABOLO	VOCABOLO	TYPE	DET_PRE
LEXENTRY:	VOLTA	VOLTA	TYPE	DET_PRE
LEXENTRY:	VOLTA DE'	VOLTA DE'	TYPE	DET_PRE
LEXENTRY:	VOLTA DEI	VOLTA DEI	TYPE	DET_PRE
LEXENTRY:	VOLTA DELLA	VOLTA DELLA	TYPE	DET_PRE
LEXENTRY:	VOLTA DI	VOLTA DI	TYPE	DET_PRE
LEXENTRY:	VOLTO	VOLTO	TYPE	DET_PRE
LEXENTRY:	VR	VR	PROV	DETACH
LEXENTRY:	VS	VS	PROV	DETACH
LEXENTRY:	VT	VT	PROV	DETACH
LEXENTRY:	VV	VV	PROV	DETACH
LEXENTRY:	VÉRONE	VT	WORD,PROV	DETACH
LEXENTRY:	WEG	WEG	TYPE	ATT_SUF,DET_PRE,DET_SUF
LEXENTRY:	WIESE	WIESE	TYPE	ATT_SUF
LEXENTRY:	WINKEL	WINKEL	TYPE	ATT_SUF,DET_SUF
"].
(** data/sample/liechtenstein.lex *)
Definition slex_liechtenstein : list string :=
[
"LEXICON:	lex-liechtenstein.txt	GER	de_LI
LEXENTRY:	AG	AG	PLACEN	DETACH
LEXENTRY:	AKTIEN	AKTIEN	PLACEN	DETACH
LEXENTRY:	AKTIEN-GESELLSCHAFT	AKTIEN-GESELLSCHAFT	PLACEN	DETACH
LEXENTRY:	AKTIENGESELLSCHAFT	AKTIENGESELLSCHAFT	PLACEN	DETACH
LEXENTRY:	ALLEE	ALLEE	TYPE	ATT_SUF,DET_SUF
LEXENTRY:	ANSCHLUSSSTELLE	ANSCHLUSSSTELLE	TYPE	DET_PRE
LEXENTRY:	AUTOBAHNDREIECK	AUTOBAHNDREIECK	TYPE	DET_PRE
LEXENTRY:	AUTOBAHNKREUZ	AUTOBAHNKREUZ	TYPE	DET_PRE
LEXENTRY:	AVENUE	AVENUE	TYPE	DET_SUF
LEXENTRY:	BACH	BACH	TYPE	ATT_SUF,DET_SUF
LEXENTRY:	BD	BOULEVARD	TYPE	ATT_SUF
LEXENTRY:	BD.	BOULEVARD	TYPE	ATT_SUF
LEXENTRY:	BERG	BERG	TYPE	ATT_SUF,DET_SUF
LEXENTRY:	BERGWEG	BERGWEG	TYPE	ATT_SUF,DET_SUF
LEXENTRY:	BETRIEB	BETRIEB	PLACEN	DETACH
LEXENTRY:	BGB	BGB	PLACEN	DETACH
LEXENTRY:	BOGEN	BOGEN	TYPE	ATT_SUF,DET_SUF
LEXENTRY:	BOULEVARD	BOULEVARD	TYPE	ATT_SUF
LEXENTRY:	BRUCH	BRUCH	TYPE	ATT_SUF
LEXENTRY:	BRÜCKE	BRÜCKE	TYPE	ATT_SUF,DET_SUF
LEXENTRY:	BURG	BURG	TYPE	ATT_SUF,DET_SUF
LEXENTRY:	BÜHL	BÜHL	TYPE	ATT_SUF
LEXENTRY:	CH	CHAUSSEE	TYPE	ATT_PRE,ATT_SUF
LEXENTRY:	CH.	CHAUSSEE	TYPE	ATT_PRE,ATT_SUF
LEXENTRY:	CHAUSSEE	CHAUSSEE	TYPE	ATT_PRE,ATT_SUF
LEXENTRY:	CO	CO	PLACEN	DETACH
LEXENTRY:	DAMM	DAMM	TYPE	ATT_SUF,DET_SUF
LEXENTRY:	DEICH	DEICH	TYPE	ATT_SUF
LEXENTRY:	DRIVE	DRIVE	TYPE	DET_SUF
LEXENTRY:	EG	EG	PLACEN	DETACH
LEXENTRY:	EINZELFIRMA	EINZELFIRMA	PLACEN	DETACH
LEXENTRY:	EINZELUNTERNEHMEN	EINZELUNTERNEHMEN	PLACEN	DETACH
LEXENTRY:	ENGETRAGENER	ENGETRAGENER	PLACEN	DETACH
LEXENTRY:	EV	EV	PLACEN	DETACH
LEXENTRY:	FELD	FELD	TYPE	ATT_SUF,DET_SUF
LEXENTRY:	FIRMA	FIRMA	PLACEN	DETACH
LEXENTRY:	GANG	GANG	TYPE	ATT_SUF
LEXENTRY:	GARTEN	GARTEN	TYPE	ATT_SUF,DET_SUF
LEXENTRY:	GASSE	GASSE	TYPE	ATT_SUF,DET_SUF
LEXENTRY:	GBR	GBR	PLACEN	DETACH
LEXENTRY:	GENOSSENSCHAFT	GENOSSENSCHAFT	PLACEN	DETACH
LEXENTRY:	GESELLSCHAFT	GESELLSCHAFT	PLACEN	DETACH
LEXENTRY:	GMBH	GMBH	PLACEN	DETACH
LEXENTRY:	GRABEN	GRABEN	TYPE	ATT_SUF,DET_SUF
LEXENTRY:	GÄSSCHEN	GÄSSCHEN	TYPE	ATT_SUF
LEXENTRY:	HAFEN	HAFEN	TYPE	ATT_SUF
LEXENTRY:	HANDELSGESELLSCHAFT	HANDELSGESELLSCHAFT	PLACEN	DETACH
LEXENTRY:	HEIDE	HEIDE	TYPE	DET_SUF
LEXENTRY:	HOF	HOF	TYPE	ATT_SUF,DET_SUF
LEXENTRY:	HORST	HORST	TYPE	ATT_SUF,DET_SUF
LEXENTRY:	HÖHE	HÖHE	TYPE	ATT_SUF,DET_SUF
LEXENTRY:	KAI	KAI	TYPE	ATT_SUF
LEXENTRY:	KAMP	KAMP	TYPE	ATT_SUF
LEXENTRY:	KANAL	KANAL	TYPE	ATT_SUF,DET_SUF
LEXENTRY:	KEHRE	KEHRE	TYPE	ATT_SUF,DET_SUF
LEXENTRY:	KG	KG	PLACEN	DETACH
LEXENTRY:	KGAA	KGAA	PLACEN	DETACH
LEXENTRY:	KOMMANDITGESELLSCHAFT	KOMMANDITGESELLSCHAFT	PLACEN	DETACH
";
"LEXENTRY:	KOPPEL	KOPPEL	TYPE	ATT_SUF
LEXENTRY:	LANDSTRASSE	LANDSTRASSE	TYPE	DET_SUF
LEXENTRY:	LI	LIECHTENSTEIN	NATION	DETACH
LEXENTRY:	LICHTENSTEJNSKO	LIECHTENSTEIN	NATION	DETACH
LEXENTRY:	LIE	LIECHTENSTEIN	NATION	DETACH
LEXENTRY:	LIECHTENSTEIN	LIECHTENSTEIN	NATION	DETACH
LEXENTRY:	MARKT	MARKT	TYPE	ATT_SUF,DET_SUF
LEXENTRY:	MBH	MBH	PLACEN	DETACH
LEXENTRY:	MOOR	MOOR	TYPE	ATT_SUF
LEXENTRY:	OHG	OHG	PLACEN	DETACH
LEXENTRY:	PARK	PARK	TYPE	ATT_SUF,DET_SUF
LEXENTRY:	PASSAGE	PASSAGE	TYPE	ATT_SUF,DET_SUF
LEXENTRY:	PFAD	PFAD	TYPE	ATT_SUF,DET_SUF
LEXENTRY:	PLATZ	PLATZ	TYPE	ATT_PRE,ATT_SUF,DET_PRE,DET_SUF
LEXENTRY:	PROMENADE	PROMENADE	TYPE	ATT_SUF,DET_SUF
LEXENTRY:	RING	RING	TYPE	ATT_SUF,DET_SUF
LEXENTRY:	ROAD	ROAD	TYPE	DET_SUF
LEXENTRY:	STAFFEL	STAFFEL	TYPE	DET_SUF
LEXENTRY:	STEG	STEG	TYPE	DET_SUF
LEXENTRY:	STEIG	STEIG	TYPE	ATT_SUF,DET_SUF
LEXENTRY:	STEIGE	STEIGE	TYPE	ATT_SUF,DET_SUF
LEXENTRY:	STEIN	STEIN	TYPE	ATT_SUF,DET_SUF
LEXENTRY:	STIEG	STIEG	TYPE	ATT_SUF
LEXENTRY:	STIEGE	STIEGE	TYPE	ATT_SUF,DET_SUF
LEXENTRY:	STIFTUNG	STIFTUNG	PLACEN	DETACH
LEXENTRY:	STR	STRASSE	TYPE	ATT_SUF,DET_PRE,DET_SUF
LEXENTRY:	STR.	STRASSE	TYPE	ATT_SUF,DET_PRE,DET_SUF
LEXENTRY:	STRASSE	STRASSE	TYPE	ATT_SUF,DET_PRE,DET_SUF
LEXENTRY:	STRAßE	STRASSE	TYPE	ATT_SUF,DET_PRE,DET_SUF
LEXENTRY:	STREET	STREET	TYPE	DET_SUF
LEXENTRY:	TAL	TAL	TYPE	ATT_SUF
LEXENTRY:	TEICH	TEICH	TYPE	ATT_SUF
LEXENTRY:	TOR	TOR	TYPE	ATT_SUF,DET_SUF
LEXENTRY:	TREPPE	TREPPE	TYPE	ATT_SUF
LEXENTRY:	TUNNEL	TUNNEL	TYPE	ATT_SUF,DET_SUF
LEXENTRY:	UFER	UFER	TYPE	ATT_SUF
LEXENTRY:	VEB	VEB	PLACEN	DETACH
LEXENTRY:	VEREIN	VEREIN	PLACEN	DETACH
LEXENTRY:	VOLKSEIGNER	VOLKSEIGNER	PLACEN	DETACH
LEXENTRY:	WALL	WALL	TYPE	ATT_SUF
LEXENTRY:	WAY	WAY	TYPE	DET_SUF
LEXENTRY:	WEG	WEG	TYPE	ATT_PRE,ATT_SUF,DET_PRE,DET_SUF
LEXENTRY:	WIESE	WIESE	TYPE	ATT_SUF
LEXENTRY:	WIESEN	WIESEN	TYPE	ATT_SUF
LEXENTRY:	WINKEL	WINKEL	TYPE	ATT_SUF,DET_SUF
LEXENTRY:	WOHNUNG	WOHNUNG	UNITH	DETACH
LEXENTRY:	ZEILE	ZEILE	TYPE	ATT_SUF,DET_SUF
"].
(** data/sample/luxembourg.lex *)
Definition slex_luxembourg : list string :=
[
"LEXICON:	lex-luxembourg.txt	GER	de_LU
LEXENTRY:	ALLEE	ALLÉE	TYPE	DET_PRE
LEXENTRY:	ALLEE DE L'	ALLÉE DE L'	TYPE	ATT_PRE
LEXENTRY:	ALLEE DE LA	ALLÉE DE LA	TYPE	DET_PRE
LEXENTRY:	ALLEE DES	ALLÉE DES	TYPE	DET_PRE
LEXENTRY:	ALLÉE	ALLÉE	TYPE	DET_PRE
LEXENTRY:	ALLÉE DE L'	ALLÉE DE L'	TYPE	ATT_PRE
LEXENTRY:	ALLÉE DE LA	ALLÉE DE LA	TYPE	DET_PRE
LEXENTRY:	ALLÉE DES	ALLÉE DES	TYPE	DET_PRE
LEXENTRY:	AV D'	AVENUE D'	TYPE	ATT_PRE
LEXENTRY:	AV DE	AVENUE DE	TYPE	DET_PRE
LEXENTRY:	AV DE LA	AVENUE DE LA	TYPE	DET_PRE
LEXENTRY:	AV DES	AVENUE DES	TYPE	DET_PRE
LEXENTRY:	AV DU	AVENUE DU	TYPE	DET_PRE
LEXENTRY:	AV.	AVENUE	TYPE	DET_PRE
LEXENTRY:	AV. D'	AVENUE D'	TYPE	ATT_PRE
LEXENTRY:	AV. DE	AVENUE DE	TYPE	DET_PRE
LEXENTRY:	AV. DE LA	AVENUE DE LA	TYPE	DET_PRE
LEXENTRY:	AV. DES	AVENUE DES	TYPE	DET_PRE
LEXENTRY:	AV. DU	AVENUE DU	TYPE	DET_PRE
LEXENTRY:	AVE	AVENUE	TYPE	DET_PRE
LEXENTRY:	AVE D'	AVENUE D'	TYPE	ATT_PRE
LEXENTRY:	AVE DE	AVENUE DE	TYPE	DET_PRE
LEXENTRY:	AVE DE LA	AVENUE DE LA	TYPE	DET_PRE
LEXENTRY:	AVE DES	AVENUE DES	TYPE	DET_PRE
LEXENTRY:	AVE DU	AVENUE DU	TYPE	DET_PRE
LEXENTRY:	AVE.	AVENUE	TYPE	DET_PRE
LEXENTRY:	AVE. D'	AVENUE D'	TYPE	ATT_PRE
LEXENTRY:	AVE. DE	AVENUE DE	TYPE	DET_PRE
LEXENTRY:	AVE. DE LA	AVENUE DE LA	TYPE	DET_PRE
LEXENTRY:	AVE. DES	AVENUE DES	TYPE	DET_PRE
LEXENTRY:	AVE. DU	AVENUE DU	TYPE	DET_PRE
LEXENTRY:	AVENUE	AVENUE	TYPE	DET_PRE
LEXENTRY:	AVENUE D'	AVENUE D'	TYPE	ATT_PRE
LEXENTRY:	AVENUE DE	AVENUE DE	TYPE	DET_PRE
LEXENTRY:	AVENUE DE LA	AVENUE DE LA	TYPE	DET_PRE
LEXENTRY:	AVENUE DES	AVENUE DES	TYPE	DET_PRE
LEXENTRY:	AVENUE DU	AVENUE DU	TYPE	DET_PRE
LEXENTRY:	BACH	BACH	TYPE	ATT_SUF,DET_SUF
LEXENTRY:	BERG	BERG	TYPE	ATT_SUF,DET_SUF
LEXENTRY:	BLVD	BOULEVARD	TYPE	DET_PRE
LEXENTRY:	BLVD D'	BOULEVARD D'	TYPE	ATT_PRE
LEXENTRY:	BLVD DE	BOULEVARD DE	TYPE	DET_PRE
LEXENTRY:	BLVD DE L'	BOULEVARD DE L'	TYPE	ATT_PRE
LEXENTRY:	BLVD DE LA	BOULEVARD DE LA	TYPE	DET_PRE
LEXENTRY:	BLVD DU	BOULEVARD DU	TYPE	DET_PRE
LEXENTRY:	BLVD.	BOULEVARD	TYPE	DET_PRE
LEXENTRY:	BLVD. DE	BOULEVARD DE	TYPE	DET_PRE
LEXENTRY:	BLVD. DE LA	BOULEVARD DE LA	TYPE	DET_PRE
LEXENTRY:	BLVD. DU	BOULEVARD DU	TYPE	DET_PRE
LEXENTRY:	BOULEVARD	BOULEVARD	TYPE	DET_PRE
LEXENTRY:	BOULEVARD D'	BOULEVARD D'	TYPE	ATT_PRE
LEXENTRY:	BOULEVARD DE	BOULEVARD DE	TYPE	DET_PRE
LEXENTRY:	BOULEVARD DE L'	BOULEVARD DE L'	TYPE	ATT_PRE
LEXENTRY:	BOULEVARD DE LA	BOULEVARD DE LA	TYPE	DET_PRE
LEXENTRY:	BOULEVARD DU	BOULEVARD DU	TYPE	DET_PRE
LEXENTRY:	CH	CHAUSSÉE	TYPE	DET_PRE
LEXENTRY:	CH.	CHAUSSÉE	TYPE	DET_PRE
";
"LEXENTRY:	CHAUSSEE	CHAUSSÉE	TYPE	DET_PRE
LEXENTRY:	CHAUSSÉE	CHAUSSÉE	TYPE	DET_PRE
LEXENTRY:	CHEMIN	CHEMIN	TYPE	DET_PRE
LEXENTRY:	CHEMIN D'	CHEMIN D'	TYPE	ATT_PRE
LEXENTRY:	CHEMIN DE	CHEMIN DE	TYPE	DET_PRE
LEXENTRY:	CHEMIN DE L'	CHEMIN DE L'	TYPE	ATT_PRE
LEXENTRY:	CHEMIN DE LA	CHEMIN DE LA	TYPE	DET_PRE
LEXENTRY:	CHEMIN DES	CHEMIN DES	TYPE	DET_PRE
LEXENTRY:	CHEMIN DU	CHEMIN DU	TYPE	DET_PRE
LEXENTRY:	CITE	CITÉ	TYPE	DET_PRE
LEXENTRY:	CITE AU	CITÉ AU	TYPE	DET_PRE
LEXENTRY:	CITE D'	CITÉ D'	TYPE	ATT_PRE
LEXENTRY:	CITE DE L'	CITÉ DE L'	TYPE	ATT_PRE
LEXENTRY:	CITE DE LA	CITÉ DE LA	TYPE	DET_PRE
LEXENTRY:	CITE DES	CITÉ DES	TYPE	DET_PRE
LEXENTRY:	CITE DU	CITÉ DU	TYPE	DET_PRE
LEXENTRY:	CITÉ	CITÉ	TYPE	DET_PRE
LEXENTRY:	CITÉ AU	CITÉ AU	TYPE	DET_PRE
LEXENTRY:	CITÉ D'	CITÉ D'	TYPE	ATT_PRE
LEXENTRY:	CITÉ DE L'	CITÉ DE L'	TYPE	ATT_PRE
LEXENTRY:	CITÉ DE LA	CITÉ DE LA	TYPE	DET_PRE
LEXENTRY:	CITÉ DES	CITÉ DES	TYPE	DET_PRE
LEXENTRY:	CITÉ DU	CITÉ DU	TYPE	DET_PRE
LEXENTRY:	COIN D'	COIN D'	TYPE	ATT_PRE
LEXENTRY:	COIN DU	COIN DU	TYPE	DET_PRE
LEXENTRY:	COTE D'	CÔTE D'	TYPE	ATT_PRE
LEXENTRY:	COUR DE LA	COUR DE LA	TYPE	DET_PRE
LEXENTRY:	COUR DU	COUR DU	TYPE	DET_PRE
LEXENTRY:	CROIX DE	CROIX DE	TYPE	DET_PRE
LEXENTRY:	CÔTE D'	CÔTE D'	TYPE	ATT_PRE
LEXENTRY:	DOMAINE	DOMAINE	TYPE	DET_PRE
LEXENTRY:	DOMAINE DES	DOMAINE DES	TYPE	DET_PRE
LEXENTRY:	ECHANGEUR	ÉCHANGEUR	TYPE	DET_PRE
LEXENTRY:	FELD	FELD	TYPE	ATT_SUF,DET_SUF
LEXENTRY:	HOF	HOF	TYPE	ATT_SUF,DET_SUF
LEXENTRY:	IMPASSE	IMPASSE	TYPE	DET_PRE
LEXENTRY:	IMPASSE DE L'	IMPASSE DE L'	TYPE	ATT_PRE
LEXENTRY:	IMPASSE DE LA	IMPASSE DE LA	TYPE	DET_PRE
LEXENTRY:	IMPASSE DES	IMPASSE DES	TYPE	DET_PRE
LEXENTRY:	IMPASSE DU	IMPASSE DU	TYPE	DET_PRE
LEXENTRY:	KOERICH	KOERICH	CITY	DETACH
LEXENTRY:	LOTISSEMENT	LOTISSEMENT	TYPE	DET_PRE
LEXENTRY:	LOTISSEMENT DES	LOTISSEMENT DES	TYPE	DET_PRE
LEXENTRY:	LU	LUXEMBOURG	NATION	DETACH
LEXENTRY:	LUX	LUXEMBOURG	NATION	DETACH
LEXENTRY:	LUXEMBOURG	LUXEMBOURG	NATION	DETACH
LEXENTRY:	MONTEE	MONTÉE	TYPE	DET_PRE
LEXENTRY:	MONTEE D'	MONTÉE D'	TYPE	ATT_PRE
LEXENTRY:	MONTEE DE	MONTÉE DE	TYPE	DET_PRE
LEXENTRY:	MONTEE DE L'	MONTÉE DE L'	TYPE	ATT_PRE
LEXENTRY:	MONTEE DE LA	MONTÉE DE LA	TYPE	DET_PRE
LEXENTRY:	MONTEE DES	MONTÉE DES	TYPE	DET_PRE
LEXENTRY:	MONTEE DU	MONTÉE DU	TYPE	DET_PRE
LEXENTRY:	MONTÉE	MONTÉE	TYPE	DET_PRE
LEXENTRY:	MONTÉE D'	MONTÉE D'	TYPE	ATT_PRE
LEXENTRY:	MONTÉE DE	MONTÉE DE	TYPE	DET_PRE
LEXENTRY:	MONTÉE DE L'	MONTÉE DE L'	TYPE	ATT_PRE
LEXENTRY:	MONTÉE DE LA	MONTÉE DE LA	TYPE	DET_PRE
";
"LEXENTRY:	MONTÉE DES	MONTÉE DES	TYPE	DET_PRE
LEXENTRY:	MONTÉE DU	MONTÉE DU	TYPE	DET_PRE
LEXENTRY:	PARC	PARC	TYPE	DET_PRE
LEXENTRY:	PARVIS DE LA	PARVIS DE LA	TYPE	DET_PRE
LEXENTRY:	PASSAGE	PASSAGE	TYPE	DET_PRE
LEXENTRY:	PASSAGE DE L'	PASSAGE DE L'	TYPE	ATT_PRE
LEXENTRY:	PASSAGE DES	PASSAGE DES	TYPE	DET_PRE
LEXENTRY:	PB	PB	BOXH	DETACH
LEXENTRY:	PETITE R. DES	PETITE RUE DES	TYPE	DET_PRE
LEXENTRY:	PETITE RUE DES	PETITE RUE DES	TYPE	DET_PRE
LEXENTRY:	PETITE RUE DU	PETITE RUE DU	TYPE	DET_PRE
LEXENTRY:	PFAD	PFAD	TYPE	ATT_SUF
LEXENTRY:	PLACE	PLACE	TYPE	DET_PRE
LEXENTRY:	PLACE D'	PLACE D'	TYPE	ATT_PRE
LEXENTRY:	PLACE DE	PLACE DE	TYPE	DET_PRE
LEXENTRY:	PLACE DE L'	PLACE DE L'	TYPE	ATT_PRE
LEXENTRY:	PLACE DE LA	PLACE DE LA	TYPE	DET_PRE
LEXENTRY:	PLACE DES	PLACE DES	TYPE	DET_PRE
LEXENTRY:	PLACE DU	PLACE DU	TYPE	DET_PRE
LEXENTRY:	PLATEAU	PLATEAU	TYPE	DET_PRE
LEXENTRY:	PLATEAU DU	PLATEAU DU	TYPE	DET_PRE
LEXENTRY:	PLATZ	PLATZ	TYPE	ATT_SUF
LEXENTRY:	PONT	PONT	TYPE	DET_PRE
LEXENTRY:	PONT DE LA	PONT DE LA	TYPE	DET_PRE
LEXENTRY:	PORTE DES	PORTE DES	TYPE	DET_PRE
LEXENTRY:	PROMENADE DE LA	PROMENADE DE LA	TYPE	DET_PRE
LEXENTRY:	QUAI DE LA	QUAI DE LA	TYPE	DET_PRE
LEXENTRY:	QUARTIER	QUARTIER	TYPE	DET_PRE
LEXENTRY:	QUARTIER DE L'	QUARTIER DE L'	TYPE	ATT_PRE
LEXENTRY:	R.	RUE	TYPE	DET_PRE
LEXENTRY:	R. D'	RUE D'	TYPE	ATT_PRE
LEXENTRY:	R. DE	RUE DE	TYPE	DET_PRE
LEXENTRY:	R. DE L'	RUE DE L'	TYPE	ATT_PRE
LEXENTRY:	R. DE LA	RUE DE LA	TYPE	DET_PRE
LEXENTRY:	R. DES	RUE DES	TYPE	DET_PRE
LEXENTRY:	R. DU	RUE DU	TYPE	DET_PRE
LEXENTRY:	ROND-POINT	ROND-POINT	TYPE	DET_PRE
LEXENTRY:	ROUTE	ROUTE	TYPE	DET_PRE
LEXENTRY:	ROUTE D'	ROUTE D'	TYPE	ATT_PRE
LEXENTRY:	ROUTE DE	ROUTE DE	TYPE	DET_PRE
LEXENTRY:	ROUTE DE L'	ROUTE DE L'	TYPE	ATT_PRE
LEXENTRY:	ROUTE DE LA	ROUTE DE LA	TYPE	DET_PRE
LEXENTRY:	ROUTE DES	ROUTE DES	TYPE	DET_PRE
LEXENTRY:	ROUTE DU	ROUTE DU	TYPE	DET_PRE
LEXENTRY:	RTE	ROUTE	TYPE	DET_PRE
LEXENTRY:	RTE D'	ROUTE D'	TYPE	ATT_PRE
LEXENTRY:	RTE DE	ROUTE DE	TYPE	DET_PRE
LEXENTRY:	RTE DE L'	ROUTE DE L'	TYPE	ATT_PRE
LEXENTRY:	RTE DE LA	ROUTE DE LA	TYPE	DET_PRE
LEXENTRY:	RTE DES	ROUTE DES	TYPE	DET_PRE
LEXENTRY:	RTE DU	ROUTE DU	TYPE	DET_PRE
LEXENTRY:	RTE.	ROUTE	TYPE	DET_PRE
LEXENTRY:	RTE. D'	ROUTE D'	TYPE	ATT_PRE
LEXENTRY:	RTE. DE	ROUTE DE	TYPE	DET_PRE
LEXENTRY:	RTE. DE L'	ROUTE DE L'	TYPE	ATT_PRE
LEXENTRY:	RTE. DE LA	ROUTE DE LA	TYPE	DET_PRE
LEXENTRY:	RTE. DES	ROUTE DES	TYPE	DET_PRE
LEXENTRY:	RTE. DU	ROUTE DU	TYPE	DET_PRE
LEXENTRY:	RUE	RUE	TYPE	DET_PRE
LEXENTRY:	RUE D'	RUE D'	TYPE	ATT_PRE
";
"LEXENTRY:	RUE DE	RUE DE	TYPE	DET_PRE
LEXENTRY:	RUE DE L'	RUE DE L'	TYPE	ATT_PRE
LEXENTRY:	RUE DE LA	RUE DE LA	TYPE	DET_PRE
LEXENTRY:	RUE DES	RUE DES	TYPE	DET_PRE
LEXENTRY:	RUE DU	RUE DU	TYPE	DET_PRE
LEXENTRY:	RUELLE	RUELLE	TYPE	DET_PRE
LEXENTRY:	RUELLE DE LA	RUELLE DE LA	TYPE	DET_PRE
LEXENTRY:	RÉSIDENCE	RÉSIDENCE	TYPE	DET_PRE
LEXENTRY:	SENTIER DE	SENTIER DE	TYPE	DET_PRE
LEXENTRY:	SENTIER DE L'	SENTIER DE L'	TYPE	ATT_PRE
LEXENTRY:	SENTIER DE LA	SENTIER DE LA	TYPE	DET_PRE
LEXENTRY:	SQUARE	SQUARE	TYPE	DET_PRE
LEXENTRY:	TAL	TAL	TYPE	ATT_SUF
LEXENTRY:	VALLEE DE LA	VALLÉE DE LA	TYPE	DET_PRE
LEXENTRY:	VALLÉE DE LA	VALLÉE DE LA	TYPE	DET_PRE
LEXENTRY:	WEG	WEG	TYPE	ATT_SUF,DET_SUF
LEXENTRY:	ÉCHANGEUR	ÉCHANGEUR	TYPE	DET_PRE
"].
(** data/sample/monaco.lex *)
Definition slex_monaco : list string :=
[
"LEXICON:	lex-monaco.txt	FRA	fr_MC
LEXENTRY:			WORD	DETACH
LEXENTRY:	1	1	NUMBER	DETACH
LEXENTRY:	10	10	NUMBER	DETACH
LEXENTRY:	100	100	NUMBER	DETACH
LEXENTRY:	10E	10E	WORD,ORD	DETACH
LEXENTRY:	11	11	NUMBER	DETACH
LEXENTRY:	12	12	NUMBER	DETACH
LEXENTRY:	13	13	NUMBER	DETACH
LEXENTRY:	14	14	NUMBER	DETACH
LEXENTRY:	15	15	NUMBER	DETACH
LEXENTRY:	16	16	NUMBER	DETACH
LEXENTRY:	17	17	NUMBER	DETACH
LEXENTRY:	18	18	NUMBER	DETACH
LEXENTRY:	19	19	NUMBER	DETACH
LEXENTRY:	1ER	1ER	WORD,ORD	DETACH
LEXENTRY:	1ÈRE	1ER	WORD,ORD	DETACH
LEXENTRY:	2	2	NUMBER	DETACH
LEXENTRY:	20	20	NUMBER	DETACH
LEXENTRY:	2E	2E	WORD,ORD	DETACH
LEXENTRY:	3	3	NUMBER	DETACH
LEXENTRY:	30	30	NUMBER	DETACH
LEXENTRY:	3E	3E	WORD,ORD	DETACH
LEXENTRY:	4	4	NUMBER	DETACH
LEXENTRY:	40	40	NUMBER	DETACH
LEXENTRY:	4E	4E	WORD,ORD	DETACH
LEXENTRY:	5	5	NUMBER	DETACH
LEXENTRY:	50	50	NUMBER	DETACH
LEXENTRY:	5E	5E	WORD,ORD	DETACH
LEXENTRY:	6	6	NUMBER	DETACH
LEXENTRY:	60	60	NUMBER	DETACH
LEXENTRY:	6E	6E	WORD,ORD	DETACH
LEXENTRY:	7	7	NUMBER	DETACH
LEXENTRY:	7E	7E	WORD,ORD	DETACH
LEXENTRY:	8	8	NUMBER	DETACH
LEXENTRY:	8E	8E	WORD,ORD	DETACH
LEXENTRY:	9	9	NUMBER	DETACH
LEXENTRY:	9E	9E	WORD,ORD	DETACH
LEXENTRY:	AEROPORT	AEROPORT	PLACEN	DETACH
LEXENTRY:	ALLÉE	ALLÉE	TYPE	ATT_PRE,DET_PRE
LEXENTRY:	ALLÉE AUX	ALLÉE	TYPE	DET_PRE
LEXENTRY:	ALLÉE D'	ALLÉE	TYPE	ATT_PRE
LEXENTRY:	ALLÉE DE	ALLÉE	TYPE	DET_PRE
LEXENTRY:	ALLÉE DE L'	ALLÉE	TYPE	ATT_PRE
LEXENTRY:	ALLÉE DE LA	ALLÉE	TYPE	DET_PRE
LEXENTRY:	ALLÉE DES	ALLÉE	TYPE	DET_PRE
LEXENTRY:	ALLÉE DU	ALLÉE	TYPE	DET_PRE
LEXENTRY:	ALLÉE L'	ALLÉE	TYPE	ATT_PRE
LEXENTRY:	ALLÉE LA	ALLÉE	TYPE	DET_PRE
LEXENTRY:	ALLÉE LE	ALLÉE	TYPE	DET_PRE
LEXENTRY:	ALLÉE LES 	ALLÉE	TYPE	DET_PRE
LEXENTRY:	ALLÉES	ALLÉES	TYPE	DET_PRE
LEXENTRY:	ALLÉES DES	ALLÉES	TYPE	DET_PRE
LEXENTRY:	ANCIEN CHEMIN	ANCIEN CHEMIN	TYPE	DET_PRE
LEXENTRY:	ANCIEN CHEMIN DE 	ANCIEN CHEMIN	TYPE	DET_PRE
LEXENTRY:	ANCIENNE ROUTE	ANCIENNE ROUTE	TYPE	DET_PRE
LEXENTRY:	ANCIENNE ROUTE DE	ANCIENNE ROUTE	TYPE	DET_PRE
LEXENTRY:	ANCIENNE RUE	ANCIENNE RUE	TYPE	DET_PRE
LEXENTRY:	ANCIENNE RUE AUX	ANCIENNE RUE	TYPE	DET_PRE
LEXENTRY:	APARTEMENT	APARTEMENT	UNITH	DETACH
LEXENTRY:	APP	APARTEMENT	UNITH	DETACH
LEXENTRY:	APP.	APARTEMENT	UNITH	DETACH
LEXENTRY:	ASBL	ASBL	PLACEN	DETACH
LEXENTRY:	ASSOCIATION	ASSOCIATION	PLACEN	DETACH
LEXENTRY:	AUTOROUTE	AUTOROUTE	TYPE	ATT_PRE,DET_PRE
LEXENTRY:	AUTOROUTE DE	AUTOROUTE	TYPE	DET_PRE
LEXENTRY:	AUTOROUTE DE L'	AUTOROUTE	TYPE	ATT_PRE
LEXENTRY:	AUTOROUTE DU	AUTOROUTE	TYPE	DET_PRE
LEXENTRY:	AV	AVENUE	TYPE	DET_PRE,DET_SUF
";
"LEXENTRY:	AV.	AVENUE	TYPE	DET_PRE,DET_SUF
LEXENTRY:	AVE	AVENUE	TYPE	DET_PRE,DET_SUF
LEXENTRY:	AVE.	AVENUE	TYPE	DET_PRE,DET_SUF
LEXENTRY:	AVENUE	AVENUE	TYPE	ATT_PRE,DET_PRE,DET_SUF
LEXENTRY:	AVENUE D'	AVENUE	TYPE	ATT_PRE
LEXENTRY:	AVENUE DE	AVENUE	TYPE	DET_PRE
LEXENTRY:	AVENUE DE L'	AVENUE	TYPE	ATT_PRE
LEXENTRY:	AVENUE DE LA	AVENUE	TYPE	DET_PRE
LEXENTRY:	AVENUE DES	AVENUE	TYPE	DET_PRE
LEXENTRY:	AVENUE DU	AVENUE	TYPE	DET_PRE
LEXENTRY:	AVENUE LA 	AVENUE	TYPE	DET_PRE
LEXENTRY:	BANQUE	BANQUE	PLACEN	DETACH
LEXENTRY:	BAT	BÂTIMENT	UNITH	DETACH
LEXENTRY:	BAT.	BÂTIMENT	UNITH	DETACH
LEXENTRY:	BD	BOULEVARD	TYPE	DET_PRE,DET_SUF
LEXENTRY:	BD.	BOULEVARD	TYPE	DET_PRE,DET_SUF
LEXENTRY:	BERGE	BERGE	TYPE	DET_PRE
LEXENTRY:	BERGE DE	BERGE	TYPE	DET_PRE
LEXENTRY:	BERGE DE LA	BERGE	TYPE	DET_PRE
LEXENTRY:	BIBLIOTHÈQUE	BIBLIOTHÈQUE	PLACEN	DETACH
LEXENTRY:	BIS	BIS	UNITH	DETACH
LEXENTRY:	À	À	UNITH	DETACH
LEXENTRY:	ET	ET	UNITH	DETACH
LEXENTRY:	BLD	BOULEVARD	TYPE	DET_PRE,DET_SUF
LEXENTRY:	BLD.	BOULEVARD	TYPE	DET_PRE,DET_SUF
LEXENTRY:	BOULANGERIE	BOULANGERIE	PLACEN	DETACH
LEXENTRY:	BOULEVARD	BOULEVARD	TYPE	ATT_PRE,DET_PRE,DET_SUF
LEXENTRY:	BOULEVARD D'	BOULEVARD	TYPE	ATT_PRE
LEXENTRY:	BOULEVARD DE	BOULEVARD	TYPE	DET_PRE
LEXENTRY:	BOULEVARD DE L'	BOULEVARD	TYPE	ATT_PRE
LEXENTRY:	BOULEVARD DE LA	BOULEVARD	TYPE	DET_PRE
LEXENTRY:	BOULEVARD DES	BOULEVARD	TYPE	DET_PRE
LEXENTRY:	BOULEVARD DU	BOULEVARD	TYPE	DET_PRE
LEXENTRY:	BOITE POSTALE	BOITE POSTALE	BOXH	DETACH
LEXENTRY:	BP	BOITE POSTALE	BOXH	DETACH
LEXENTRY:	BRETELLE	BRETELLE	TYPE	DET_PRE
LEXENTRY:	BUREAU	BUREAU	PLACEN	DETACH
LEXENTRY:	BÂTIMENT	BÂTIMENT	UNITH	DETACH
LEXENTRY:	CAFÉ	CAFÉ	PLACEN	DETACH
LEXENTRY:	CAIE		WORD	DETACH
LEXENTRY:	CANAL	CANAL	TYPE	DET_PRE
LEXENTRY:	CARREFOUR	CARREFOUR	TYPE	ATT_PRE,DET_PRE
LEXENTRY:	CARREFOUR AUX	CARREFOUR	TYPE	DET_PRE
LEXENTRY:	CARREFOUR D'	CARREFOUR	TYPE	ATT_PRE
LEXENTRY:	CARREFOUR DE	CARREFOUR	TYPE	DET_PRE
LEXENTRY:	CARREFOUR DE L'	CARREFOUR	TYPE	ATT_PRE
LEXENTRY:	CARREFOUR DE LA	CARREFOUR	TYPE	DET_PRE
LEXENTRY:	CARREFOUR DES	CARREFOUR	TYPE	DET_PRE
LEXENTRY:	CARREFOUR DU	CARREFOUR	TYPE	DET_PRE
LEXENTRY:	CARRÉ	CARRÉ	TYPE	ATT_PRE,DET_PRE
LEXENTRY:	CARRÉ AU	CARRÉ	TYPE	DET_PRE
LEXENTRY:	CARRÉ DE LA	CARRÉ	TYPE	DET_PRE
LEXENTRY:	CARRÉ DES	CARRÉ	TYPE	DET_PRE
LEXENTRY:	CARRÉ DU	CARRÉ	TYPE	DET_PRE
LEXENTRY:	CARRÉ À L'	CARRÉ	TYPE	ATT_PRE
LEXENTRY:	CARRÉ À LA	CARRÉ	TYPE	DET_PRE
LEXENTRY:	CENT	100	NUMBER	DETACH
LEXENTRY:	CENTRE	CENTRE	PLACEN,TYPE	DETACH,DET_PRE
LEXENTRY:	CERCLE	CERCLE	TYPE	DET_PRE
";
"LEXENTRY:	CERCLE DE LA	CERCLE	TYPE	DET_PRE
LEXENTRY:	CH	CHAUSSÉE	TYPE	DET_PRE
LEXENTRY:	CH.	CHAUSSÉE	TYPE	DET_PRE
LEXENTRY:	CHAMP	CHAMP	TYPE	DET_PRE
LEXENTRY:	CHAMP DE	CHAMP	TYPE	DET_PRE
LEXENTRY:	CHAMP DE LA	CHAMP	TYPE	DET_PRE
LEXENTRY:	CHAMP DU	CHAMP	TYPE	DET_PRE
LEXENTRY:	CHAUSSÉE	CHAUSSÉE	TYPE	ATT_PRE,DET_PRE
LEXENTRY:	CHAUSSÉE DE	CHAUSSÉE	TYPE	DET_PRE
LEXENTRY:	CHAUSSÉE DE L'	CHAUSSÉE	TYPE	ATT_PRE
LEXENTRY:	CHAUSSÉE DE LA	CHAUSSÉE	TYPE	DET_PRE
LEXENTRY:	CHAUSSÉE DES	CHAUSSÉE	TYPE	DET_PRE
LEXENTRY:	CHAUSSÉE DU	CHAUSSÉE	TYPE	DET_PRE
LEXENTRY:	CHEE	CHAUSSÉE	TYPE	DET_PRE
LEXENTRY:	CHEE.	CHAUSSÉE	TYPE	DET_PRE
LEXENTRY:	CHEMIN	CHEMIN	TYPE	ATT_PRE,DET_PRE
LEXENTRY:	CHEMIN AU	CHEMIN	TYPE	DET_PRE
LEXENTRY:	CHEMIN AUX	CHEMIN	TYPE	DET_PRE
LEXENTRY:	CHEMIN D'	CHEMIN	TYPE	ATT_PRE
LEXENTRY:	CHEMIN DE	CHEMIN	TYPE	DET_PRE
LEXENTRY:	CHEMIN DE L'	CHEMIN	TYPE	ATT_PRE
LEXENTRY:	CHEMIN DE LA	CHEMIN	TYPE	DET_PRE
LEXENTRY:	CHEMIN DES	CHEMIN	TYPE	DET_PRE
LEXENTRY:	CHEMIN DU	CHEMIN	TYPE	DET_PRE
LEXENTRY:	CHEMIN LES	CHEMIN	TYPE	DET_PRE
LEXENTRY:	CHEMIN RURAL DE	CHEMIN	TYPE	DET_PRE
LEXENTRY:	CHEMIN À	CHEMIN	TYPE	DET_PRE
LEXENTRY:	CHS	CHAUSSÉE	TYPE	DET_PRE
LEXENTRY:	CHS.	CHAUSSÉE	TYPE	DET_PRE
LEXENTRY:	CIDEX		WORD	DETACH
LEXENTRY:	CINQ	5	NUMBER	DETACH
LEXENTRY:	CINQUANTE	50	NUMBER	DETACH
LEXENTRY:	CINQUIÈME	5E	WORD,ORD	DETACH
LEXENTRY:	CINÉMA	CINÉMA	PLACEN	DETACH
LEXENTRY:	CITÉ	CITÉ	TYPE	ATT_PRE,DET_PRE
LEXENTRY:	CITÉ D'	CITÉ	TYPE	ATT_PRE
LEXENTRY:	CITÉ DE	CITÉ	TYPE	DET_PRE
LEXENTRY:	CITÉ DE L'	CITÉ	TYPE	ATT_PRE
LEXENTRY:	CITÉ DE LA	CITÉ	TYPE	DET_PRE
LEXENTRY:	CITÉ DES	CITÉ	TYPE	DET_PRE
LEXENTRY:	CITÉ DU	CITÉ	TYPE	DET_PRE
LEXENTRY:	CLOS	CLOS	TYPE	ATT_PRE,DET_PRE
LEXENTRY:	CLOS D'	CLOS	TYPE	ATT_PRE
LEXENTRY:	CLOS DE	CLOS	TYPE	DET_PRE
LEXENTRY:	CLOS DE L'	CLOS	TYPE	ATT_PRE
LEXENTRY:	CLOS DE LA	CLOS	TYPE	DET_PRE
LEXENTRY:	CLOS DES	CLOS	TYPE	DET_PRE
LEXENTRY:	CLOS DU	CLOS	TYPE	DET_PRE
LEXENTRY:	CO	CO	PLACEN	DETACH
LEXENTRY:	COLLÈGE	COLLÈGE	PLACEN	DETACH
LEXENTRY:	COMPAGNIE	COMPAGNIE	PLACEN	DETACH
LEXENTRY:	CORDON	CORDON	TYPE	DET_PRE
LEXENTRY:	CORDON DE	CORDON	TYPE	DET_PRE
LEXENTRY:	CORP	CORP	PLACEN	DETACH
LEXENTRY:	CORPORATION	CORPORATION	PLACEN	DETACH
LEXENTRY:	COTEAU	COTEAU	TYPE	ATT_PRE
LEXENTRY:	COTEAU D'	COTEAU	TYPE	ATT_PRE
LEXENTRY:	COTEAU D'	COTEAU D'	TYPE	DET_PRE
LEXENTRY:	COTTAGE	COTTAGE	TYPE	DET_PRE
LEXENTRY:	COTTAGE DE LA	COTTAGE	TYPE	DET_PRE
LEXENTRY:	COTTAGE DES	COTTAGE	TYPE	DET_PRE
LEXENTRY:	COTTAGES	COTTAGES	TYPE	DET_PRE,DET_SUF
";
"LEXENTRY:	COUR	COUR	TYPE	ATT_PRE,DET_PRE
LEXENTRY:	COUR AUX	COUR	TYPE	DET_PRE
LEXENTRY:	COUR D'	COUR	TYPE	ATT_PRE,DET_PRE
LEXENTRY:	COUR DE	COUR	TYPE	DET_PRE
LEXENTRY:	COUR DE L'	COUR	TYPE	ATT_PRE,DET_PRE
LEXENTRY:	COUR DE LA	COUR	TYPE	DET_PRE
LEXENTRY:	COUR DES	COUR	TYPE	DET_PRE
LEXENTRY:	COUR DU	COUR	TYPE	DET_PRE
LEXENTRY:	COUR À	COUR	TYPE	DET_PRE
LEXENTRY:	COURS	COURS	TYPE	ATT_PRE,DET_PRE
LEXENTRY:	COURS D'	COURS	TYPE	ATT_PRE,DET_PRE
LEXENTRY:	COURS DE	COURS	TYPE	DET_PRE
LEXENTRY:	COURS DE L'	COURS	TYPE	ATT_PRE,DET_PRE
LEXENTRY:	COURS DE LA	COURS	TYPE	DET_PRE
LEXENTRY:	COURS DES	COURS	TYPE	DET_PRE
LEXENTRY:	COURS DU	COURS	TYPE	DET_PRE
LEXENTRY:	CROIX	CROIX	TYPE	DET_PRE
LEXENTRY:	CROIX DE	CROIX	TYPE	DET_PRE
LEXENTRY:	CRÉDIT	CRÉDIT	PLACEN	DETACH
LEXENTRY:	CÉDEX		WORD	DETACH
LEXENTRY:	CÔTE	CÔTE	TYPE	ATT_PRE,DET_PRE
LEXENTRY:	CÔTE D'	CÔTE	TYPE	ATT_PRE,DET_PRE
LEXENTRY:	CÔTE DE	CÔTE	TYPE	DET_PRE
LEXENTRY:	CÔTE DE LA	CÔTE	TYPE	DET_PRE
LEXENTRY:	CÔTE DES	CÔTE	TYPE	DET_PRE
LEXENTRY:	CÔTE DU	CÔTE	TYPE	DET_PRE
LEXENTRY:	DEMI-ÉCHANGEUR	DEMI-ÉCHANGEUR	TYPE	DET_PRE
LEXENTRY:	DEMI-ÉCHANGEUR DE	DEMI-ÉCHANGEUR	TYPE	DET_PRE
LEXENTRY:	DEMI-ÉCHANGEUR DES	DEMI-ÉCHANGEUR	TYPE	DET_PRE
LEXENTRY:	DESSERTE	DESSERTE	TYPE	DET_PRE
LEXENTRY:	DEUX	2	NUMBER	DETACH
LEXENTRY:	DEUXIÈME	2E	WORD,ORD	DETACH
LEXENTRY:	DIGUE	DIGUE	TYPE	ATT_PRE
LEXENTRY:	DIGUE D'	DIGUE	TYPE	ATT_PRE
LEXENTRY:	DIGUE D'	DIGUE D'	TYPE	DET_PRE
LEXENTRY:	DIX	10	NUMBER	DETACH
LEXENTRY:	DIX-HUIT	18	NUMBER	DETACH
LEXENTRY:	DIX-NEUF	19	NUMBER	DETACH
LEXENTRY:	DIX-SEPT	17	NUMBER	DETACH
LEXENTRY:	DIXIÈME	10E	WORD,ORD	DETACH
LEXENTRY:	DOCT	DOCTEUR	WORD	DETACH
LEXENTRY:	DOCTEUR	DOCTEUR	WORD	DETACH
LEXENTRY:	DOM	DOMAINE	TYPE	DET_PRE
LEXENTRY:	DOM.	DOMAINE	TYPE	DET_PRE
LEXENTRY:	DOMAINE	DOMAINE	TYPE	ATT_PRE,DET_PRE
LEXENTRY:	DOMAINE DE	DOMAINE	TYPE	DET_PRE
LEXENTRY:	DOMAINE DE L'	DOMAINE	TYPE	ATT_PRE,DET_PRE
LEXENTRY:	DOMAINE DE LA	DOMAINE	TYPE	DET_PRE
LEXENTRY:	DOMAINE DES	DOMAINE	TYPE	DET_PRE
LEXENTRY:	DOMAINE DU	DOMAINE	TYPE	DET_PRE
LEXENTRY:	DOUZE	12	NUMBER	DETACH
LEXENTRY:	ENCLOS	ENCLOS	TYPE	ATT_PRE,DET_PRE
LEXENTRY:	ENCLOS DE L'	ENCLOS	TYPE	ATT_PRE,DET_PRE
LEXENTRY:	ENTREPRISE	ENTREPRISE	PLACEN	DETACH
LEXENTRY:	ESCALIER	ESCALIER	TYPE	DET_PRE
LEXENTRY:	ESCALIER DE LA	ESCALIER	TYPE	DET_PRE
LEXENTRY:	ESCALIER DES	ESCALIER	TYPE	DET_PRE
LEXENTRY:	ESCALIER DU	ESCALIER	TYPE	DET_PRE
LEXENTRY:	ESPLANADE	ESPLANADE	TYPE	ATT_PRE,DET_PRE
LEXENTRY:	ESPLANADE D'	ESPLANADE	TYPE	ATT_PRE,DET_PRE
";
"LEXENTRY:	ESPLANADE DE	ESPLANADE	TYPE	DET_PRE
LEXENTRY:	ESPLANADE DE L'	ESPLANADE	TYPE	ATT_PRE,DET_PRE
LEXENTRY:	ESPLANADE DE LA	ESPLANADE	TYPE	DET_PRE
LEXENTRY:	ESPLANADE DES	ESPLANADE	TYPE	DET_PRE
LEXENTRY:	ESPLANADE DU	ESPLANADE	TYPE	DET_PRE
LEXENTRY:	EURL	EURL	PLACEN	DETACH
LEXENTRY:	PALAIS	PALAIS	PLACEN	DETACH
LEXENTRY:	FACULTÉ	FACULTÉ	PLACEN	DETACH
LEXENTRY:	FAUBOURG	FAUBOURG	TYPE,WORD	DETACH,DET_PRE
LEXENTRY:	FAUBOURG DE	FAUBOURG	TYPE	DET_PRE
LEXENTRY:	FBG	FAUBOURG	WORD	DETACH
LEXENTRY:	FG	FAUBOURG	TYPE	DET_PRE
LEXENTRY:	FG.	FAUBOURG	TYPE	DET_PRE
LEXENTRY:	FORUM	FORUM	TYPE	DET_PRE
LEXENTRY:	GALERIE	GALERIE	PLACEN,TYPE	ATT_PRE,DETACH,DET_PRE
LEXENTRY:	GALERIE D'	GALERIE	TYPE	ATT_PRE,DET_PRE
LEXENTRY:	GALERIE DE	GALERIE	TYPE	DET_PRE
LEXENTRY:	GALERIE DE LA	GALERIE	TYPE	DET_PRE
LEXENTRY:	GALERIE DES	GALERIE	TYPE	DET_PRE
LEXENTRY:	GALERIE DU	GALERIE	TYPE	DET_PRE
LEXENTRY:	GARE	GARE	PLACEN	DETACH
LEXENTRY:	GIE	GIE	PLACEN	DETACH
LEXENTRY:	GRAND SENTIER	GRAND SENTIER	TYPE	DET_PRE
LEXENTRY:	GRANDE ALLÉE	GRANDE ALLÉE	TYPE	DET_PRE
LEXENTRY:	GRANDE ALLÉE DE LA	GRANDE ALLÉE	TYPE	DET_PRE
LEXENTRY:	GRANDE ALLÉE DES	GRANDE ALLÉE	TYPE	DET_PRE
LEXENTRY:	GRANDE ALLÉE DU	GRANDE ALLÉE	TYPE	DET_PRE
LEXENTRY:	GRANDE IMPASSE	GRANDE IMPASSE	TYPE	DET_PRE
LEXENTRY:	GRANDE IMPASSE DES	GRANDE IMPASSE	TYPE	DET_PRE
LEXENTRY:	GRANDE RUE	GRANDE RUE	TYPE	DET_PRE
LEXENTRY:	GRANDE RUE DE	GRANDE RUE	TYPE	DET_PRE
LEXENTRY:	GRANDE RUELLE	GRANDE RUELLE	TYPE	DET_PRE
LEXENTRY:	GRANDE SENTE	GRANDE SENTE	TYPE	DET_PRE
LEXENTRY:	GRANDE SENTE DES	GRANDE SENTE	TYPE	DET_PRE
LEXENTRY:	GRANDE SENTE DU	GRANDE SENTE	TYPE	DET_PRE
LEXENTRY:	GRANDE VOIE	GRANDE VOIE	TYPE	DET_PRE
LEXENTRY:	GRANDE VOIE DES	GRANDE VOIE	TYPE	DET_PRE
LEXENTRY:	GROUPE	GROUPE	PLACEN	DETACH
LEXENTRY:	GROUPEMENT	GROUPEMENT	PLACEN	DETACH
LEXENTRY:	GÉN	GÉNÉRAL	WORD	DETACH
LEXENTRY:	GÉNÉRAL	GÉNÉRAL	WORD	DETACH
LEXENTRY:	HAMEAU	HAMEAU	TYPE	ATT_PRE,DET_PRE
LEXENTRY:	HAMEAU D'	HAMEAU	TYPE	ATT_PRE,DET_PRE
LEXENTRY:	HAMEAU DE	HAMEAU	TYPE	DET_PRE
LEXENTRY:	HAMEAU DE L'	HAMEAU	TYPE	ATT_PRE,DET_PRE
LEXENTRY:	HAMEAU DE LA	HAMEAU	TYPE	DET_PRE
LEXENTRY:	HAMEAU DES	HAMEAU	TYPE	DET_PRE
LEXENTRY:	HAMEAU DU	HAMEAU	TYPE	DET_PRE
LEXENTRY:	HAMEAU LA	HAMEAU	TYPE	DET_PRE
LEXENTRY:	HUIT	8	NUMBER	DETACH
LEXENTRY:	HUITIÈME	8E	WORD,ORD	DETACH
LEXENTRY:	HÔPITAL	HÔPITAL	PLACEN	DETACH
LEXENTRY:	HÔTEL	HÔTEL	PLACEN	DETACH
LEXENTRY:	IMM 	IMMEUBLE	UNITH	DETACH
LEXENTRY:	IMM.	IMMEUBLE	UNITH	DETACH
LEXENTRY:	IMMEUBLE	IMMEUBLE	UNITH	DETACH
";
"LEXENTRY:	IMP	IMPASSE	TYPE	DET_PRE
LEXENTRY:	IMP.	IMPASSE	TYPE	DET_PRE
LEXENTRY:	IMPASSE	IMPASSE	TYPE	ATT_PRE,DET_PRE
LEXENTRY:	IMPASSE AU	IMPASSE	TYPE	DET_PRE
LEXENTRY:	IMPASSE AUX	IMPASSE	TYPE	DET_PRE
LEXENTRY:	IMPASSE D'	IMPASSE	TYPE	ATT_PRE,DET_PRE
LEXENTRY:	IMPASSE DE	IMPASSE	TYPE	DET_PRE
LEXENTRY:	IMPASSE DE L'	IMPASSE	TYPE	ATT_PRE,DET_PRE
LEXENTRY:	IMPASSE DE LA	IMPASSE	TYPE	DET_PRE
LEXENTRY:	IMPASSE DES	IMPASSE	TYPE	DET_PRE
LEXENTRY:	IMPASSE DU	IMPASSE	TYPE	DET_PRE
LEXENTRY:	IMPASSE L'	IMPASSE	TYPE	ATT_PRE,DET_PRE
LEXENTRY:	IMPASSE À	IMPASSE	TYPE	DET_PRE
LEXENTRY:	INSTITUT	INSTITUT	PLACEN	DETACH
LEXENTRY:	JARDIN	JARDIN	PLACEN,TYPE	ATT_PRE,DETACH,DET_PRE
LEXENTRY:	JARDIN DE L'	JARDIN	TYPE	ATT_PRE,DET_PRE
LEXENTRY:	JARDIN DE LA	JARDIN	TYPE	DET_PRE
LEXENTRY:	JARDIN DES	JARDIN	TYPE	DET_PRE
LEXENTRY:	JARDIN DU	JARDIN	TYPE	DET_PRE
LEXENTRY:	JARDINS DU	JARDIN	TYPE	DET_PRE
LEXENTRY:	JETÉE	JETÉE	TYPE	DET_PRE
LEXENTRY:	L'ORÉE	L'ORÉE	TYPE	DET_PRE
LEXENTRY:	L'ORÉE DU	L'ORÉE	TYPE	DET_PRE
LEXENTRY:	LA RÉSIDENCE	LA RÉSIDENCE	TYPE	DET_PRE
LEXENTRY:	LA RÉSIDENCE DU	LA RÉSIDENCE	TYPE	DET_PRE
LEXENTRY:	LABORATOIRE	LABORATOIRE	PLACEN	DETACH
LEXENTRY:	LE CLOS	LE CLOS	TYPE	DET_PRE
LEXENTRY:	LE CLOS DE	LE CLOS	TYPE	DET_PRE
LEXENTRY:	LE CLOS DE LA	LE CLOS	TYPE	DET_PRE
LEXENTRY:	LE CLOS DES	LE CLOS	TYPE	DET_PRE
LEXENTRY:	LE CLOS DU	LE CLOS	TYPE	DET_PRE
LEXENTRY:	LE FOND DES	LE CLOS	TYPE	DET_PRE
LEXENTRY:	LE JARDIN	LE JARDIN	TYPE	DET_PRE
LEXENTRY:	LE JARDIN DE	LE JARDIN	TYPE	DET_PRE
LEXENTRY:	LE PARC	LE PARC	TYPE	DET_PRE
LEXENTRY:	LE PARC DE	LE PARC	TYPE	DET_PRE
LEXENTRY:	LE PARC DU	LE PARC	TYPE	DET_PRE
LEXENTRY:	LES JARDINS	LES JARDINS	TYPE	DET_PRE
LEXENTRY:	LES JARDINS DE LA	LES JARDINS	TYPE	DET_PRE
LEXENTRY:	LES JARDINS DES	LES JARDINS	TYPE	DET_PRE
LEXENTRY:	LES JARDINS DU	LES JARDINS	TYPE	DET_PRE
LEXENTRY:	LES TERRASSES	LES TERRASSES	TYPE	DET_PRE
LEXENTRY:	LES TERRASSES DE	LES TERRASSES	TYPE	DET_PRE
LEXENTRY:	LES TERRASSES DE LA	LES TERRASSES	TYPE	DET_PRE
LEXENTRY:	LES VILLAS	LES VILLAS	TYPE	ATT_PRE,DET_PRE
LEXENTRY:	LES VILLAS DE L'	LES VILLAS	TYPE	ATT_PRE,DET_PRE
LEXENTRY:	LIEU-DIT	LIEU-DIT	TYPE	DET_PRE
LEXENTRY:	LOTISSEMENT	LOTISSEMENT	TYPE	ATT_PRE,DET_PRE
LEXENTRY:	LOTISSEMENT DE L'	LOTISSEMENT	TYPE	ATT_PRE,DET_PRE
LEXENTRY:	LOTISSEMENT DE LA	LOTISSEMENT	TYPE	DET_PRE
LEXENTRY:	LOTISSEMENT DU	LOTISSEMENT	TYPE	DET_PRE
LEXENTRY:	LYCÉE	LYCÉE	PLACEN	DETACH
LEXENTRY:	MAIL	MAIL	TYPE	ATT_PRE,DET_PRE
LEXENTRY:	MAIL AUX	MAIL	TYPE	DET_PRE
LEXENTRY:	MAIL DE	MAIL	TYPE	DET_PRE
";
"LEXENTRY:	MAIL DE L'	MAIL	TYPE	ATT_PRE,DET_PRE
LEXENTRY:	MAIL DE LA	MAIL	TYPE	DET_PRE
LEXENTRY:	MAIL DES	MAIL	TYPE	DET_PRE
LEXENTRY:	MAIL DU	MAIL	TYPE	DET_PRE
LEXENTRY:	MAISON	MAISON	PLACEN,UNITH	DETACH
LEXENTRY:	MARCHÉ	MARCHÉ	PLACEN,TYPE	DETACH,DET_PRE
LEXENTRY:	MARCHÉ DE	MARCHÉ	TYPE	DET_PRE
LEXENTRY:	MARCHÉ DE LA	MARCHÉ	TYPE	DET_PRE
LEXENTRY:	MC	MONACO	NATION	DETACH
LEXENTRY:	MCO	MONACO	NATION	DETACH
LEXENTRY:	MONACO	MONACO	WORD,CITY,NATION	DETACH
LEXENTRY:	MONT	MONTAGNE	TYPE	DET_PRE
LEXENTRY:	MONTAGNE	MONTAGNE	TYPE	DET_PRE
LEXENTRY:	MONTÉE	MONTÉE	TYPE	DET_PRE
LEXENTRY:	MONTÉE DE LA	MONTÉE	TYPE	DET_PRE
LEXENTRY:	MONTÉE DES	MONTÉE	TYPE	DET_PRE
LEXENTRY:	MONTÉE DU	MONTÉE	TYPE	DET_PRE
LEXENTRY:	MT	MONTAGNE	TYPE	DET_PRE
LEXENTRY:	MUSÉE	MUSÉE	PLACEN	DETACH
LEXENTRY:	NEUF	9	NUMBER	DETACH
LEXENTRY:	NEUVIÈME	9E	WORD,ORD	DETACH
LEXENTRY:	NOUVEAU CHEMIN	NOUVEAU CHEMIN	TYPE	DET_PRE
LEXENTRY:	NOUVEAU CHEMIN DES	NOUVEAU CHEMIN	TYPE	DET_PRE
LEXENTRY:	NOUVELLE CITÉ	NOUVELLE CITÉ	TYPE	DET_PRE
LEXENTRY:	NOUVELLE CITÉ DE	NOUVELLE CITÉ	TYPE	DET_PRE
LEXENTRY:	ONZE	11	NUMBER	DETACH
LEXENTRY:	ORÉE	ORÉE	TYPE	DET_PRE
LEXENTRY:	ORÉE DE	ORÉE	TYPE	DET_PRE
LEXENTRY:	ORÉE DU	ORÉE	TYPE	DET_PRE
LEXENTRY:	P	HAMEAU	TYPE	DET_PRE
LEXENTRY:	P	SENTIER	TYPE	DET_PRE
LEXENTRY:	PARC	PARC	PLACEN,TYPE	ATT_PRE,DETACH,DET_PRE
LEXENTRY:	PARC AUX	PARC	TYPE	DET_PRE
LEXENTRY:	PARC DE	PARC	TYPE	DET_PRE
LEXENTRY:	PARC DE L'	PARC	TYPE	ATT_PRE,DET_PRE
LEXENTRY:	PARC DE LA	PARC	TYPE	DET_PRE
LEXENTRY:	PARC DES	PARC	TYPE	DET_PRE
LEXENTRY:	PARC DU	PARC	TYPE	DET_PRE
LEXENTRY:	PARVIS	PARVIS	TYPE	ATT_PRE,DET_PRE
LEXENTRY:	PARVIS DE L'	PARVIS	TYPE	ATT_PRE,DET_PRE
LEXENTRY:	PARVIS DE LA	PARVIS	TYPE	DET_PRE
LEXENTRY:	PARVIS DES	PARVIS	TYPE	DET_PRE
LEXENTRY:	PARVIS DU	PARVIS	TYPE	DET_PRE
LEXENTRY:	PAS	PASSAGE	TYPE	DET_PRE,DET_SUF
LEXENTRY:	PAS.	PASSAGE	TYPE	DET_PRE,DET_SUF
LEXENTRY:	PASS	PASSAGE	TYPE	DET_PRE,DET_SUF
LEXENTRY:	PASS.	PASSAGE	TYPE	DET_PRE,DET_SUF
LEXENTRY:	PASSAGE	PASSAGE	TYPE	ATT_PRE,DET_PRE,DET_SUF
LEXENTRY:	PASSAGE AUX	PASSAGE	TYPE	DET_PRE
LEXENTRY:	PASSAGE D'	PASSAGE	TYPE	ATT_PRE,DET_PRE
LEXENTRY:	PASSAGE DE	PASSAGE	TYPE	DET_PRE
LEXENTRY:	PASSAGE DE L'	PASSAGE	TYPE	ATT_PRE,DET_PRE
LEXENTRY:	PASSAGE DE LA	PASSAGE	TYPE	DET_PRE
LEXENTRY:	PASSAGE DES	PASSAGE	TYPE	DET_PRE
LEXENTRY:	PASSAGE DU	PASSAGE	TYPE	DET_PRE
LEXENTRY:	PASSE	PASSE	TYPE	ATT_PRE,DET_PRE
LEXENTRY:	PASSE DE L'	PASSE	TYPE	ATT_PRE,DET_PRE
LEXENTRY:	PASSERELLE	PASSERELLE	TYPE	ATT_PRE,DET_PRE
";
"LEXENTRY:	PASSERELLE D'	PASSERELLE	TYPE	ATT_PRE,DET_PRE
LEXENTRY:	PASSERELLE DE	PASSERELLE	TYPE	DET_PRE
LEXENTRY:	PASSERELLE DE L'	PASSERELLE	TYPE	DET_PRE
LEXENTRY:	PASSERELLE DE LA	PASSERELLE	TYPE	DET_PRE
LEXENTRY:	PASSERELLE DES	PASSERELLE	TYPE	DET_PRE
LEXENTRY:	PASSERELLE DU	PASSERELLE	TYPE	DET_PRE
LEXENTRY:	PETIT CHEMIN	PETIT CHEMIN	TYPE	DET_PRE
LEXENTRY:	PETIT CHEMIN DE	PETIT CHEMIN	TYPE	DET_PRE
LEXENTRY:	PETIT CHEMIN DU	PETIT CHEMIN	TYPE	DET_PRE
LEXENTRY:	PETIT SENTIER	PETIT SENTIER	TYPE	DET_PRE
LEXENTRY:	PETIT SENTIER DES	PETIT SENTIER	TYPE	DET_PRE
LEXENTRY:	PETITE IMPASSE	PETITE IMPASSE	TYPE	DET_PRE
LEXENTRY:	PETITE IMPASSE DES	PETITE IMPASSE	TYPE	DET_PRE
LEXENTRY:	PETITE ROUTE	PETITE ROUTE	TYPE	ATT_PRE,DET_PRE
LEXENTRY:	PETITE ROUTE DE L'	PETITE ROUTE	TYPE	ATT_PRE,DET_PRE
LEXENTRY:	PETITE RUE	PETITE RUE	TYPE	DET_PRE
LEXENTRY:	PETITE RUE DE LA	PETITE RUE	TYPE	DET_PRE
LEXENTRY:	PETITE RUE DU	PETITE RUE	TYPE	DET_PRE
LEXENTRY:	PETITE RUELLE	PETITE RUELLE	TYPE	DET_PRE
LEXENTRY:	PETITE SENTE	PETITE SENTE	TYPE	DET_PRE
LEXENTRY:	PETITE SENTE DES	PETITE SENTE	TYPE	DET_PRE
LEXENTRY:	PETITE VOIE	PETITE VOIE	TYPE	DET_PRE
LEXENTRY:	PETITE VOIE DE	PETITE VOIE	TYPE	DET_PRE
LEXENTRY:	PETITE VOIE DES	PETITE VOIE	TYPE	DET_PRE
LEXENTRY:	PISTE	PISTE	TYPE	DET_PRE
LEXENTRY:	PISTE DU	PISTE	TYPE	DET_PRE
LEXENTRY:	PL	PLACE	TYPE	DET_PRE
LEXENTRY:	PL.	PLACE	TYPE	DET_PRE
LEXENTRY:	PLACE	PLACE	TYPE	ATT_PRE,DET_PRE
LEXENTRY:	PLACE AU	PLACE	TYPE	DET_PRE
LEXENTRY:	PLACE AUX	PLACE	TYPE	DET_PRE
LEXENTRY:	PLACE D'	PLACE	TYPE	ATT_PRE,DET_PRE
LEXENTRY:	PLACE DE	PLACE	TYPE	DET_PRE
LEXENTRY:	PLACE DE L'	PLACE	TYPE	ATT_PRE,DET_PRE
LEXENTRY:	PLACE DE LA	PLACE	TYPE	DET_PRE
LEXENTRY:	PLACE DES	PLACE	TYPE	DET_PRE
LEXENTRY:	PLACE DU	PLACE	TYPE	DET_PRE
LEXENTRY:	PLACE À	PLACE	TYPE	DET_PRE
LEXENTRY:	PLACETTE	PLACETTE	TYPE	DET_PRE
LEXENTRY:	PLACETTE DE	PLACETTE	TYPE	DET_PRE
LEXENTRY:	PLACETTE DE LA	PLACETTE	TYPE	DET_PRE
LEXENTRY:	PLACETTE DES	PLACETTE	TYPE	DET_PRE
LEXENTRY:	PLACETTE DU	PLACETTE	TYPE	DET_PRE
LEXENTRY:	PLAINE	PLAINE	TYPE	DET_PRE
LEXENTRY:	PLAINE DES	PLAINE	TYPE	DET_PRE
LEXENTRY:	PLATEAU	PLATEAU	TYPE	DET_PRE
LEXENTRY:	PLATEAU DE LA	PLATEAU	TYPE	DET_PRE
LEXENTRY:	POINT DES	ROND-POINT	TYPE	DET_PRE
LEXENTRY:	PONT	PONT	TYPE	ATT_PRE,DET_PRE
LEXENTRY:	PONT AU	PONT	TYPE	DET_PRE
LEXENTRY:	PONT AUX	PONT	TYPE	DET_PRE
LEXENTRY:	PONT D'	PONT	TYPE	ATT_PRE,DET_PRE
LEXENTRY:	PONT DE	PONT	TYPE	DET_PRE
LEXENTRY:	PONT DE L'	PONT	TYPE	ATT_PRE,DET_PRE
LEXENTRY:	PONT DE LA	PONT	TYPE	DET_PRE
";
"LEXENTRY:	PONT DES	PONT	TYPE	DET_PRE
LEXENTRY:	PONT DU	PONT	TYPE	DET_PRE
LEXENTRY:	PORT	PORT	TYPE	ATT_PRE,DET_PRE
LEXENTRY:	PORT D'	PORT	TYPE	ATT_PRE,DET_PRE
LEXENTRY:	PORT DE	PORT	TYPE	DET_PRE
LEXENTRY:	PORT DE L'	PORT	TYPE	ATT_PRE,DET_PRE
LEXENTRY:	PORT DE LA	PORT	TYPE	DET_PRE
LEXENTRY:	PORT DES	PORT	TYPE	DET_PRE
LEXENTRY:	PORT DU	PORT	TYPE	DET_PRE
LEXENTRY:	PORTE	PORTE	TYPE	ATT_PRE,DET_PRE
LEXENTRY:	PORTE AUX	PORTE	TYPE	DET_PRE
LEXENTRY:	PORTE D'	PORTE	TYPE	ATT_PRE,DET_PRE
LEXENTRY:	PORTE DE	PORTE	TYPE	DET_PRE
LEXENTRY:	PORTE DE L'	PORTE	TYPE	ATT_PRE,DET_PRE
LEXENTRY:	PORTE DE LA	PORTE	TYPE	DET_PRE
LEXENTRY:	PORTE DES	PORTE	TYPE	DET_PRE
LEXENTRY:	PORTE DU	PORTE	TYPE	DET_PRE
LEXENTRY:	POTERNE	POTERNE	TYPE	DET_PRE
LEXENTRY:	POTERNE DES	POTERNE	TYPE	DET_PRE
LEXENTRY:	PREMIER	1ER	WORD,ORD	DETACH
LEXENTRY:	PREMIÈRE	1ER	WORD,ORD	DETACH
LEXENTRY:	PROMENADE	PROMENADE	TYPE	ATT_PRE,DET_PRE,DET_SUF
LEXENTRY:	PROMENADE 	PROMENADE	TYPE	DET_PRE,DET_SUF
LEXENTRY:	PROMENADE DE	PROMENADE	TYPE	DET_PRE
LEXENTRY:	PROMENADE DE L'	PROMENADE	TYPE	ATT_PRE,DET_PRE
LEXENTRY:	PROMENADE DE LA	PROMENADE	TYPE	DET_PRE
LEXENTRY:	PROMENADE DES	PROMENADE	TYPE	DET_PRE
LEXENTRY:	PROMENADE DU	PROMENADE	TYPE	DET_PRE
LEXENTRY:	PROMENÉE	PROMENÉE	TYPE	DET_PRE
LEXENTRY:	PROMENÉE DES	PROMENÉE	TYPE	DET_PRE
LEXENTRY:	PRÉS	PRÉSIDENT	WORD	DETACH
LEXENTRY:	PRÉS.	PRÉSIDENT	WORD	DETACH
LEXENTRY:	PRÉSIDENT	PRÉSIDENT	WORD	DETACH
LEXENTRY:	QRT	QUARTIER	TYPE	DET_PRE
LEXENTRY:	QRT.	QUARTIER	TYPE	DET_PRE
LEXENTRY:	QU	QUARTIER	TYPE	DET_PRE
LEXENTRY:	QU.	QUARTIER	TYPE	DET_PRE
LEXENTRY:	QUA	QUARTIER	TYPE	DET_PRE
LEXENTRY:	QUA.	QUARTIER	TYPE	DET_PRE
LEXENTRY:	QUAI	QUAI	TYPE	ATT_PRE,DET_PRE
LEXENTRY:	QUAI AUX	QUAI	TYPE	DET_PRE
LEXENTRY:	QUAI D'	QUAI	TYPE	ATT_PRE,DET_PRE
LEXENTRY:	QUAI DE	QUAI	TYPE	DET_PRE
LEXENTRY:	QUAI DE L'	QUAI	TYPE	ATT_PRE,DET_PRE
LEXENTRY:	QUAI DE LA	QUAI	TYPE	DET_PRE
LEXENTRY:	QUAI DES	QUAI	TYPE	DET_PRE
LEXENTRY:	QUAI DU	QUAI	TYPE	DET_PRE
LEXENTRY:	QUARANTE	40	NUMBER	DETACH
LEXENTRY:	QUARTIER	QUARTIER	TYPE	DET_PRE
LEXENTRY:	QUARTIER DE LA	QUARTIER	TYPE	DET_PRE
LEXENTRY:	QUARTIER DES	QUARTIER	TYPE	DET_PRE
LEXENTRY:	QUATORZE	14	NUMBER	DETACH
LEXENTRY:	QUATRE	4	NUMBER	DETACH
LEXENTRY:	QUATRIÈME	4E	WORD,ORD	DETACH
LEXENTRY:	QUINZE	15	NUMBER	DETACH
LEXENTRY:	R	RUE	TYPE	DET_PRE
LEXENTRY:	R.	RUE	TYPE	DET_PRE
LEXENTRY:	RAMPE	RAMPE	TYPE	DET_PRE
LEXENTRY:	RAMPE DE	RAMPE	TYPE	DET_PRE
LEXENTRY:	RAMPE DE LA	RAMPE	TYPE	DET_PRE
LEXENTRY:	RAMPE DU	RAMPE	TYPE	DET_PRE
LEXENTRY:	REMPART	REMPART	TYPE	DET_PRE
";
"LEXENTRY:	REMPART DES	REMPART	TYPE	DET_PRE
LEXENTRY:	REMPART DU	REMPART	TYPE	DET_PRE
LEXENTRY:	RES	RÉSIDENCE	UNITH	DETACH
LEXENTRY:	RES.	RÉSIDENCE	UNITH	DETACH
LEXENTRY:	RESTAURANT	RESTAURANT	PLACEN	DETACH
LEXENTRY:	ROCADE	ROCADE	TYPE	DET_PRE
LEXENTRY:	ROCADE DE	ROCADE	TYPE	DET_PRE
LEXENTRY:	ROCADE DE LA	ROCADE	TYPE	DET_PRE
LEXENTRY:	ROND- P	ROND-POINT	TYPE	DET_PRE
LEXENTRY:	ROND-POINT	ROND-POINT	TYPE	ATT_PRE,DET_PRE
LEXENTRY:	ROND-POINT D'	ROND-POINT	TYPE	ATT_PRE,DET_PRE
LEXENTRY:	ROND-POINT DE	ROND-POINT	TYPE	DET_PRE
LEXENTRY:	ROND-POINT DE L'	ROND-POINT	TYPE	ATT_PRE,DET_PRE
LEXENTRY:	ROND-POINT DE LA	ROND-POINT	TYPE	DET_PRE
LEXENTRY:	ROND-POINT DU	ROND-POINT	TYPE	DET_PRE
LEXENTRY:	ROTONDE	ROTONDE	TYPE	ATT_PRE,DET_PRE
LEXENTRY:	ROTONDE D'	ROTONDE	TYPE	ATT_PRE,DET_PRE
LEXENTRY:	ROTONDE DE LA	ROTONDE	TYPE	DET_PRE
LEXENTRY:	ROUTE	ROUTE	TYPE	ATT_PRE,DET_PRE
LEXENTRY:	ROUTE AU	ROUTE	TYPE	DET_PRE
LEXENTRY:	ROUTE AUX	ROUTE	TYPE	DET_PRE
LEXENTRY:	ROUTE D'	ROUTE	TYPE	ATT_PRE,DET_PRE
LEXENTRY:	ROUTE DE	ROUTE	TYPE	DET_PRE
LEXENTRY:	ROUTE DE L'	ROUTE	TYPE	ATT_PRE,DET_PRE
LEXENTRY:	ROUTE DE LA	ROUTE	TYPE	DET_PRE
LEXENTRY:	ROUTE DES	ROUTE	TYPE	DET_PRE
LEXENTRY:	ROUTE DU	ROUTE	TYPE	DET_PRE
LEXENTRY:	ROUTE FORESTIÈRE	ROUTE FORESTIÈRE	TYPE	ATT_PRE,DET_PRE
LEXENTRY:	ROUTE FORESTIÈRE D'	ROUTE FORESTIÈRE	TYPE	ATT_PRE,DET_PRE
LEXENTRY:	ROUTE FORESTIÈRE DE	ROUTE FORESTIÈRE	TYPE	DET_PRE
LEXENTRY:	ROUTE FORESTIÈRE DE L'	ROUTE FORESTIÈRE	TYPE	ATT_PRE,DET_PRE
LEXENTRY:	ROUTE FORESTIÈRE DE LA	ROUTE FORESTIÈRE	TYPE	DET_PRE
LEXENTRY:	ROUTE FORESTIÈRE DES	ROUTE FORESTIÈRE	TYPE	DET_PRE
LEXENTRY:	ROUTE FORESTIÈRE DU	ROUTE FORESTIÈRE	TYPE	DET_PRE
LEXENTRY:	RPT	ROND-POINT	TYPE	DET_PRE
LEXENTRY:	RPT.	ROND-POINT	TYPE	DET_PRE
LEXENTRY:	RTE	ROUTE	TYPE	DET_PRE
LEXENTRY:	RTE.	ROUTE	TYPE	DET_PRE
LEXENTRY:	RUE	RUE	TYPE	ATT_PRE,DET_PRE
LEXENTRY:	RUE AU	RUE	TYPE	DET_PRE
LEXENTRY:	RUE AUX	RUE	TYPE	DET_PRE
LEXENTRY:	RUE D'	RUE	TYPE	ATT_PRE,DET_PRE
LEXENTRY:	RUE DE	RUE	TYPE	DET_PRE
LEXENTRY:	RUE DE L'	RUE	TYPE	ATT_PRE,DET_PRE
LEXENTRY:	RUE DE LA	RUE	TYPE	DET_PRE
LEXENTRY:	RUE DES	RUE	TYPE	DET_PRE
LEXENTRY:	RUE DU	RUE	TYPE	DET_PRE
LEXENTRY:	RUE L'	RUE	TYPE	ATT_PRE,DET_PRE
LEXENTRY:	RUE LA	RUE	TYPE	DET_PRE
LEXENTRY:	RUE LE	RUE	TYPE	DET_PRE
LEXENTRY:	RUE LES	RUE	TYPE	DET_PRE
LEXENTRY:	RUE À	RUE	TYPE	DET_PRE
LEXENTRY:	RUELLE	RUELLE	TYPE	ATT_PRE,DET_PRE
LEXENTRY:	RUELLE AU	RUELLE	TYPE	DET_PRE
LEXENTRY:	RUELLE AUX	RUELLE	TYPE	DET_PRE
LEXENTRY:	RUELLE D'	RUELLE	TYPE	DET_PRE
";
"LEXENTRY:	RUELLE DE	RUELLE	TYPE	DET_PRE
LEXENTRY:	RUELLE DE L'	RUELLE	TYPE	ATT_PRE,DET_PRE
LEXENTRY:	RUELLE DE LA	RUELLE	TYPE	DET_PRE
LEXENTRY:	RUELLE DES	RUELLE	TYPE	DET_PRE
LEXENTRY:	RUELLE DU	RUELLE	TYPE	DET_PRE
LEXENTRY:	RUELLE À	RUELLE	TYPE	DET_PRE
LEXENTRY:	RÉS	RÉSIDENCE	UNITH	DETACH
LEXENTRY:	RÉS.	RÉSIDENCE	UNITH	DETACH
LEXENTRY:	RÉSIDENCE	RÉSIDENCE	TYPE,UNITH	ATT_PRE,DETACH,DET_PRE
LEXENTRY:	RÉSIDENCE D'	RÉSIDENCE	TYPE	ATT_PRE,DET_PRE
LEXENTRY:	RÉSIDENCE DE	RÉSIDENCE	TYPE	DET_PRE
LEXENTRY:	RÉSIDENCE DE L'	RÉSIDENCE	TYPE	ATT_PRE,DET_PRE
LEXENTRY:	RÉSIDENCE DE LA	RÉSIDENCE	TYPE	DET_PRE
LEXENTRY:	RÉSIDENCE DES	RÉSIDENCE	TYPE	DET_PRE
LEXENTRY:	RÉSIDENCE DU	RÉSIDENCE	TYPE	DET_PRE
LEXENTRY:	RÉSIDENCE L'	RÉSIDENCE	TYPE	ATT_PRE,DET_PRE
LEXENTRY:	RÉSIDENCE LA	RÉSIDENCE	TYPE	DET_PRE
LEXENTRY:	RÉSIDENCE LE	RÉSIDENCE	TYPE	DET_PRE
LEXENTRY:	RÉSIDENCE LES	RÉSIDENCE	TYPE	DET_PRE
LEXENTRY:	S	HAMEAU	TYPE	DET_PRE
LEXENTRY:	S	ROND-POINT	TYPE	DET_PRE
LEXENTRY:	S	SENTIER	TYPE	DET_PRE
LEXENTRY:	SA	SA	PLACEN	DETACH
LEXENTRY:	SAINT	SAINT	WORD	DETACH
LEXENTRY:	SARL	SARL	PLACEN	DETACH
LEXENTRY:	SC	SC	PLACEN	DETACH
LEXENTRY:	SCA	SCA	PLACEN	DETACH
LEXENTRY:	SCS	SCS	PLACEN	DETACH
LEXENTRY:	SEIZE	16	NUMBER	DETACH
LEXENTRY:	SENTE	SENTE	TYPE	ATT_PRE,DET_PRE
LEXENTRY:	SENTE AU	SENTE	TYPE	DET_PRE
LEXENTRY:	SENTE AUX	SENTE	TYPE	DET_PRE
LEXENTRY:	SENTE D'	SENTE	TYPE	ATT_PRE,DET_PRE
LEXENTRY:	SENTE DE	SENTE	TYPE	DET_PRE
LEXENTRY:	SENTE DE L'	SENTE	TYPE	ATT_PRE,DET_PRE
LEXENTRY:	SENTE DE LA	SENTE	TYPE	DET_PRE
LEXENTRY:	SENTE DES	SENTE	TYPE	DET_PRE
LEXENTRY:	SENTE DU	SENTE	TYPE	DET_PRE
LEXENTRY:	SENTIER	SENTIER	TYPE	ATT_PRE,DET_PRE
LEXENTRY:	SENTIER AUX	SENTIER	TYPE	DET_PRE
LEXENTRY:	SENTIER D'	SENTIER	TYPE	ATT_PRE,DET_PRE
LEXENTRY:	SENTIER DE	SENTIER	TYPE	DET_PRE
LEXENTRY:	SENTIER DE L'	SENTIER	TYPE	ATT_PRE,DET_PRE
LEXENTRY:	SENTIER DE LA	SENTIER	TYPE	DET_PRE
LEXENTRY:	SENTIER DES	SENTIER	TYPE	DET_PRE
LEXENTRY:	SENTIER DU	SENTIER	TYPE	DET_PRE
LEXENTRY:	SENTIERS	SENTIER	TYPE	DET_PRE
LEXENTRY:	SENTIERS DES	SENTIER	TYPE	DET_PRE
LEXENTRY:	SEPT	7	NUMBER	DETACH
LEXENTRY:	SEPTIÈME	7E	WORD,ORD	DETACH
LEXENTRY:	SEUIL	SEUIL	TYPE	DET_PRE
LEXENTRY:	SEUIL DE	SEUIL	TYPE	DET_PRE
LEXENTRY:	SIX	6	NUMBER	DETACH
LEXENTRY:	SIXIÈME	6E	WORD,ORD	DETACH
LEXENTRY:	SNC	SNC	PLACEN	DETACH
LEXENTRY:	SOCIÉTÉ	SOCIÉTÉ	PLACEN	DETACH
LEXENTRY:	SOIXANTE	60	NUMBER	DETACH
LEXENTRY:	SP	SP	PLACEN	DETACH
LEXENTRY:	SPRL	SPRL	PLACEN	DETACH
LEXENTRY:	SQ	SQUARE	TYPE	DET_PRE
LEXENTRY:	SQ.	SQUARE	TYPE	DET_PRE
";
"LEXENTRY:	SQUARE	SQUARE	TYPE	ATT_PRE,DET_PRE
LEXENTRY:	SQUARE AUX	SQUARE	TYPE	DET_PRE
LEXENTRY:	SQUARE D'	SQUARE	TYPE	ATT_PRE,DET_PRE
LEXENTRY:	SQUARE DE	SQUARE	TYPE	DET_PRE
LEXENTRY:	SQUARE DE L'	SQUARE	TYPE	ATT_PRE,DET_PRE
LEXENTRY:	SQUARE DE LA	SQUARE	TYPE	DET_PRE
LEXENTRY:	SQUARE DES	SQUARE	TYPE	DET_PRE
LEXENTRY:	SQUARE DU	SQUARE	TYPE	DET_PRE
LEXENTRY:	SQUARE LES	SQUARE	TYPE	DET_PRE
LEXENTRY:	ST	SAINT	WORD	DETACH
LEXENTRY:	STADE	STADE	PLACEN	DETACH
LEXENTRY:	STE	STE	PLACEN	DETACH
LEXENTRY:	TERRASSE	TERRASSE	TYPE	ATT_PRE,DET_PRE
LEXENTRY:	TERRASSE DE L'	TERRASSE	TYPE	ATT_PRE,DET_PRE
LEXENTRY:	TERRASSE DE LA 	TERRASSE	TYPE	DET_PRE
LEXENTRY:	THÉÂTRE	THÉÂTRE	PLACEN	DETACH
LEXENTRY:	TRA	TRAVERSE	TYPE	DET_PRE
LEXENTRY:	TRA.	TRAVERSE	TYPE	DET_PRE
LEXENTRY:	TRAVERSE	TRAVERSE	TYPE	ATT_PRE,DET_PRE
LEXENTRY:	TRAVERSE DE	TRAVERSE	TYPE	DET_PRE
LEXENTRY:	TRAVERSE DE L'	TRAVERSE	TYPE	ATT_PRE,DET_PRE
LEXENTRY:	TRAVERSE DE LA	TRAVERSE	TYPE	DET_PRE
LEXENTRY:	TRAVERSE DU	TRAVERSE	TYPE	DET_PRE
LEXENTRY:	TREIZE	13	NUMBER	DETACH
LEXENTRY:	TRENTE	30	NUMBER	DETACH
LEXENTRY:	TRIANGLE DE	TRAVERSE	TYPE	DET_PRE
LEXENTRY:	TROIS	3	NUMBER	DETACH
LEXENTRY:	TROISIÈME	3E	WORD,ORD	DETACH
LEXENTRY:	UN	1	NUMBER	DETACH
LEXENTRY:	UNIVERSITAIRE	UNIVERSITAIRE	PLACEN	DETACH
LEXENTRY:	UNIVERSITÉ	UNIVERSITÉ	PLACEN	DETACH
LEXENTRY:	VAL	VALLÉE	TYPE	DET_PRE
LEXENTRY:	VALLÉE	VALLÉE	TYPE	DET_PRE
LEXENTRY:	VALLÉE AUX	VALLÉE	TYPE	DET_PRE
LEXENTRY:	VALLÉE DES	VALLÉE	TYPE	DET_PRE
LEXENTRY:	VENELLE	VENELLE	TYPE	DET_PRE
LEXENTRY:	VENELLE AU	VENELLE	TYPE	DET_PRE
LEXENTRY:	VENELLE DE	VENELLE	TYPE	DET_PRE
LEXENTRY:	VENELLE DES	VENELLE	TYPE	DET_PRE
LEXENTRY:	VENELLE DU	VENELLE	TYPE	DET_PRE
LEXENTRY:	VIEILLE ROUTE	VIEILLE ROUTE	TYPE	DET_PRE
LEXENTRY:	VIEILLE ROUTE DE 	VIEILLE ROUTE	TYPE	DET_PRE
LEXENTRY:	VIEILLE RUE	VIEILLE RUE	TYPE	DET_PRE
LEXENTRY:	VIEILLE RUE AUX	VIEILLE RUE	TYPE	DET_PRE
LEXENTRY:	VIEUX CHEMIN	VIEUX CHEMIN	TYPE	DET_PRE
LEXENTRY:	VIEUX CHEMIN DE	VIEUX CHEMIN	TYPE	DET_PRE
LEXENTRY:	VILLA	VILLA	TYPE,UNITH	ATT_PRE,DETACH,DET_PRE
LEXENTRY:	VILLA D'	VILLA	TYPE	ATT_PRE,DET_PRE
LEXENTRY:	VILLA DE	VILLA	TYPE	DET_PRE
LEXENTRY:	VILLA DE L'	VILLA	TYPE	ATT_PRE,DET_PRE
LEXENTRY:	VILLA DE LA	VILLA	TYPE	DET_PRE
LEXENTRY:	VILLA DES	VILLA	TYPE	DET_PRE
LEXENTRY:	VILLA DU	VILLA	TYPE	DET_PRE
LEXENTRY:	VILLA LES	VILLA	TYPE	DET_PRE
LEXENTRY:	VILLAGE	VILLAGE	TYPE	DET_PRE
LEXENTRY:	VILLAGE DE	VILLAGE	TYPE	DET_PRE
LEXENTRY:	VILLAGE DES	VILLAGE	TYPE	DET_PRE
LEXENTRY:	VILLAS	VILLAS	TYPE	DET_PRE
";
"LEXENTRY:	VILLAS D'	VILLAS	TYPE	DET_PRE
LEXENTRY:	VINGT	20	NUMBER	DETACH
LEXENTRY:	VLA	VILLA	UNITH	DETACH
LEXENTRY:	VOIE	VOIE	TYPE	ATT_PRE,DET_PRE
LEXENTRY:	VOIE AU	VOIE	TYPE	DET_PRE
LEXENTRY:	VOIE AUX	VOIE	TYPE	DET_PRE
LEXENTRY:	VOIE D'	VOIE	TYPE	ATT_PRE,DET_PRE
LEXENTRY:	VOIE DE	VOIE	TYPE	DET_PRE
LEXENTRY:	VOIE DE L'	VOIE	TYPE	ATT_PRE,DET_PRE
LEXENTRY:	VOIE DE LA	VOIE	TYPE	DET_PRE
LEXENTRY:	VOIE DES	VOIE	TYPE	DET_PRE
LEXENTRY:	VOIE DU	VOIE	TYPE	DET_PRE
LEXENTRY:	VOIRIE	VOIRIE	TYPE	DET_PRE
LEXENTRY:	VOIRIE DE LA	VOIRIE	TYPE	DET_PRE
LEXENTRY:	VOIRIE DES	VOIRIE	TYPE	DET_PRE
LEXENTRY:	ÉCHANGEUR	ÉCHANGEUR	TYPE	ATT_PRE,DET_PRE
LEXENTRY:	ÉCHANGEUR D'	ÉCHANGEUR	TYPE	ATT_PRE,DET_PRE
LEXENTRY:	ÉCHANGEUR DE	ÉCHANGEUR	TYPE	DET_PRE
LEXENTRY:	ÉCHANGEUR DE LA	ÉCHANGEUR	TYPE	DET_PRE
LEXENTRY:	ÉCHANGEUR DES	ÉCHANGEUR	TYPE	DET_PRE
LEXENTRY:	ÉCOLE	ÉCOLE	PLACEN	DETACH
LEXENTRY:	ÉTABLISSEMENT	ÉTABLISSEMENT	PLACEN	DETACH
LEXENTRY:	ÉTOILE	ÉTOILE	TYPE	ATT_PRE,DET_PRE
LEXENTRY:	ÉTOILE D'	ÉTOILE	TYPE	ATT_PRE,DET_PRE
LEXENTRY:	ÉTOILE DE	ÉTOILE	TYPE	DET_PRE
LEXENTRY:	ÉTOILE DE LA	ÉTOILE	TYPE	DET_PRE
LEXENTRY:	ÉTOILE DES	ÉTOILE	TYPE	DET_PRE
LEXENTRY:	ÉTOILE DU	ÉTOILE	TYPE	DET_PRE
LEXENTRY:	ÎLE	ÎLE	TYPE	DET_PRE
LEXENTRY:	ÎLE DE LA	ÎLE	TYPE	DET_PRE
LEXENTRY:	CEDEX	CEDEX	BOXH	DETACH
"].
(** data/sample/netherlands.lex *)
Definition slex_netherlands : list string :=
[
"LEXICON:	lex-netherlands.txt	DUT	nl_NL
LEXENTRY:	ARUBA	ABW	NATION	DETACH
LEXENTRY:	AMSTERDAM	AMSTERDAM	CITY	DETACH
LEXENTRY:	THE HAGUE	THE HAGUE	CITY	DETACH
LEXENTRY:	ABW	ABW	NATION	DETACH
LEXENTRY:	CURAÇAO	CUW	NATION	DETACH
LEXENTRY:	CUW	CUW	NATION	DETACH
LEXENTRY:	BES	BES	NATION	DETACH
LEXENTRY:	BONAIRE	BES	NATION	DETACH
LEXENTRY:	SABA AND SAINT EUSTATIUS	BES	NATION	DETACH
LEXENTRY:	(DR)	(DR.)	PROV	DETACH
LEXENTRY:	(DR.)	(DR.)	PROV	DETACH
LEXENTRY:	(FL.)	(FL.)	PROV	DETACH
LEXENTRY:	(FL)	(FL.)	PROV	DETACH
LEXENTRY:	(FR.)	(FR.)	PROV	DETACH
LEXENTRY:	(FR)	(FR.)	PROV	DETACH
LEXENTRY:	(GLD.)	(GLD.)	PROV	DETACH
LEXENTRY:	(GLD)	(GLD.)	PROV	DETACH
LEXENTRY:	(GR.)	(GR.)	PROV	DETACH
LEXENTRY:	(GR)	(GR.)	PROV	DETACH
LEXENTRY:	(LB)	(LIM.)	PROV	DETACH
LEXENTRY:	(LB.)	(LIM.)	PROV	DETACH
LEXENTRY:	(LIM.)	(LIM.)	PROV	DETACH
LEXENTRY:	(LIM)	(LIM.)	PROV	DETACH
LEXENTRY:	(N.BR.)	(N.BR.)	PROV	DETACH
LEXENTRY:	(N.B.)	(N.BR.)	PROV	DETACH
LEXENTRY:	(NB)	(N.BR.)	PROV	DETACH
LEXENTRY:	(NBR)	(N.BR.)	PROV	DETACH
LEXENTRY:	(N.H.)	(N.H.)	PROV	DETACH
LEXENTRY:	(NH)	(N.H.)	PROV	DETACH
LEXENTRY:	(OV.)	(OV.)	PROV	DETACH
LEXENTRY:	(OV)	(OV.)	PROV	DETACH
LEXENTRY:	(UTR.)	(UTR.)	PROV	DETACH
LEXENTRY:	(UTR)	(UTR.)	PROV	DETACH
LEXENTRY:	(Z.H.)	(Z.H.)	PROV	DETACH
LEXENTRY:	(ZH)	(Z.H.)	PROV	DETACH
LEXENTRY:	(ZLD.)	(ZLD.)	PROV	DETACH
LEXENTRY:	(ZLD)	(ZLD.)	PROV	DETACH
LEXENTRY:	AKKER	AKKER	TYPE	ATT_SUF,DET_SUF
LEXENTRY:	AKKERS	AKKERS	TYPE	ATT_SUF,DET_SUF
LEXENTRY:	ALLÉE	ALLÉE	TYPE	ATT_SUF,DET_SUF
LEXENTRY:	AV	AVENUE	TYPE	DET_SUF
LEXENTRY:	AVE	AVENUE	TYPE	DET_SUF
LEXENTRY:	AVENUE	AVENUE	TYPE	DET_SUF
LEXENTRY:	BAAN	BAAN	TYPE	ATT_SUF,DET_SUF
LEXENTRY:	BAAN 	BAAN	TYPE	ATT_SUF,DET_SUF
LEXENTRY:	BD	BOULEVARD	TYPE	ATT_SUF
LEXENTRY:	BD.	BOULEVARD	TYPE	ATT_SUF
LEXENTRY:	BEEMD	BEEMD	TYPE	ATT_SUF
LEXENTRY:	BERG	BERG	TYPE	ATT_SUF,DET_SUF
LEXENTRY:	BERGWEG	BERGWEG	TYPE	ATT_SUF,DET_SUF
LEXENTRY:	BG	BERG	TYPE	ATT_SUF,DET_SUF
LEXENTRY:	BLVD	BOULEVARD	TYPE	ATT_SUF
LEXENTRY:	BLVD.	BOULEVARD	TYPE	ATT_SUF
LEXENTRY:	BN	BAAN	TYPE	ATT_SUF,DET_SUF
LEXENTRY:	BORG	BORG	TYPE	ATT_SUF
LEXENTRY:	BORGH	BORGH	TYPE	ATT_SUF
LEXENTRY:	BOULEV	BOULEVARD	TYPE	ATT_SUF
LEXENTRY:	BOULEV.	BOULEVARD	TYPE	ATT_SUF
LEXENTRY:	BOULEVARD	BOULEVARD	TYPE	ATT_SUF
LEXENTRY:	BRINK	BRINK	TYPE	ATT_SUF,DET_SUF
LEXENTRY:	BRUG	BRUG	TYPE	ATT_SUF,DET_SUF
LEXENTRY:	BUITENLANDS	BUITENLANDS	PLACEN	DETACH
LEXENTRY:	BURG	BURG	TYPE	ATT_SUF
LEXENTRY:	BURG	BURGEMEESTER	WORD	DETACH
LEXENTRY:	BURGEMEESTER	BURGEMEESTER	WORD	DETACH
";
"LEXENTRY:	BURGWAL	BURGWAL	TYPE	ATT_SUF,DET_SUF
LEXENTRY:	BUURT	BUURT	TYPE	ATT_SUF
LEXENTRY:	BV	BV	PLACEN	DETACH
LEXENTRY:	B.V.	BV	PLACEN	DETACH
LEXENTRY:	BVBA	BVBA	PLACEN	DETACH
LEXENTRY:	CB	CB	PLACEN	DETACH
LEXENTRY:	CENTRUM	CENTRUM	TYPE	ATT_SUF,DET_SUF
LEXENTRY:	COÖPERATIE	COÖPERATIE	PLACEN	DETACH
LEXENTRY:	CVA	CVA	PLACEN	DETACH
LEXENTRY:	CVOA	CVOA	PLACEN	DETACH
LEXENTRY:	D	DE	WORD	DETACH
LEXENTRY:	DAL	DAL	TYPE	ATT_SUF,DET_SUF
LEXENTRY:	DAM	DAM	TYPE	ATT_SUF,DET_SUF
LEXENTRY:	DANS	DANS	TYPE	ATT_SUF
LEXENTRY:	DE	DE	WORD	DETACH
LEXENTRY:	DIEP	DIEP	TYPE	ATT_SUF,DET_SUF
LEXENTRY:	DIJK	DIJK	TYPE	ATT_SUF,DET_SUF
LEXENTRY:	DK	DIJK	TYPE	ATT_SUF,DET_SUF
LEXENTRY:	DK.	DIJK	TYPE	ATT_SUF,DET_SUF
LEXENTRY:	DOK	DOK	TYPE	ATT_SUF,DET_SUF
LEXENTRY:	DONK	DONK	TYPE	ATT_SUF,DET_SUF
LEXENTRY:	DOORGANG	DOORGANG	TYPE	ATT_SUF
LEXENTRY:	DR	DREEF	TYPE	ATT_SUF,DET_SUF
LEXENTRY:	DR	(DR.)	PROV	DETACH
LEXENTRY:	DR.	(DR.)	PROV	DETACH
LEXENTRY:	DREEF	DREEF	TYPE	ATT_SUF,DET_SUF
LEXENTRY:	DRENTHE	(DR.)	PROV	DETACH
LEXENTRY:	DWARSSTRAAT	DWARSSTRAAT	TYPE	ATT_SUF,DET_SUF
LEXENTRY:	DWARSWEG	DWARSWEG	TYPE	ATT_SUF,DET_SUF
LEXENTRY:	DWSTR	DWARSSTRAAT	TYPE	ATT_SUF,DET_SUF
LEXENTRY:	DWSTR.	DWARSSTRAAT	TYPE	ATT_SUF,DET_SUF
LEXENTRY:	DWWG	DWARSWEG	TYPE	ATT_SUF,DET_SUF
LEXENTRY:	DWWG.	DWARSWEG	TYPE	ATT_SUF,DET_SUF
LEXENTRY:	EENMANSZAAK	EENMANSZAAK	PLACEN	DETACH
LEXENTRY:	EIND	EIND	TYPE	ATT_SUF,DET_SUF
LEXENTRY:	EINDE	EINDE	TYPE	ATT_SUF,DET_SUF
LEXENTRY:	ERF	ERF	TYPE	ATT_SUF,DET_SUF
LEXENTRY:	FILIAAL	FILIAAL	PLACEN	DETACH
LEXENTRY:	FL	(FL.)	PROV	DETACH
LEXENTRY:	FL.	(FL.)	PROV	DETACH
LEXENTRY:	FLEVOLAND	(FL.)	PROV	DETACH
LEXENTRY:	FR	(FR.)	PROV	DETACH
LEXENTRY:	FR.	(FR.)	PROV	DETACH
LEXENTRY:	FRIESLAND	(FR.)	PROV	DETACH
LEXENTRY:	FRYSLÂN	(FR.)	PROV	DETACH
LEXENTRY:	GAARD	GAARD	TYPE	ATT_SUF,DET_SUF
LEXENTRY:	GAARDE	GAARDE	TYPE	ATT_SUF
LEXENTRY:	GALERIJ	GALERIJ	TYPE	ATT_SUF
LEXENTRY:	GANG	GANG	TYPE	ATT_SUF
LEXENTRY:	GELDERLAND	(GLD.)	PROV	DETACH
LEXENTRY:	GLD	(GLD.)	PROV	DETACH
LEXENTRY:	GLD.	(GLD.)	PROV	DETACH
LEXENTRY:	GR	GRACHT	TYPE	ATT_SUF,DET_SUF
LEXENTRY:	GR	(GR.)	PROV	DETACH
LEXENTRY:	GR.	GRACHT	TYPE	ATT_SUF,DET_SUF
LEXENTRY:	GR.	(GR.)	PROV	DETACH
LEXENTRY:	GRACHT	GRACHT	TYPE	ATT_SUF,DET_SUF
LEXENTRY:	GROEP	GROEP	PLACEN	DETACH
LEXENTRY:	GRONINGEN	(GR.)	PROV	DETACH
LEXENTRY:	HAAG	HAAG	TYPE	ATT_SUF,DET_SUF
LEXENTRY:	HAVEN	HAVEN	TYPE	ATT_SUF,DET_SUF
LEXENTRY:	HEI	HEI	TYPE	ATT_SUF,DET_SUF
LEXENTRY:	HEIDE	HEIDE	TYPE	DET_SUF
LEXENTRY:	HELLING	HELLING	TYPE	ATT_SUF
LEXENTRY:	HEUVEL	HEUVEL	TYPE	ATT_SUF
";
"LEXENTRY:	HOEK	HOEK	TYPE	ATT_SUF,DET_SUF
LEXENTRY:	HOF	HOF	TYPE	ATT_SUF,DET_SUF
LEXENTRY:	HOFJE	HOFJE	TYPE	ATT_SUF,DET_SUF
LEXENTRY:	HORST	HORST	TYPE	ATT_SUF,DET_SUF
LEXENTRY:	KAAI	KAAI	TYPE	ATT_SUF,DET_SUF
LEXENTRY:	KADE	KADE	TYPE	ATT_SUF,DET_SUF
LEXENTRY:	KAN	KANAAL	TYPE	ATT_SUF,DET_SUF
LEXENTRY:	KAN.	KANAAL	TYPE	ATT_SUF,DET_SUF
LEXENTRY:	KANAAL	KANAAL	TYPE	ATT_SUF,DET_SUF
LEXENTRY:	KD	KADE	TYPE	ATT_SUF,DET_SUF
LEXENTRY:	KD.	KADE	TYPE	ATT_SUF,DET_SUF
LEXENTRY:	LAAN	LAAN	TYPE	ATT_PRE,ATT_SUF,DET_PRE,DET_SUF
LEXENTRY:	LAAN NAAR	LAAN NAAR	TYPE	DET_PRE
LEXENTRY:	LAAN OP	LAAN OP	TYPE	DET_PRE
LEXENTRY:	LAAN VAN	LAAN VAN	TYPE	DET_PRE
LEXENTRY:	LAANTJE	LAANTJE	TYPE	ATT_SUF,DET_SUF
LEXENTRY:	LB	(LIM.)	PROV	DETACH
LEXENTRY:	LB.	(LIM.)	PROV	DETACH
LEXENTRY:	LEI	LEI	TYPE	ATT_SUF,DET_SUF
LEXENTRY:	LIM	(LIM.)	PROV	DETACH
LEXENTRY:	LIM.	(LIM.)	PROV	DETACH
LEXENTRY:	LIMBURG	(LIM.)	PROV	DETACH
LEXENTRY:	LN	LAAN	TYPE	ATT_PRE,ATT_SUF,DET_PRE,DET_SUF
LEXENTRY:	LN.	LAAN	TYPE	ATT_PRE,ATT_SUF,DET_PRE,DET_SUF
LEXENTRY:	LO	LO	TYPE	ATT_SUF
LEXENTRY:	LOOP	LOOP	TYPE	ATT_SUF
LEXENTRY:	MAATSCHAPPIJ	MAATSCHAPPIJ	PLACEN	DETACH
LEXENTRY:	MARKT	MARKT	TYPE	ATT_SUF,DET_SUF
LEXENTRY:	MIJ	MIJ	PLACEN	DETACH
LEXENTRY:	MKT	MARKT	TYPE	ATT_SUF,DET_SUF
LEXENTRY:	MKT.	MARKT	TYPE	ATT_SUF
LEXENTRY:	MOLEN	MOLEN	TYPE	ATT_SUF,DET_SUF
LEXENTRY:	N.B.	(N.BR.)	PROV	DETACH
LEXENTRY:	N.BR.	(N.BR.)	PROV	DETACH
LEXENTRY:	NB	(N.BR.)	PROV	DETACH
LEXENTRY:	NBR	(N.BR.)	PROV	DETACH
LEXENTRY:	NETHERLANDS	NETHERLANDS	NATION	DETACH
LEXENTRY:	NH	(N.H.)	PROV	DETACH
LEXENTRY:	NH.	(N.H.)	PROV	DETACH
LEXENTRY:	NL	NETHERLANDS	NATION	DETACH
LEXENTRY:	NLD	NETHERLANDS	NATION	DETACH
LEXENTRY:	NOORD BRABANT	(N.BR.)	PROV	DETACH
LEXENTRY:	NOORD HOLLAND	(N.H.)	PROV	DETACH
LEXENTRY:	NV	NV	PLACEN	DETACH
LEXENTRY:	OORD	OORD	TYPE	ATT_SUF,DET_SUF
LEXENTRY:	OV	(OV.)	PROV	DETACH
LEXENTRY:	OV.	(OV.)	PROV	DETACH
LEXENTRY:	OVERIJSSEL	(OV.)	PROV	DETACH
LEXENTRY:	P.O. BOX	POSTBUS	BOXH	DETACH
LEXENTRY:	PAD	PAD	TYPE	ATT_SUF,DET_SUF
LEXENTRY:	PARK	PARK	TYPE	ATT_PRE,ATT_SUF,DET_PRE,DET_SUF
LEXENTRY:	PB	POSTBUS	BOXH	DETACH
LEXENTRY:	PB.	POSTBUS	BOXH	DETACH
LEXENTRY:	PK	PARK	TYPE	ATT_PRE,ATT_SUF,DET_PRE,DET_SUF
LEXENTRY:	PK.	PARK	TYPE	ATT_PRE,ATT_SUF,DET_PRE,DET_SUF
LEXENTRY:	PL	PLEIN	TYPE	ATT_PRE,ATT_SUF,DET_PRE,DET_SUF
LEXENTRY:	PL.	PLEIN	TYPE	ATT_PRE,ATT_SUF,DET_PRE,DET_SUF
LEXENTRY:	PLAATS	PLAATS	TYPE	ATT_SUF,DET_SUF
LEXENTRY:	PLANTSOEN	PLANTSOEN	TYPE	ATT_SUF,DET_SUF
LEXENTRY:	PLATZ	PLEIN	TYPE	ATT_PRE,ATT_SUF,DET_PRE,DET_SUF
";
"LEXENTRY:	PLEIN	PLEIN	TYPE	ATT_PRE,ATT_SUF,DET_PRE,DET_SUF
LEXENTRY:	PLNTS	PLANTSOEN	TYPE	ATT_SUF,DET_SUF
LEXENTRY:	PLNTS.	PLANTSOEN	TYPE	ATT_SUF,DET_SUF
LEXENTRY:	PO BOX	POSTBUS	BOXH	DETACH
LEXENTRY:	POORT	POORT	TYPE	ATT_SUF,DET_SUF
LEXENTRY:	POSTAPART	POSTBUS	BOXH	DETACH
LEXENTRY:	POSTBUS	POSTBUS	BOXH	DETACH
LEXENTRY:	PROMENADE	PROMENADE	TYPE	ATT_SUF
LEXENTRY:	REI	REI	TYPE	ATT_SUF
LEXENTRY:	RUI	RUI	TYPE	ATT_SUF,DET_SUF
LEXENTRY:	SCHANS	SCHANS	TYPE	ATT_SUF,DET_SUF
LEXENTRY:	SINGEL	SINGEL	TYPE	ATT_SUF,DET_SUF
LEXENTRY:	SLUIS	SLUIS	TYPE	ATT_SUF,DET_SUF
LEXENTRY:	SNGL	SINGEL	TYPE	ATT_SUF,DET_SUF
LEXENTRY:	SNGL.	SINGEL	TYPE	ATT_SUF,DET_SUF
LEXENTRY:	SPOOR	SPOOR	TYPE	ATT_SUF,DET_SUF
LEXENTRY:	SPRONG	SPRONG	TYPE	ATT_SUF
LEXENTRY:	SQ	SQ	TYPE	ATT_SUF,DET_SUF
LEXENTRY:	SQ.	SQ	TYPE	ATT_SUF
LEXENTRY:	SQUARE	SQ	TYPE	ATT_SUF,DET_SUF
LEXENTRY:	STEDE	STEDE	TYPE	ATT_SUF,DET_SUF
LEXENTRY:	STEEG	STEEG	TYPE	ATT_SUF,DET_SUF
LEXENTRY:	STEEGJE	STEEGJE	TYPE	ATT_SUF,DET_SUF
LEXENTRY:	STEEN	STEEN	TYPE	ATT_SUF
LEXENTRY:	STEENWEG	STEENWEG	TYPE	ATT_SUF
LEXENTRY:	STEENWEG	SWG	TYPE	ATT_SUF,DET_SUF
LEXENTRY:	STEIN	STEIN	TYPE	ATT_SUF
LEXENTRY:	STICHTING	STICHTING	PLACEN	DETACH
LEXENTRY:	STR	STRAAT	TYPE	ATT_SUF,DET_SUF
LEXENTRY:	STR.	STRAAT	TYPE	ATT_SUF
LEXENTRY:	STRAAT	STRAAT	TYPE	ATT_SUF,DET_SUF
LEXENTRY:	STRAAT VAN	STRAAT VAN	TYPE	DET_PRE
LEXENTRY:	STRAATJE	STRAATJE	TYPE	ATT_SUF,DET_SUF
LEXENTRY:	STRAATWEG	STRAATWEG	TYPE	ATT_SUF,DET_SUF
LEXENTRY:	STRWG	STRAATWEG	TYPE	ATT_SUF,DET_SUF
LEXENTRY:	STRWG.	STRAATWEG	TYPE	ATT_SUF,DET_SUF
LEXENTRY:	STWG	SWG	TYPE	ATT_SUF,DET_SUF
LEXENTRY:	SWG	SWG	TYPE	ATT_SUF,DET_SUF
LEXENTRY:	SWG.	SWG	TYPE	ATT_SUF
LEXENTRY:	TUIN	TUIN	TYPE	ATT_SUF,DET_SUF
LEXENTRY:	TUNNEL	TUNNEL	TYPE	ATT_SUF,DET_SUF
LEXENTRY:	UTR	(UTR.)	PROV	DETACH
LEXENTRY:	UTR.	(UTR.)	PROV	DETACH
LEXENTRY:	UTRECHT	(UTR.)	PROV	DETACH
LEXENTRY:	V	VAN	WORD	DETACH
LEXENTRY:	VAART	VAART	TYPE	ATT_SUF,DET_SUF
LEXENTRY:	VAN	VAN	WORD	DETACH
LEXENTRY:	VEER	VEER	TYPE	ATT_SUF,DET_SUF
LEXENTRY:	VELD	VELD	TYPE	ATT_SUF,DET_SUF
LEXENTRY:	VEN	VEN	TYPE	ATT_SUF
LEXENTRY:	VEN 	VEN	TYPE	ATT_SUF
LEXENTRY:	VENNOOTSCHAP	VENNOOTSCHAP	PLACEN	DETACH
LEXENTRY:	VERENIGING	VERENIGING	PLACEN	DETACH
LEXENTRY:	VEST	VEST	TYPE	ATT_SUF,DET_SUF
LEXENTRY:	VLIET	VLIET	TYPE	ATT_SUF,DET_SUF
LEXENTRY:	VOF	VOF	PLACEN	DETACH
LEXENTRY:	WAL	WAL	TYPE	ATT_SUF,DET_SUF
LEXENTRY:	WARANDE	WARANDE	TYPE	ATT_SUF
LEXENTRY:	WEG	WEG	TYPE	ATT_PRE,ATT_SUF,DET_PRE,DET_SUF
LEXENTRY:	WEGEL	WEGEL	TYPE	ATT_SUF
LEXENTRY:	WERF	WERF	TYPE	ATT_SUF,DET_SUF
";
"LEXENTRY:	WG	WEG	TYPE	ATT_PRE,ATT_SUF
LEXENTRY:	WG.	WEG	TYPE	ATT_PRE,ATT_SUF
LEXENTRY:	WIJK	WIJK	TYPE	ATT_SUF,DET_SUF
LEXENTRY:	ZEELAND	(ZLD.)	PROV	DETACH
LEXENTRY:	ZH	(Z.H.)	PROV	DETACH
LEXENTRY:	ZH.	(Z.H.)	PROV	DETACH
LEXENTRY:	ZIJDE	ZIJDE	TYPE	ATT_SUF
LEXENTRY:	ZLD	(ZLD.)	PROV	DETACH
LEXENTRY:	ZLD.	(ZLD.)	PROV	DETACH
LEXENTRY:	ZUID HOLLAND	(Z.H.)	PROV	DETACH
"].
(** data/sample/newzealand.lex *)
Definition slex_newzealand : list string :=
[
"LEXICON:	lex-newzealand.txt	ENG	en_NZ
LEXENTRY:	1	1	NUMBER	DETACH
LEXENTRY:	10	10	NUMBER	DETACH
LEXENTRY:	10TH	10TH	WORD,ORD	DETACH
LEXENTRY:	11	11	NUMBER	DETACH
LEXENTRY:	11TH	11TH	WORD,ORD	DETACH
LEXENTRY:	12	12	NUMBER	DETACH
LEXENTRY:	12TH	12TH	WORD,ORD	DETACH
LEXENTRY:	13	13	NUMBER	DETACH
LEXENTRY:	13TH	13TH	WORD,ORD	DETACH
LEXENTRY:	14	14	NUMBER	DETACH
LEXENTRY:	14TH	14TH	WORD,ORD	DETACH
LEXENTRY:	15	15	NUMBER	DETACH
LEXENTRY:	15TH	15TH	WORD,ORD	DETACH
LEXENTRY:	16	16	NUMBER	DETACH
LEXENTRY:	16TH	16TH	WORD,ORD	DETACH
LEXENTRY:	17	17	NUMBER	DETACH
LEXENTRY:	17TH	17TH	WORD,ORD	DETACH
LEXENTRY:	18	18	NUMBER	DETACH
LEXENTRY:	18TH	18TH	WORD,ORD	DETACH
LEXENTRY:	19	19	NUMBER	DETACH
LEXENTRY:	19TH	19TH	WORD,ORD	DETACH
LEXENTRY:	1ST	1ST	WORD,ORD	DETACH
LEXENTRY:	2	2	NUMBER	DETACH
LEXENTRY:	20	20	NUMBER	DETACH
LEXENTRY:	20TH	20TH	WORD,ORD	DETACH
LEXENTRY:	2ND	2ND	WORD,ORD	DETACH
LEXENTRY:	3	3	NUMBER	DETACH
LEXENTRY:	30	30	NUMBER	DETACH
LEXENTRY:	30TH	30TH	WORD,ORD	DETACH
LEXENTRY:	3RD	3RD	WORD,ORD	DETACH
LEXENTRY:	4	4	NUMBER	DETACH
LEXENTRY:	40	40	NUMBER	DETACH
LEXENTRY:	40TH	40TH	WORD,ORD	DETACH
LEXENTRY:	4TH	4TH	WORD,ORD	DETACH
LEXENTRY:	5	5	NUMBER	DETACH
LEXENTRY:	50	50	NUMBER	DETACH
LEXENTRY:	50TH	50TH	WORD,ORD	DETACH
LEXENTRY:	5TH	5TH	WORD,ORD	DETACH
LEXENTRY:	6	6	NUMBER	DETACH
LEXENTRY:	60	60	NUMBER	DETACH
LEXENTRY:	60TH	60TH	WORD,ORD	DETACH
LEXENTRY:	6TH	6TH	WORD,ORD	DETACH
LEXENTRY:	7	7	NUMBER	DETACH
LEXENTRY:	70	70	NUMBER	DETACH
LEXENTRY:	70TH	70TH	WORD,ORD	DETACH
LEXENTRY:	7TH	7TH	WORD,ORD	DETACH
LEXENTRY:	8	8	NUMBER	DETACH
LEXENTRY:	80	80	NUMBER	DETACH
LEXENTRY:	80TH	80TH	WORD,ORD	DETACH
LEXENTRY:	8TH	8TH	WORD,ORD	DETACH
LEXENTRY:	9	9	NUMBER	DETACH
LEXENTRY:	90	90	NUMBER	DETACH
LEXENTRY:	90TH	90TH	WORD,ORD	DETACH
LEXENTRY:	9TH	9TH	WORD,ORD	DETACH
LEXENTRY:	ALLEY	ALY	TYPE	DET_SUF
LEXENTRY:	ALY	ALY	TYPE	DET_SUF
LEXENTRY:	ANNEX	ANX	TYPE	DET_SUF
LEXENTRY:	ANX	ANX	TYPE	DET_SUF
LEXENTRY:	APARTMENT	APT	UNITH	DETACH
LEXENTRY:	APT	APT	UNITH	DETACH
LEXENTRY:	ARC	ARC	TYPE	DET_SUF
LEXENTRY:	ARCADE	ARC	TYPE	DET_SUF
LEXENTRY:	ASHBURTON	ASHBURTON	CITY	DETACH
LEXENTRY:	AUCKLAND	AUCKLAND	PROV,CITY	DETACH
LEXENTRY:	AVE	AVE	TYPE	DET_SUF
LEXENTRY:	AVENUE	AVE	TYPE	DET_SUF
LEXENTRY:	BASEMENT	BSMT	UNITH	DETACH
LEXENTRY:	BAY OF PLENTY	BAY OF PLENTY	PROV	DETACH
LEXENTRY:	BCH	BCH	TYPE	DET_SUF
LEXENTRY:	BEACH	BCH	TYPE	DET_SUF
LEXENTRY:	BEND	BND	TYPE	DET_SUF
LEXENTRY:	BLDG	BLDG	UNITH	DETACH
LEXENTRY:	BLENHEIM	BLENHEIM	CITY	DETACH
LEXENTRY:	BLF	BLF	TYPE	DET_SUF
";
"LEXENTRY:	BLUFF	BLF	TYPE	DET_SUF
LEXENTRY:	BLVD	BLVD	TYPE	DET_SUF
LEXENTRY:	BND	BND	TYPE	DET_SUF
LEXENTRY:	BOTTOM	BTM	TYPE	DET_SUF
LEXENTRY:	BOULEVARD	BLVD	TYPE	DET_SUF
LEXENTRY:	BR	BR	TYPE	DET_SUF
LEXENTRY:	BRANCH	BR	TYPE	DET_SUF
LEXENTRY:	BRG	BRG	TYPE	DET_SUF
LEXENTRY:	BRIDGE	BRG	TYPE	DET_SUF
LEXENTRY:	BRK	BRK	TYPE	DET_SUF
LEXENTRY:	BROOK	BRK	TYPE	DET_SUF
LEXENTRY:	BSMT	BSMT	UNITH	DETACH
LEXENTRY:	BTM	BTM	TYPE	DET_SUF
LEXENTRY:	BUILDING	BLDG	UNITH	DETACH
LEXENTRY:	BYP	BYP	TYPE	DET_SUF
LEXENTRY:	BYPASS	BYP	TYPE	DET_SUF
LEXENTRY:	C/O	C/O	UNITH	DETACH
LEXENTRY:	CANTERBURY	CANTERBURY	PROV	DETACH
LEXENTRY:	CAPE	CPE	TYPE	DET_SUF
LEXENTRY:	CAUSEWAY	CSWY	TYPE	DET_SUF
LEXENTRY:	CENTRE	CTR	TYPE	DET_SUF
LEXENTRY:	CHRISTCHURCH	CHRISTCHURCH	CITY	DETACH
LEXENTRY:	CIR	CIR	TYPE	DET_SUF
LEXENTRY:	CIRCLE	CIR	TYPE	DET_SUF
LEXENTRY:	CLFS	CLFS	TYPE	DET_SUF
LEXENTRY:	CLIFFS	CLFS	TYPE	DET_SUF
LEXENTRY:	COK	COK	NATION	DETACH
LEXENTRY:	COOK ISLANDS	COK	NATION	DETACH
LEXENTRY:	COR	COR	TYPE	DET_SUF
LEXENTRY:	CORNER	COR	TYPE	DET_SUF
LEXENTRY:	CORNERS	CORS	TYPE	DET_SUF
LEXENTRY:	CORS	CORS	TYPE	DET_SUF
LEXENTRY:	COURSE	CRSE	TYPE	DET_SUF
LEXENTRY:	COURT	CT	TYPE	DET_SUF
LEXENTRY:	COURTS	CTS	TYPE	DET_SUF
LEXENTRY:	COVE	CV	TYPE	DET_SUF
LEXENTRY:	CPE	CPE	TYPE	DET_SUF
LEXENTRY:	CREEK	CRK	TYPE	DET_SUF
LEXENTRY:	CRES	CRES	TYPE	DET_SUF
LEXENTRY:	CRESCENT	CRES	TYPE	DET_SUF
LEXENTRY:	CRK	CRK	TYPE	DET_SUF
LEXENTRY:	CRSE	CRSE	TYPE	DET_SUF
LEXENTRY:	CSWY	CSWY	TYPE	DET_SUF
LEXENTRY:	CT	CT	TYPE	DET_SUF
LEXENTRY:	CTR	CTR	TYPE	DET_SUF
LEXENTRY:	CTS	CTS	TYPE	DET_SUF
LEXENTRY:	CV	CV	TYPE	DET_SUF
LEXENTRY:	DEPARTMENT	DEPT	UNITH	DETACH
LEXENTRY:	DEPT	DEPT	UNITH	DETACH
LEXENTRY:	DIVIDE	DV	TYPE	DET_SUF
LEXENTRY:	DR	DR	TYPE	DET_SUF
LEXENTRY:	DRIVE	DR	TYPE	DET_SUF
LEXENTRY:	DUNEDIN	DUNEDIN	CITY	DETACH
LEXENTRY:	DV	DV	TYPE	DET_SUF
LEXENTRY:	E	E	DIRECT	DETACH
LEXENTRY:	EAST	E	DIRECT	DETACH
LEXENTRY:	EAST CAPE	EAST CAPE	PROV	DETACH
LEXENTRY:	EAST COAST	EAST COAST	PROV	DETACH
LEXENTRY:	EIGHT	8	NUMBER	DETACH
LEXENTRY:	EIGHTEEN	18	NUMBER	DETACH
LEXENTRY:	EIGHTEENTH	18TH	WORD,ORD	DETACH
LEXENTRY:	EIGHTH	8TH	WORD,ORD	DETACH
LEXENTRY:	EIGHTIETH	80TH	WORD,ORD	DETACH
LEXENTRY:	EIGHTY	80	NUMBER	DETACH
LEXENTRY:	ELEVEN	11	NUMBER	DETACH
LEXENTRY:	ELEVENTH	11TH	WORD,ORD	DETACH
LEXENTRY:	EST	EST	TYPE	DET_SUF
LEXENTRY:	ESTATES	EST	TYPE	DET_SUF
LEXENTRY:	F	F	UNITH	DETACH
LEXENTRY:	FALLS	FLS	TYPE	DET_SUF
LEXENTRY:	FEILDING	FEILDING	CITY	DETACH
LEXENTRY:	FERRY	FRY	TYPE	DET_SUF
LEXENTRY:	FIELD	FLD	TYPE	DET_SUF
";
"LEXENTRY:	FIELDS	FLDS	TYPE	DET_SUF
LEXENTRY:	FIFTEEN	15	NUMBER	DETACH
LEXENTRY:	FIFTEENTH	15TH	WORD,ORD	DETACH
LEXENTRY:	FIFTH	5TH	WORD,ORD	DETACH
LEXENTRY:	FIFTIETH	50TH	WORD,ORD	DETACH
LEXENTRY:	FIFTY	50	NUMBER	DETACH
LEXENTRY:	FIRST	1ST	WORD,ORD	DETACH
LEXENTRY:	FIVE	5	NUMBER	DETACH
LEXENTRY:	FL	FL	UNITH	DETACH
LEXENTRY:	FLAT	F	UNITH	DETACH
LEXENTRY:	FLATS	FLT	TYPE	DET_SUF
LEXENTRY:	FLD	FLD	TYPE	DET_SUF
LEXENTRY:	FLDS	FLDS	TYPE	DET_SUF
LEXENTRY:	FLOOR	FL	UNITH	DETACH
LEXENTRY:	FLS	FLS	TYPE	DET_SUF
LEXENTRY:	FLT	FLT	TYPE	DET_SUF
LEXENTRY:	FORD	FRD	TYPE	DET_SUF
LEXENTRY:	FOREST	FRST	TYPE	DET_SUF
LEXENTRY:	FORKS	FRKS	TYPE	DET_SUF
LEXENTRY:	FORT	FT	TYPE	DET_SUF
LEXENTRY:	FORTIETH	40TH	WORD,ORD	DETACH
LEXENTRY:	FORTY	40	NUMBER	DETACH
LEXENTRY:	FOUR	4	NUMBER	DETACH
LEXENTRY:	FOURTEEN	14	NUMBER	DETACH
LEXENTRY:	FOURTEENTH	14TH	WORD,ORD	DETACH
LEXENTRY:	FOUTH	4TH	WORD,ORD	DETACH
LEXENTRY:	FRD	FRD	TYPE	DET_SUF
LEXENTRY:	FRKS	FRKS	TYPE	DET_SUF
LEXENTRY:	FRST	FRST	TYPE	DET_SUF
LEXENTRY:	FRY	FRY	TYPE	DET_SUF
LEXENTRY:	FT	FT	TYPE	DET_SUF
LEXENTRY:	GARDENS	GDNS	TYPE	DET_SUF
LEXENTRY:	GDNS	GDNS	TYPE	DET_SUF
LEXENTRY:	GISBORNE	GISBORNE	PROV,CITY	DETACH
LEXENTRY:	GLEN	GLN	TYPE	DET_SUF
LEXENTRY:	GLN	GLN	TYPE	DET_SUF
LEXENTRY:	GREEN	GRN	TYPE	DET_SUF
LEXENTRY:	GREYMOUTH	GREYMOUTH	CITY	DETACH
LEXENTRY:	GRN	GRN	TYPE	DET_SUF
LEXENTRY:	GROUP	GROUP	PLACEN	DETACH
LEXENTRY:	GROVE	GRV	TYPE	DET_SUF
LEXENTRY:	GRV	GRV	TYPE	DET_SUF
LEXENTRY:	HAMILTON	HAMILTON	CITY	DETACH
LEXENTRY:	HARBOUR	HBR	TYPE	DET_SUF
LEXENTRY:	HASTINGS	HASTINGS	CITY	DETACH
LEXENTRY:	HAVEN	HVN	TYPE	DET_SUF
LEXENTRY:	HAWERA	HAWERA	CITY	DETACH
LEXENTRY:	HAWKE'S BAY	HAWKE'S BAY	PROV	DETACH
LEXENTRY:	HAWKES BAY	HAWKES BAY	PROV	DETACH
LEXENTRY:	HBR	HBR	TYPE	DET_SUF
LEXENTRY:	HEIGHTS	HTS	TYPE	DET_SUF
LEXENTRY:	HIGHWAY	HWY	TYPE	DET_SUF
LEXENTRY:	HILL	HL	TYPE	DET_SUF
LEXENTRY:	HILLS	HLS	TYPE	DET_SUF
LEXENTRY:	HL	HL	TYPE	DET_SUF
LEXENTRY:	HLS	HLS	TYPE	DET_SUF
LEXENTRY:	HTS	HTS	TYPE	DET_SUF
LEXENTRY:	HVN	HVN	TYPE	DET_SUF
LEXENTRY:	HWY	HWY	TYPE	DET_SUF
LEXENTRY:	INVERCARGILL	INVERCARGILL	CITY	DETACH
LEXENTRY:	IS	IS	TYPE	DET_SUF
LEXENTRY:	ISLAND	IS	TYPE	DET_SUF
LEXENTRY:	JCT	JCT	TYPE	DET_SUF
LEXENTRY:	JUNCTION	JCT	TYPE	DET_SUF
LEXENTRY:	KAPITI	KAPITI	CITY	DETACH
LEXENTRY:	KEY	KEY	UNITH	DETACH
LEXENTRY:	L	L	UNITH	DETACH
LEXENTRY:	LANE	LN	TYPE	DET_SUF
LEXENTRY:	LBBY	LBBY	UNITH	DETACH
LEXENTRY:	LDG	LDG	TYPE	DET_SUF
LEXENTRY:	LEVEL	L	UNITH	DETACH
LEXENTRY:	LEVIN	LEVIN	CITY	DETACH
LEXENTRY:	LIMITED	LIMITED	PLACEN	DETACH
";
"LEXENTRY:	LN	LN	TYPE	DET_SUF
LEXENTRY:	LOBBY	LBBY	UNITH	DETACH
LEXENTRY:	LODGE	LDG	TYPE	DET_SUF
LEXENTRY:	LOT	LOT	UNITH	DETACH
LEXENTRY:	LOWER	LOWR	UNITH	DETACH
LEXENTRY:	LOWR	LOWR	UNITH	DETACH
LEXENTRY:	LTD	LTD	PLACEN	DETACH
LEXENTRY:	MANAWATU WANGANUI	MANAWATU WANGANUI	PROV	DETACH
LEXENTRY:	MANAWATU-WANGANUI	MANAWATU-WANGANUI	PROV	DETACH
LEXENTRY:	MARLBOROUGH	MARLBOROUGH	PROV	DETACH
LEXENTRY:	MASTERTON	MASTERTON	CITY	DETACH
LEXENTRY:	MDWS	MDWS	TYPE	DET_SUF
LEXENTRY:	MEADOWS	MDWS	TYPE	DET_SUF
LEXENTRY:	MILL	ML	TYPE	DET_SUF
LEXENTRY:	MILLS	MLS	TYPE	DET_SUF
LEXENTRY:	MISSION	MSN	TYPE	DET_SUF
LEXENTRY:	ML	ML	TYPE	DET_SUF
LEXENTRY:	MLS	MLS	TYPE	DET_SUF
LEXENTRY:	MOUNT	MT	WORD,TYPE	DET_SUF
LEXENTRY:	MOUNTAIN	MTN	WORD,TYPE	DET_SUF
LEXENTRY:	MSN	MSN	TYPE	DET_SUF
LEXENTRY:	MT	MT	WORD,TYPE	DET_SUF
LEXENTRY:	MTN	MTN	WORD,TYPE	DET_SUF
LEXENTRY:	N	N	DIRECT	DETACH
LEXENTRY:	NAPIER	NAPIER	CITY	DETACH
LEXENTRY:	NAPIER-HASTINGS	NAPIER-HASTINGS	CITY	DETACH
LEXENTRY:	NE	NE	DIRECT	DETACH
LEXENTRY:	NELSON	NELSON	PROV,CITY	DETACH
LEXENTRY:	NEW PLYMOUTH	NEW PLYMOUTH	CITY	DETACH
LEXENTRY:	NEW ZEALAND	NEW ZEALAND	NATION	DETACH
LEXENTRY:	NINE	9	NUMBER	DETACH
LEXENTRY:	NINETEEN	19	NUMBER	DETACH
LEXENTRY:	NINETEENTH	19TH	WORD,ORD	DETACH
LEXENTRY:	NINETIETH	90TH	WORD,ORD	DETACH
LEXENTRY:	NINETY	90	NUMBER	DETACH
LEXENTRY:	NINTH	9TH	WORD,ORD	DETACH
LEXENTRY:	NIU	NIU	NATION	DETACH
LEXENTRY:	NIUE	NIU	NATION	DETACH
LEXENTRY:	NORTH	N	DIRECT	DETACH
LEXENTRY:	NORTHEAST	NE	DIRECT	DETACH
LEXENTRY:	NORTHLAND	NORTHLAND	PROV	DETACH
LEXENTRY:	NORTHWEST	NW	DIRECT	DETACH
LEXENTRY:	NTH	N	DIRECT	DETACH
LEXENTRY:	NW	NW	DIRECT	DETACH
LEXENTRY:	NZ	NEW ZEALAND	NATION	DETACH
LEXENTRY:	NZL	NEW ZEALAND	NATION	DETACH
LEXENTRY:	OAMARU	OAMARU	CITY	DETACH
LEXENTRY:	OFC	OFC	UNITH	DETACH
LEXENTRY:	OFF	OFC	UNITH	DETACH
LEXENTRY:	OFFICE	OFC	UNITH	DETACH
LEXENTRY:	ONE	1	NUMBER	DETACH
LEXENTRY:	ORCH	ORCH	TYPE	DET_SUF
LEXENTRY:	ORCHARD	ORCH	TYPE	DET_SUF
LEXENTRY:	OTAGO	OTAGO	PROV	DETACH
LEXENTRY:	P O BOX	P O BOX	BOXH	DETACH
LEXENTRY:	PALMERSTON NORTH	PALMERSTON NORTH	CITY	DETACH
LEXENTRY:	PARKWAY	PKY	TYPE	DET_SUF
LEXENTRY:	PKY	PKY	TYPE	DET_SUF
LEXENTRY:	PL	PL	TYPE	DET_SUF
LEXENTRY:	PLACE	PL	TYPE	DET_SUF
LEXENTRY:	PO BOX	P O BOX	BOXH	DETACH
LEXENTRY:	POINT	PT	TYPE	DET_SUF
LEXENTRY:	POST OFFICE BOX	P O BOX	BOXH	DETACH
LEXENTRY:	PRIVATE BAG	PRIVATE BAG	BOXH	DETACH
LEXENTRY:	PT	PT	TYPE	DET_SUF
LEXENTRY:	PUKEKOHE	PUKEKOHE	CITY	DETACH
LEXENTRY:	QUEENSTOWN	QUEENSTOWN	CITY	DETACH
LEXENTRY:	R D	RD	BOXH	DETACH
";
"LEXENTRY:	RANGIORA	RANGIORA	CITY	DETACH
LEXENTRY:	RAPIDS	RPDS	TYPE	DET_SUF
LEXENTRY:	RD	RD	TYPE,BOXH	DETACH
LEXENTRY:	REAR	REAR	UNITH	DETACH
LEXENTRY:	RIV	RIV	TYPE	DET_SUF
LEXENTRY:	RIVER	RIV	TYPE	DET_SUF
LEXENTRY:	RM	RM	UNITH	DETACH
LEXENTRY:	ROAD	RD	TYPE	DET_SUF
LEXENTRY:	ROOM	RM	UNITH	DETACH
LEXENTRY:	ROSS DEPENDENCY	XRD	NATION	DETACH
LEXENTRY:	ROTORUA	ROTORUA	CITY	DETACH
LEXENTRY:	RPDS	RPDS	TYPE	DET_SUF
LEXENTRY:	RURAL DELIVERY	RD	BOXH	DETACH
LEXENTRY:	S	S	DIRECT	DETACH
LEXENTRY:	SAINT	ST	WORD	DETACH
LEXENTRY:	SE	SE	DIRECT	DETACH
LEXENTRY:	SECOND	2ND	WORD,ORD	DETACH
LEXENTRY:	SEVEN	7	NUMBER	DETACH
LEXENTRY:	SEVENTEEN	17	NUMBER	DETACH
LEXENTRY:	SEVENTEENTH	17TH	WORD,ORD	DETACH
LEXENTRY:	SEVENTH	7TH	WORD,ORD	DETACH
LEXENTRY:	SEVENTIETH	70TH	WORD,ORD	DETACH
LEXENTRY:	SEVENTY	70	NUMBER	DETACH
LEXENTRY:	SH	SH	TYPE	DET_SUF
LEXENTRY:	SHORE	SHR	TYPE	DET_SUF
LEXENTRY:	SHR	SHR	TYPE	DET_SUF
LEXENTRY:	SIX	6	NUMBER	DETACH
LEXENTRY:	SIXTEEN	16	NUMBER	DETACH
LEXENTRY:	SIXTEENTH	16TH	WORD,ORD	DETACH
LEXENTRY:	SIXTH	6TH	WORD,ORD	DETACH
LEXENTRY:	SIXTIETH	60TH	WORD,ORD	DETACH
LEXENTRY:	SIXTY	60	NUMBER	DETACH
LEXENTRY:	SMT	SMT	TYPE	DET_SUF
LEXENTRY:	SOUTH	S	DIRECT	DETACH
LEXENTRY:	SOUTHEAST	SE	DIRECT	DETACH
LEXENTRY:	SOUTHLAND	SOUTHLAND	PROV	DETACH
LEXENTRY:	SOUTHWEST	SW	DIRECT	DETACH
LEXENTRY:	SPACE	SPC	UNITH	DETACH
LEXENTRY:	SPC	SPC	UNITH	DETACH
LEXENTRY:	SPG	SPG	TYPE	DET_SUF
LEXENTRY:	SPGS	SPGS	TYPE	DET_SUF
LEXENTRY:	SPRING	SPG	TYPE	DET_SUF
LEXENTRY:	SPRINGS	SPGS	TYPE	DET_SUF
LEXENTRY:	SQ	SQ	TYPE	DET_SUF
LEXENTRY:	SQUARE	SQ	TYPE	DET_SUF
LEXENTRY:	ST	ST	TYPE,WORD	DETACH,DET_SUF
LEXENTRY:	STA	STA	TYPE	DET_SUF
LEXENTRY:	STATE HIGHWAY	SH	TYPE	DET_SUF
LEXENTRY:	STATION	STA	TYPE	DET_SUF
LEXENTRY:	STE	STE	UNITH	DETACH
LEXENTRY:	STH	S	DIRECT	DETACH
LEXENTRY:	STREAM	STRM	TYPE	DET_SUF
LEXENTRY:	STREET	ST	TYPE	DET_SUF
LEXENTRY:	STRM	STRM	TYPE	DET_SUF
LEXENTRY:	SUITE	STE	UNITH	DETACH
LEXENTRY:	SUMMIT	SMT	TYPE	DET_SUF
LEXENTRY:	SW	SW	DIRECT	DETACH
LEXENTRY:	TARANAKI	TARANAKI	PROV	DETACH
LEXENTRY:	TASMAN	TASMAN	PROV	DETACH
LEXENTRY:	TAUPO	TAUPO	CITY	DETACH
LEXENTRY:	TAURANGA	TAURANGA	CITY	DETACH
LEXENTRY:	TEN	10	NUMBER	DETACH
LEXENTRY:	TENTH	10TH	WORD,ORD	DETACH
LEXENTRY:	TER	TER	TYPE	DET_SUF
LEXENTRY:	TERRACE	TER	TYPE	DET_SUF
LEXENTRY:	THIRD	3RD	WORD,ORD	DETACH
LEXENTRY:	THIRTEEN	13	NUMBER	DETACH
LEXENTRY:	THIRTEENTH	13TH	WORD,ORD	DETACH
LEXENTRY:	THIRTIETH	30TH	WORD,ORD	DETACH
LEXENTRY:	THIRTY	30	NUMBER	DETACH
LEXENTRY:	THREE	3	NUMBER	DETACH
LEXENTRY:	TIMARU	TIMARU	CITY	DETACH
";
"LEXENTRY:	TKL	TKL	NATION	DETACH
LEXENTRY:	TOKELAU	TKL	NATION	DETACH
LEXENTRY:	TOKOROA	TOKOROA	CITY	DETACH
LEXENTRY:	TRUST	TRUST	PLACEN	DETACH
LEXENTRY:	TUNL	TUNL	TYPE	DET_SUF
LEXENTRY:	TUNNEL	TUNL	TYPE	DET_SUF
LEXENTRY:	TWELFTH	12TH	WORD,ORD	DETACH
LEXENTRY:	TWELVE	12	NUMBER	DETACH
LEXENTRY:	TWENTIETH	20TH	WORD,ORD	DETACH
LEXENTRY:	TWENTY	20	NUMBER	DETACH
LEXENTRY:	TWO	2	NUMBER	DETACH
LEXENTRY:	U	UNIT	UNITH	DETACH
LEXENTRY:	UNIT	UNIT	UNITH	DETACH
LEXENTRY:	UPPER	UPPR	UNITH	DETACH
LEXENTRY:	UPPR	UPPR	UNITH	DETACH
LEXENTRY:	VALLEY	VLY	TYPE	DET_SUF
LEXENTRY:	VIA	VIA	TYPE	DET_SUF
LEXENTRY:	VIADUCT	VIA	TYPE	DET_SUF
LEXENTRY:	VIEW	VW	TYPE	DET_SUF
LEXENTRY:	VILLAGE	VLG	TYPE	DET_SUF
LEXENTRY:	VIS	VIS	TYPE	DET_SUF
LEXENTRY:	VISTA	VIS	TYPE	DET_SUF
LEXENTRY:	VLG	VLG	TYPE	DET_SUF
LEXENTRY:	VLY	VLY	TYPE	DET_SUF
LEXENTRY:	VW	VW	TYPE	DET_SUF
LEXENTRY:	W	W	DIRECT	DETACH
LEXENTRY:	WAIKATO	WAIKATO	PROV	DETACH
LEXENTRY:	WANGANUI	WANGANUI	CITY	DETACH
LEXENTRY:	WELLINGTON	WELLINGTON	PROV,CITY	DETACH
LEXENTRY:	WEST	W	DIRECT	DETACH
LEXENTRY:	WEST COAST	WEST COAST	PROV	DETACH
LEXENTRY:	WHAKATANE	WHAKATANE	CITY	DETACH
LEXENTRY:	WHANGANUI	WHANGANUI	CITY	DETACH
LEXENTRY:	WHANGAREI	WHANGAREI	CITY	DETACH
LEXENTRY:	XRD	XRD	NATION	DETACH
"].
(** data/sample/norway.lex *)
Definition slex_norway : list string :=
[
"LEXICON:	lex-norway.txt	NOR	no_NO
LEXENTRY:	AB	AB	PLACEN	DETACH
LEXENTRY:	AKTIEBOLAG	AKTIEBOLAG	PLACEN	DETACH
LEXENTRY:	AKTIEBOLAGET	AKTIEBOLAGET	PLACEN	DETACH
LEXENTRY:	ALLE	ALLE	TYPE	DET_SUF
LEXENTRY:	ALLE	ALLÉ	TYPE	ATT_SUF
LEXENTRY:	ALLEEN	ALLEEN	TYPE	ATT_SUF
LEXENTRY:	ALLEEN	ALLÉEN	TYPE	ATT_SUF
LEXENTRY:	ALLÉ	ALLÉ	TYPE	ATT_SUF,DET_SUF
LEXENTRY:	ALLÉEN	ALLÉEN	TYPE	ATT_SUF
LEXENTRY:	ASEN	ÅSEN	TYPE	ATT_SUF
LEXENTRY:	AVENY	AVENY	TYPE	DET_SUF
LEXENTRY:	BAKKE	BAKKE	TYPE	ATT_SUF
LEXENTRY:	BAKKEN	BAKKEN	TYPE	ATT_SUF
LEXENTRY:	BEKK	BEKK	TYPE	ATT_SUF
LEXENTRY:	BOLIGNUMMER	BOLIGNUMMER	BUILDT	DETACH
LEXENTRY:	BEKKEN	BEKKEN	TYPE	ATT_SUF
LEXENTRY:	BRU	BRU	TYPE	ATT_SUF,DET_SUF
LEXENTRY:	BRYGGA	BRYGGA	TYPE	ATT_SUF
LEXENTRY:	BRYGGEN	BRYGGEN	TYPE	ATT_SUF
LEXENTRY:	CHAUSSEEN	CHAUSSEEN	TYPE	ATT_SUF
LEXENTRY:	DALEN	DALEN	TYPE	ATT_SUF
LEXENTRY:	ENGA	ENGA	TYPE	ATT_SUF
LEXENTRY:	FARET	FARET	TYPE	ATT_SUF
LEXENTRY:	G.	GATE	TYPE	DET_SUF
LEXENTRY:	G.	GATA	TYPE	ATT_SUF
LEXENTRY:	GANG	GANG	TYPE	ATT_SUF
LEXENTRY:	GANGEN	GANGEN	TYPE	ATT_SUF
LEXENTRY:	GATA	GATA	TYPE	ATT_SUF
LEXENTRY:	GATE	GATE	TYPE	ATT_SUF,DET_SUF
LEXENTRY:	GATEN	GATEN	TYPE	ATT_SUF
LEXENTRY:	GRENDA	GRENDA	TYPE	ATT_SUF
LEXENTRY:	GT	GATE	TYPE	DET_SUF
LEXENTRY:	GT	GATA	TYPE	ATT_SUF
LEXENTRY:	GT.	GATE	TYPE	DET_SUF
LEXENTRY:	GT.	GATA	TYPE	ATT_SUF
LEXENTRY:	HAGAN	HAGAN	TYPE	ATT_SUF
LEXENTRY:	HAGEN	HAGEN	TYPE	ATT_SUF
LEXENTRY:	HAUGEN	HAUGEN	TYPE	ATT_SUF
LEXENTRY:	KAI	KAI	TYPE	ATT_SUF
LEXENTRY:	KAIA	KAIA	TYPE	ATT_SUF
LEXENTRY:	KAIEN	KAIEN	TYPE	ATT_SUF
LEXENTRY:	KROKEN	KROKEN	TYPE	ATT_SUF
LEXENTRY:	LAGET	LAGET	TYPE	ATT_SUF
LEXENTRY:	LIA	LIA	TYPE	ATT_SUF
LEXENTRY:	LIEN	LIEN	TYPE	ATT_SUF
LEXENTRY:	LOKKA	LØKKA	TYPE	ATT_SUF
LEXENTRY:	LUND	LUND	TYPE	ATT_SUF
LEXENTRY:	LUNDEN	LUNDEN	TYPE	ATT_SUF
LEXENTRY:	LØKKA	LØKKA	TYPE	ATT_SUF
LEXENTRY:	NO	NORWAY	NATION	DETACH
LEXENTRY:	NOORWEGEN	NORWAY	NATION	DETACH
LEXENTRY:	NOR	NORWAY	NATION	DETACH
LEXENTRY:	NORGE	NORWAY	NATION	DETACH
LEXENTRY:	NORJA	NORWAY	NATION	DETACH
LEXENTRY:	NORSKO	NORWAY	NATION	DETACH
LEXENTRY:	NORUEGA	NORWAY	NATION	DETACH
LEXENTRY:	NORVEGIA	NORWAY	NATION	DETACH
LEXENTRY:	NORVÈGE	NORWAY	NATION	DETACH
LEXENTRY:	NORWAY	NORWAY	NATION	DETACH
LEXENTRY:	NORWEGEN	NORWAY	NATION	DETACH
LEXENTRY:	BOUVET ISLAND	BVT	NATION	DETACH
LEXENTRY:	BVT	BVT	NATION	DETACH
LEXENTRY:	SJM	SJM	NATION	DETACH
LEXENTRY:	SVALBARD AND JAN MAYEN ISLAND	SJM	NATION	DETACH
LEXENTRY:	SVALBARD	SJM	NATION	DETACH
LEXENTRY:	JAN MAYEN ISLAND	SJM	NATION	DETACH
LEXENTRY:	XQM	XQM	NATION	DETACH
";
"LEXENTRY:	QUEEN MAUD LAND AND PETER I ISLAND	XQM	NATION	DETACH
LEXENTRY:	QUEEN MAUD LAND	XQM	NATION	DETACH
LEXENTRY:	PETER I ISLAND	XQM	NATION	DETACH
LEXENTRY:	PARKEN	PARKEN	TYPE	ATT_SUF
LEXENTRY:	PASSASJEN	PASSASJEN	TYPE	ATT_SUF
LEXENTRY:	PL	PLASSEN	TYPE	ATT_SUF
LEXENTRY:	PL.	PLASSEN	TYPE	ATT_SUF
LEXENTRY:	PLASS	PLASS	TYPE	DET_SUF
LEXENTRY:	PLASSEN	PLASSEN	TYPE	ATT_SUF
LEXENTRY:	PB	PB	BOXH	DETACH
LEXENTRY:	PB.	PB	BOXH	DETACH
LEXENTRY:	POSTBOKS	PB	BOXH	DETACH
LEXENTRY:	PO BOX	PB	BOXH	DETACH
LEXENTRY:	P O BOX	PB	BOXH	DETACH
LEXENTRY:	POB	PB	BOXH	DETACH
LEXENTRY:	PROMENADEN	PROMENADEN	TYPE	ATT_SUF
LEXENTRY:	SLETTA	SLETTA	TYPE	ATT_SUF
LEXENTRY:	SMAUET	SMAUET	TYPE	ATT_SUF
LEXENTRY:	STIEN	STIEN	TYPE	ATT_SUF
LEXENTRY:	STRANDA	STRANDA	TYPE	ATT_SUF
LEXENTRY:	STREDET	STREDET	TYPE	ATT_SUF
LEXENTRY:	STUBBEN	STUBBEN	TYPE	ATT_SUF
LEXENTRY:	SVINGEN	SVINGEN	TYPE	ATT_SUF
LEXENTRY:	TERRASSE	TERRASSE	TYPE	ATT_SUF,DET_SUF
LEXENTRY:	TORG	TORG	TYPE	DET_SUF
LEXENTRY:	TORGET	TORGET	TYPE	ATT_SUF
LEXENTRY:	TORVET	TORVET	TYPE	ATT_SUF
LEXENTRY:	TRAKKET	TRÅKKET	TYPE	ATT_SUF
LEXENTRY:	TRÅKKET	TRÅKKET	TYPE	ATT_SUF
LEXENTRY:	TUNET	TUNET	TYPE	ATT_SUF
LEXENTRY:	TUNNEL	TUNNEL	TYPE	ATT_SUF,DET_SUF
LEXENTRY:	V.	VEI	TYPE	DET_SUF
LEXENTRY:	V.	VEGEN	TYPE	ATT_SUF
LEXENTRY:	V.	VEIEN	TYPE	ATT_SUF
LEXENTRY:	VANGEN	VANGEN	TYPE	ATT_SUF
LEXENTRY:	VEG	VEG	TYPE	ATT_SUF,DET_SUF
LEXENTRY:	VEGEN	VEGEN	TYPE	ATT_SUF
LEXENTRY:	VEI	VEI	TYPE	DET_SUF
LEXENTRY:	VEIEN	VEIEN	TYPE	ATT_SUF
LEXENTRY:	VN	VEIEN	TYPE	ATT_SUF
LEXENTRY:	VN.	VEIEN	TYPE	ATT_SUF
LEXENTRY:	ÅSEN	ÅSEN	TYPE	ATT_SUF
"].
(** data/sample/portugal.lex *)
Definition slex_portugal : list string :=
[
"LEXICON:	lex-portugal.txt	POR	pt_PT
LEXENTRY:	º	º	UNITH	DETACH
LEXENTRY:	ALAMEDA	ALAMEDA	TYPE	DET_PRE
LEXENTRY:	ALAMEDA DA	ALAMEDA DA	TYPE	DET_PRE
LEXENTRY:	ALAMEDA DAS	ALAMEDA DAS	TYPE	DET_PRE
LEXENTRY:	ALAMEDA DO	ALAMEDA DO	TYPE	DET_PRE
LEXENTRY:	ALAMEDA DOS	ALAMEDA DOS	TYPE	DET_PRE
LEXENTRY:	ALTO DA	ALTO DA	TYPE	DET_PRE
LEXENTRY:	ALTO DE	ALTO DE	TYPE	DET_PRE
LEXENTRY:	ALTO DO	ALTO DO	TYPE	DET_PRE
LEXENTRY:	ALTO DOS	ALTO DOS	TYPE	DET_PRE
LEXENTRY:	ANDAR	ANDAR	UNITH	DETACH
LEXENTRY:	APARTAMENTO	APARTAMENTO	UNITH	DETACH
LEXENTRY:	APTDO	APARTAMENTO	UNITH	DETACH
LEXENTRY:	APTDO.	APARTAMENTO	UNITH	DETACH
LEXENTRY:	ARCO	ARCO	TYPE	DET_PRE
LEXENTRY:	ARCO DE	ARCO DE	TYPE	DET_PRE
LEXENTRY:	ARCO DO	ARCO DO	TYPE	DET_PRE
LEXENTRY:	AV	AVENIDA	TYPE	DET_PRE
LEXENTRY:	AV DA	AVENIDA DA	TYPE	DET_PRE
LEXENTRY:	AV DAS	AVENIDA DAS	TYPE	DET_PRE
LEXENTRY:	AV DE	AVENIDA DE	TYPE	DET_PRE
LEXENTRY:	AV DO	AVENIDA DO	TYPE	DET_PRE
LEXENTRY:	AV DOS	AVENIDA DOS	TYPE	DET_PRE
LEXENTRY:	AV.	AVENIDA	TYPE	DET_PRE
LEXENTRY:	AV. DA	AVENIDA DA	TYPE	DET_PRE
LEXENTRY:	AV. DAS	AVENIDA DAS	TYPE	DET_PRE
LEXENTRY:	AV. DE	AVENIDA DE	TYPE	DET_PRE
LEXENTRY:	AV. DO	AVENIDA DO	TYPE	DET_PRE
LEXENTRY:	AV. DOS	AVENIDA DOS	TYPE	DET_PRE
LEXENTRY:	AVDA	AVENIDA	TYPE	DET_PRE
LEXENTRY:	AVDA AD	AVENIDA DA	TYPE	DET_PRE
LEXENTRY:	AVDA DAS	AVENIDA DAS	TYPE	DET_PRE
LEXENTRY:	AVDA DE	AVENIDA DE	TYPE	DET_PRE
LEXENTRY:	AVDA DO	AVENIDA DO	TYPE	DET_PRE
LEXENTRY:	AVDA DOS	AVENIDA DOS	TYPE	DET_PRE
LEXENTRY:	AVDA.	AVENIDA	TYPE	DET_PRE
LEXENTRY:	AVDA. AD	AVENIDA DA	TYPE	DET_PRE
LEXENTRY:	AVDA. DAS	AVENIDA DAS	TYPE	DET_PRE
LEXENTRY:	AVDA. DE	AVENIDA DE	TYPE	DET_PRE
LEXENTRY:	AVDA. DO	AVENIDA DO	TYPE	DET_PRE
LEXENTRY:	AVDA. DOS	AVENIDA DOS	TYPE	DET_PRE
LEXENTRY:	AVE	AVENIDA	TYPE	DET_PRE
LEXENTRY:	AVE DA	AVENIDA DA	TYPE	DET_PRE
LEXENTRY:	AVE DAS	AVENIDA DAS	TYPE	DET_PRE
LEXENTRY:	AVE DE	AVENIDA DE	TYPE	DET_PRE
LEXENTRY:	AVE DO	AVENIDA DO	TYPE	DET_PRE
LEXENTRY:	AVE DOS	AVENIDA DOS	TYPE	DET_PRE
LEXENTRY:	AVE.	AVENIDA	TYPE	DET_PRE
LEXENTRY:	AVE. DA	AVENIDA DA	TYPE	DET_PRE
LEXENTRY:	AVE. DAS	AVENIDA DAS	TYPE	DET_PRE
LEXENTRY:	AVE. DE	AVENIDA DE	TYPE	DET_PRE
LEXENTRY:	AVE. DO	AVENIDA DO	TYPE	DET_PRE
LEXENTRY:	AVE. DOS	AVENIDA DOS	TYPE	DET_PRE
LEXENTRY:	AVEIRO	AVEIRO	PROV	DETACH
LEXENTRY:	AVENIDA	AVENIDA	TYPE	DET_PRE
LEXENTRY:	AVENIDA DA	AVENIDA DA	TYPE	DET_PRE
LEXENTRY:	AVENIDA DAS	AVENIDA DAS	TYPE	DET_PRE
LEXENTRY:	AVENIDA DE	AVENIDA DE	TYPE	DET_PRE
LEXENTRY:	AVENIDA DO	AVENIDA DO	TYPE	DET_PRE
";
"LEXENTRY:	AVENIDA DOS	AVENIDA DOS	TYPE	DET_PRE
LEXENTRY:	AZINHAGA	AZINHAGA	TYPE	DET_PRE
LEXENTRY:	AZINHAGA DA	AZINHAGA DA	TYPE	DET_PRE
LEXENTRY:	AZINHAGA DAS	AZINHAGA DAS	TYPE	DET_PRE
LEXENTRY:	AZINHAGA DE	AZINHAGA DE	TYPE	DET_PRE
LEXENTRY:	AZINHAGA DO	AZINHAGA DO	TYPE	DET_PRE
LEXENTRY:	AZINHAGA DOS	AZINHAGA DOS	TYPE	DET_PRE
LEXENTRY:	BA	BAIRRO	TYPE	DET_PRE
LEXENTRY:	BA.	BAIRRO	TYPE	DET_PRE
LEXENTRY:	BAIRRO	BAIRRO	TYPE	DET_PRE
LEXENTRY:	BECO	BECO	TYPE	DET_PRE
LEXENTRY:	BECO DA	BECO DA	TYPE	DET_PRE
LEXENTRY:	BECO DAS	BECO DAS	TYPE	DET_PRE
LEXENTRY:	BECO DE	BECO DE	TYPE	DET_PRE
LEXENTRY:	BECO DO	BECO DO	TYPE	DET_PRE
LEXENTRY:	BECO DOS	BECO DOS	TYPE	DET_PRE
LEXENTRY:	BEJA	BEJA	PROV	DETACH
LEXENTRY:	BRAGA	BRAGA	PROV	DETACH
LEXENTRY:	BRAGANÇA	BRAGANZA	PROV	DETACH
LEXENTRY:	CALÇADA	CALÇADA	TYPE	DET_PRE
LEXENTRY:	CALÇADA DA	CALÇADA DA	TYPE	DET_PRE
LEXENTRY:	CALÇADA DAS	CALÇADA DAS	TYPE	DET_PRE
LEXENTRY:	CALÇADA DE	CALÇADA DE	TYPE	DET_PRE
LEXENTRY:	CALÇADA DO	CALÇADA DO	TYPE	DET_PRE
LEXENTRY:	CALÇADA DOS	CALÇADA DOS	TYPE	DET_PRE
LEXENTRY:	CALÇADINHA DE	CALÇADINHA DE	TYPE	DET_PRE
LEXENTRY:	CALÇADINHA DO	CALÇADINHA DO	TYPE	DET_PRE
LEXENTRY:	CAMINHO	CAMINHO	TYPE	DET_PRE
LEXENTRY:	CAMINHO DA	CAMINHO DA	TYPE	DET_PRE
LEXENTRY:	CAMINHO DAS	CAMINHO DAS	TYPE	DET_PRE
LEXENTRY:	CAMINHO DE	CAMINHO DE	TYPE	DET_PRE
LEXENTRY:	CAMINHO DO	CAMINHO DO	TYPE	DET_PRE
LEXENTRY:	CAMINHO DOS	CAMINHO DOS	TYPE	DET_PRE
LEXENTRY:	CAMPO	CAMPO	TYPE	DET_PRE
LEXENTRY:	CAMPO DAS	CAMPO DAS	TYPE	DET_PRE
LEXENTRY:	CAMPO DE	CAMPO DE	TYPE	DET_PRE
LEXENTRY:	CAMPO DOS	CAMPO DOS	TYPE	DET_PRE
LEXENTRY:	CARREIRO DA	CARREIRO DA	TYPE	DET_PRE
LEXENTRY:	CASE POSTALE	CASE POSTALE	BOXH	DETACH
LEXENTRY:	CASTELO BRANCO	CASTELO BRANCO	PROV	DETACH
LEXENTRY:	CC	CALÇADA	TYPE	DET_PRE
LEXENTRY:	CC DA	CALÇADA DA	TYPE	DET_PRE
LEXENTRY:	CC DAS	CALÇADA DAS	TYPE	DET_PRE
LEXENTRY:	CC DE	CALÇADA DE	TYPE	DET_PRE
LEXENTRY:	CC DO	CALÇADA DO	TYPE	DET_PRE
LEXENTRY:	CC DOS	CALÇADA DOS	TYPE	DET_PRE
LEXENTRY:	CC.	CALÇADA	TYPE	DET_PRE
LEXENTRY:	CC. DA	CALÇADA DA	TYPE	DET_PRE
LEXENTRY:	CC. DAS	CALÇADA DAS	TYPE	DET_PRE
LEXENTRY:	CC. DE	CALÇADA DE	TYPE	DET_PRE
LEXENTRY:	CC. DO	CALÇADA DO	TYPE	DET_PRE
LEXENTRY:	CC. DOS	CALÇADA DOS	TYPE	DET_PRE
LEXENTRY:	CCI	CCI	BOXH	DETACH
LEXENTRY:	COIMBRA	COIMBRA	PROV	DETACH
LEXENTRY:	COSTA DO	COSTA DO	TYPE	DET_PRE
LEXENTRY:	D.	DOM	WORD	DETACH
LEXENTRY:	DOM	DOM	WORD	DETACH
LEXENTRY:	ENG.	ENGENHEIRO	WORD	DETACH
LEXENTRY:	ENGENHEIRO	ENGENHEIRO	WORD	DETACH
LEXENTRY:	ENGº	ENGENHEIRO	WORD	DETACH
";
"LEXENTRY:	ESCADAS	ESCADAS	TYPE	DET_PRE
LEXENTRY:	ESCADAS DA	ESCADAS DA	TYPE	DET_PRE
LEXENTRY:	ESCADAS DAS	ESCADAS DAS	TYPE	DET_PRE
LEXENTRY:	ESCADAS DE	ESCADAS DE	TYPE	DET_PRE
LEXENTRY:	ESCADAS DO	ESCADAS DO	TYPE	DET_PRE
LEXENTRY:	ESCADAS DOS	ESCADAS DOS	TYPE	DET_PRE
LEXENTRY:	ESCADINHAS	ESCADINHAS	TYPE	DET_PRE
LEXENTRY:	ESCADINHAS DA	ESCADINHAS DA	TYPE	DET_PRE
LEXENTRY:	ESCADINHAS DAS	ESCADINHAS DAS	TYPE	DET_PRE
LEXENTRY:	ESCADINHAS DE	ESCADINHAS DE	TYPE	DET_PRE
LEXENTRY:	ESCADINHAS DO	ESCADINHAS DO	TYPE	DET_PRE
LEXENTRY:	ESCADINHAS DOS	ESCADINHAS DOS	TYPE	DET_PRE
LEXENTRY:	ESPLANADA	ESPLANADA	TYPE	DET_PRE
LEXENTRY:	ESPLANADA DO	ESPLANADA DO	TYPE	DET_PRE
LEXENTRY:	EST	ESTRADA	TYPE	DET_PRE
LEXENTRY:	EST DA	ESTRADA DA	TYPE	DET_PRE
LEXENTRY:	EST DAS	ESTRADA DAS	TYPE	DET_PRE
LEXENTRY:	EST DE	ESTRADA DE	TYPE	DET_PRE
LEXENTRY:	EST DO	ESTRADA DO	TYPE	DET_PRE
LEXENTRY:	EST DOS	ESTRADA DOS	TYPE	DET_PRE
LEXENTRY:	EST.	ESTRADA	TYPE	DET_PRE
LEXENTRY:	EST. DA	ESTRADA DA	TYPE	DET_PRE
LEXENTRY:	EST. DAS	ESTRADA DAS	TYPE	DET_PRE
LEXENTRY:	EST. DE	ESTRADA DE	TYPE	DET_PRE
LEXENTRY:	EST. DO	ESTRADA DO	TYPE	DET_PRE
LEXENTRY:	EST. DOS	ESTRADA DOS	TYPE	DET_PRE
LEXENTRY:	ESTR	ESTRADA	TYPE	DET_PRE
LEXENTRY:	ESTR DA	ESTRADA DA	TYPE	DET_PRE
LEXENTRY:	ESTR DAS	ESTRADA DAS	TYPE	DET_PRE
LEXENTRY:	ESTR DE	ESTRADA DE	TYPE	DET_PRE
LEXENTRY:	ESTR DO	ESTRADA DO	TYPE	DET_PRE
LEXENTRY:	ESTR DOS	ESTRADA DOS	TYPE	DET_PRE
LEXENTRY:	ESTR.	ESTRADA	TYPE	DET_PRE
LEXENTRY:	ESTR. DA	ESTRADA DA	TYPE	DET_PRE
LEXENTRY:	ESTR. DAS	ESTRADA DAS	TYPE	DET_PRE
LEXENTRY:	ESTR. DE	ESTRADA DE	TYPE	DET_PRE
LEXENTRY:	ESTR. DO	ESTRADA DO	TYPE	DET_PRE
LEXENTRY:	ESTR. DOS	ESTRADA DOS	TYPE	DET_PRE
LEXENTRY:	ESTRADA	ESTRADA	TYPE	DET_PRE
LEXENTRY:	ESTRADA DA	ESTRADA DA	TYPE	DET_PRE
LEXENTRY:	ESTRADA DAS	ESTRADA DAS	TYPE	DET_PRE
LEXENTRY:	ESTRADA DE	ESTRADA DE	TYPE	DET_PRE
LEXENTRY:	ESTRADA DO	ESTRADA DO	TYPE	DET_PRE
LEXENTRY:	ESTRADA DOS	ESTRADA DOS	TYPE	DET_PRE
LEXENTRY:	EVORA	EVORA                            	PROV	DETACH
LEXENTRY:	FARO	FARO	PROV	DETACH
LEXENTRY:	G.	GOMES	WORD	DETACH
LEXENTRY:	GOMES	GOMES	WORD	DETACH
LEXENTRY:	GUARDA	GUARDA	PROV	DETACH
LEXENTRY:	INF.	INFANTE	WORD	DETACH
LEXENTRY:	INFANTE	INFANTE	WORD	DETACH
LEXENTRY:	L	LARGO	TYPE	DET_PRE
LEXENTRY:	L DA	LARGO DA	TYPE	DET_PRE
LEXENTRY:	L DAS	LARGO DAS	TYPE	DET_PRE
LEXENTRY:	L DE	LARGO DE	TYPE	DET_PRE
LEXENTRY:	L DO	LARGO DO	TYPE	DET_PRE
LEXENTRY:	L DOS	LARGO DOS	TYPE	DET_PRE
LEXENTRY:	L.	LARGO	TYPE	DET_PRE
LEXENTRY:	L. DA	LARGO DA	TYPE	DET_PRE
";
"LEXENTRY:	L. DAS	LARGO DAS	TYPE	DET_PRE
LEXENTRY:	L. DE	LARGO DE	TYPE	DET_PRE
LEXENTRY:	L. DO	LARGO DO	TYPE	DET_PRE
LEXENTRY:	L. DOS	LARGO DOS	TYPE	DET_PRE
LEXENTRY:	LARGO	LARGO	TYPE	DET_PRE
LEXENTRY:	LARGO DA	LARGO DA	TYPE	DET_PRE
LEXENTRY:	LARGO DAS	LARGO DAS	TYPE	DET_PRE
LEXENTRY:	LARGO DE	LARGO DE	TYPE	DET_PRE
LEXENTRY:	LARGO DO	LARGO DO	TYPE	DET_PRE
LEXENTRY:	LARGO DOS	LARGO DOS	TYPE	DET_PRE
LEXENTRY:	LEIRIA	LEIRIA	PROV	DETACH
LEXENTRY:	LGO	LARGO	TYPE	DET_PRE
LEXENTRY:	LGO DA	LARGO DA	TYPE	DET_PRE
LEXENTRY:	LGO DAS	LARGO DAS	TYPE	DET_PRE
LEXENTRY:	LGO DE	LARGO DE	TYPE	DET_PRE
LEXENTRY:	LGO DO	LARGO DO	TYPE	DET_PRE
LEXENTRY:	LGO DOS	LARGO DOS	TYPE	DET_PRE
LEXENTRY:	LGO.	LARGO	TYPE	DET_PRE
LEXENTRY:	LGO. DA	LARGO DA	TYPE	DET_PRE
LEXENTRY:	LGO. DAS	LARGO DAS	TYPE	DET_PRE
LEXENTRY:	LGO. DE	LARGO DE	TYPE	DET_PRE
LEXENTRY:	LGO. DO	LARGO DO	TYPE	DET_PRE
LEXENTRY:	LGO. DOS	LARGO DOS	TYPE	DET_PRE
LEXENTRY:	LISBON	LISBOA	PROV	DETACH
LEXENTRY:	LISBONA	LISBOA	PROV	DETACH
LEXENTRY:	LISBONNE	LISBOA	PROV	DETACH
LEXENTRY:	LISSABON	LISBOA	PROV	DETACH
LEXENTRY:	MAL.	MARECHAL	WORD	DETACH
LEXENTRY:	MARECHAL	MARECHAL	WORD	DETACH
LEXENTRY:	NAC.	NACIONAL	WORD	DETACH
LEXENTRY:	NACIONAL	NACIONAL	WORD	DETACH
LEXENTRY:	OPORTO	OPORTO	PROV	DETACH
LEXENTRY:	PASSEIO	PASSEIO	TYPE	DET_PRE
LEXENTRY:	PASSEIO DA	PASSEIO DA	TYPE	DET_PRE
LEXENTRY:	PASSEIO DAS	PASSEIO DAS	TYPE	DET_PRE
LEXENTRY:	PASSEIO DE	PASSEIO DE	TYPE	DET_PRE
LEXENTRY:	PASSEIO DO	PASSEIO DO	TYPE	DET_PRE
LEXENTRY:	PASSEIO DOS	PASSEIO DOS	TYPE	DET_PRE
LEXENTRY:	PATIO DA	PATIO DA	TYPE	DET_PRE
LEXENTRY:	PATIO DAS	PATIO DAS	TYPE	DET_PRE
LEXENTRY:	PATIO DE	PATIO DE	TYPE	DET_PRE
LEXENTRY:	PATIO DO	PATIO DO	TYPE	DET_PRE
LEXENTRY:	PONTE	PONTE	TYPE	DET_PRE
LEXENTRY:	PONTE DA	PONTE DA	TYPE	DET_PRE
LEXENTRY:	PONTE DE	PONTE DE	TYPE	DET_PRE
LEXENTRY:	PONTE DO	PONTE DO	TYPE	DET_PRE
LEXENTRY:	PORTALEGRE	PORTALEGRE	PROV	DETACH
LEXENTRY:	PORTO	PORTO	PROV	DETACH
LEXENTRY:	PORTOGALLO	PORTUGAL	NATION	DETACH
LEXENTRY:	PORTUGAL	PORTUGAL	NATION	DETACH
LEXENTRY:	PORTUGALI	PORTUGAL	NATION	DETACH
LEXENTRY:	PORTUGALSKO	PORTUGAL	NATION	DETACH
LEXENTRY:	PR	PRAÇA	TYPE	DET_PRE
LEXENTRY:	PR DA	PRAÇA DA	TYPE	DET_PRE
LEXENTRY:	PR DAS	PRAÇA DAS	TYPE	DET_PRE
LEXENTRY:	PR DE	PRAÇA DE	TYPE	DET_PRE
LEXENTRY:	PR DO	PRAÇA DO	TYPE	DET_PRE
LEXENTRY:	PR DOS	PRAÇA DOS	TYPE	DET_PRE
LEXENTRY:	PR.	PRAÇA	TYPE	DET_PRE
LEXENTRY:	PR. DA	PRAÇA DA	TYPE	DET_PRE
LEXENTRY:	PR. DAS	PRAÇA DAS	TYPE	DET_PRE
LEXENTRY:	PR. DE	PRAÇA DE	TYPE	DET_PRE
";
"LEXENTRY:	PR. DO	PRAÇA DO	TYPE	DET_PRE
LEXENTRY:	PR. DOS	PRAÇA DOS	TYPE	DET_PRE
LEXENTRY:	PRACETA	PRACETA	TYPE	DET_PRE
LEXENTRY:	PRACETA DA	PRACETA DA	TYPE	DET_PRE
LEXENTRY:	PRACETA DAS	PRACETA DAS	TYPE	DET_PRE
LEXENTRY:	PRACETA DE	PRACETA DE	TYPE	DET_PRE
LEXENTRY:	PRACETA DO	PRACETA DO	TYPE	DET_PRE
LEXENTRY:	PRACETA DOS	PRACETA DOS	TYPE	DET_PRE
LEXENTRY:	PRAZA	PRAÇA	TYPE	DET_PRE
LEXENTRY:	PRAZA DA	PRAÇA DA	TYPE	DET_PRE
LEXENTRY:	PRAZA DAS	PRAÇA DAS	TYPE	DET_PRE
LEXENTRY:	PRAZA DE	PRAÇA DE	TYPE	DET_PRE
LEXENTRY:	PRAZA DO	PRAÇA DO	TYPE	DET_PRE
LEXENTRY:	PRAZA DOS	PRAÇA DOS	TYPE	DET_PRE
LEXENTRY:	PRAÇA	PRAÇA	TYPE	DET_PRE
LEXENTRY:	PRAÇA DA	PRAÇA DA	TYPE	DET_PRE
LEXENTRY:	PRAÇA DAS	PRAÇA DAS	TYPE	DET_PRE
LEXENTRY:	PRAÇA DE	PRAÇA DE	TYPE	DET_PRE
LEXENTRY:	PRAÇA DO	PRAÇA DO	TYPE	DET_PRE
LEXENTRY:	PRAÇA DOS	PRAÇA DOS	TYPE	DET_PRE
LEXENTRY:	PRT	PORTUGAL	NATION	DETACH
LEXENTRY:	PT	PORTUGAL	NATION	DETACH
LEXENTRY:	PÁTEO	PÁTEO	TYPE	DET_PRE
LEXENTRY:	PÁTEO DE	PÁTEO DE	TYPE	DET_PRE
LEXENTRY:	PÁTEO DO	PÁTEO DO	TYPE	DET_PRE
LEXENTRY:	PÁTEO DOS	PÁTEO DOS	TYPE	DET_PRE
LEXENTRY:	PÁTIO	PÁTIO	TYPE	DET_PRE
LEXENTRY:	PÁTIO DA	PÁTIO DA	TYPE	DET_PRE
LEXENTRY:	PÁTIO DAS	PÁTIO DAS	TYPE	DET_PRE
LEXENTRY:	PÁTIO DE	PÁTIO DE	TYPE	DET_PRE
LEXENTRY:	PÁTIO DO	PÁTIO DO	TYPE	DET_PRE
LEXENTRY:	PÁTIO DOS	PÁTIO DOS	TYPE	DET_PRE
LEXENTRY:	PÇ	PRAÇA	TYPE	DET_PRE
LEXENTRY:	PÇ DA	PRAÇA DA	TYPE	DET_PRE
LEXENTRY:	PÇ DAS	PRAÇA DAS	TYPE	DET_PRE
LEXENTRY:	PÇ DE	PRAÇA DE	TYPE	DET_PRE
LEXENTRY:	PÇ DO	PRAÇA DO	TYPE	DET_PRE
LEXENTRY:	PÇ DOS	PRAÇA DOS	TYPE	DET_PRE
LEXENTRY:	PÇ.	PRAÇA	TYPE	DET_PRE
LEXENTRY:	PÇ. DA	PRAÇA DA	TYPE	DET_PRE
LEXENTRY:	PÇ. DAS	PRAÇA DAS	TYPE	DET_PRE
LEXENTRY:	PÇ. DE	PRAÇA DE	TYPE	DET_PRE
LEXENTRY:	PÇ. DO	PRAÇA DO	TYPE	DET_PRE
LEXENTRY:	PÇ. DOS	PRAÇA DOS	TYPE	DET_PRE
LEXENTRY:	QTA	QUINTA	WORD	DETACH
LEXENTRY:	QTA.	QUINTA	WORD	DETACH
LEXENTRY:	QUINTA	QUINTA	WORD	DETACH
LEXENTRY:	R	RUA	TYPE	DET_PRE
LEXENTRY:	R DA	RUA DA	TYPE	DET_PRE
LEXENTRY:	R DAS	RUA DAS	TYPE	DET_PRE
LEXENTRY:	R DE	RUA DE	TYPE	DET_PRE
LEXENTRY:	R DO	RUA DO	TYPE	DET_PRE
LEXENTRY:	R DOS	RUA DOS	TYPE	DET_PRE
LEXENTRY:	R.	RUA	TYPE	DET_PRE
LEXENTRY:	R. DA	RUA DA	TYPE	DET_PRE
LEXENTRY:	R. DAS	RUA DAS	TYPE	DET_PRE
LEXENTRY:	R. DE	RUA DE	TYPE	DET_PRE
LEXENTRY:	R. DO	RUA DO	TYPE	DET_PRE
LEXENTRY:	R. DOS	RUA DOS	TYPE	DET_PRE
LEXENTRY:	RAMPA	RAMPA	TYPE	DET_PRE
LEXENTRY:	RAMPA DAS	RAMPA DAS	TYPE	DET_PRE
LEXENTRY:	RAMPA DO	RAMPA DO	TYPE	DET_PRE
LEXENTRY:	ROSSIO DA	ROSSIO DA	TYPE	DET_PRE
";
"LEXENTRY:	ROSSIO DE	ROSSIO DE	TYPE	DET_PRE
LEXENTRY:	ROSSIO DO	ROSSIO DO	TYPE	DET_PRE
LEXENTRY:	RUA	RUA	TYPE	DET_PRE
LEXENTRY:	RUA DA	RUA DA	TYPE	DET_PRE
LEXENTRY:	RUA DAS	RUA DAS	TYPE	DET_PRE
LEXENTRY:	RUA DE	RUA DE	TYPE	DET_PRE
LEXENTRY:	RUA DO	RUA DO	TYPE	DET_PRE
LEXENTRY:	RUA DOS	RUA DOS	TYPE	DET_PRE
LEXENTRY:	S.	SÃO	WORD	DETACH
LEXENTRY:	SALA	SALA	UNITH	DETACH
LEXENTRY:	SANTARÉM	SANTAREM	PROV	DETACH
LEXENTRY:	SETÚBAL	SETUBAL	PROV	DETACH
LEXENTRY:	SÃO	SÃO	WORD	DETACH
LEXENTRY:	TERREIRO	TERREIRO	TYPE	DET_PRE
LEXENTRY:	TERREIRO DA	TERREIRO DA	TYPE	DET_PRE
LEXENTRY:	TRAVESSA	TRAVESSA	TYPE	DET_PRE
LEXENTRY:	TRAVESSA DA	TRAVESSA DA	TYPE	DET_PRE
LEXENTRY:	TRAVESSA DAS	TRAVESSA DAS	TYPE	DET_PRE
LEXENTRY:	TRAVESSA DE	TRAVESSA DE	TYPE	DET_PRE
LEXENTRY:	TRAVESSA DO	TRAVESSA DO	TYPE	DET_PRE
LEXENTRY:	TRAVESSA DOS	TRAVESSA DOS	TYPE	DET_PRE
LEXENTRY:	VIA	VIA	TYPE	DET_PRE
LEXENTRY:	VIA DE	VIA DE	TYPE	DET_PRE
LEXENTRY:	VIA DO	VIA DO	TYPE	DET_PRE
LEXENTRY:	VIANA DO CASTELO	VIANA DO CASTELO	PROV	DETACH
LEXENTRY:	VIELA	VIELA	TYPE	DET_PRE
LEXENTRY:	VIELA DA	VIELA DA	TYPE	DET_PRE
LEXENTRY:	VIELA DAS	VIELA DAS	TYPE	DET_PRE
LEXENTRY:	VIELA DE	VIELA DE	TYPE	DET_PRE
LEXENTRY:	VIELA DO	VIELA DO	TYPE	DET_PRE
LEXENTRY:	VIELA DOS	VIELA DOS	TYPE	DET_PRE
LEXENTRY:	VILA	VILA	TYPE	DET_PRE
LEXENTRY:	VILA DA	VILA DA	TYPE	DET_PRE
LEXENTRY:	VILA DO	VILA DO	TYPE	DET_PRE
LEXENTRY:	VILA REAL	VILA REAL	PROV	DETACH
LEXENTRY:	VISEU	VISEU	PROV	DETACH
LEXENTRY:	ÉVORA	EVORA	PROV	DETACH
"].
(** data/sample/san_marino.lex *)
Definition slex_san_marino : list string :=
[
"LEXICON:	lex-san_marino.txt	ITA	it_SM
LEXENTRY:	ACCESSO	ACCESSO	TYPE	DET_PRE
LEXENTRY:	ACCESSO A	ACCESSO A	TYPE	DET_PRE
LEXENTRY:	ACQUAVIVA	ACQUAVIVA	CITY	DETACH
LEXENTRY:	AG	AGRIGENTO	PROV	DETACH
LEXENTRY:	AL	ALESSANDRIA	PROV	DETACH
LEXENTRY:	ALLEE	ALLEE	TYPE	DET_SUF
LEXENTRY:	ALLÉE	ALLÉE	TYPE	DET_PRE
LEXENTRY:	ALTO	ALTO	TYPE	DET_PRE
LEXENTRY:	ALZAIA	ALZAIA	TYPE	DET_PRE
LEXENTRY:	AN	ANCONA	PROV	DETACH
LEXENTRY:	ANCIENNE ROUTE DE	ANCIENNE ROUTE DE	TYPE	DET_PRE
LEXENTRY:	AO	AOSTA	PROV	DETACH
LEXENTRY:	AP	ASCOLI PICENO	PROV	DETACH
LEXENTRY:	AQ	L'AQUILA	PROV	DETACH
LEXENTRY:	AR	AREZZO	PROV	DETACH
LEXENTRY:	ARCHIVOLTO	ARCHIVOLTO	TYPE	DET_PRE
LEXENTRY:	ARCHIVOLTO DELLE	ARCHIVOLTO DELLE	TYPE	DET_PRE
LEXENTRY:	ARCHIVOLTO DI	ARCHIVOLTO DI	TYPE	DET_PRE
LEXENTRY:	ARCO	ARCO	TYPE	DET_PRE
LEXENTRY:	ASSOCIAZIONE	ASSOCIAZIONE	PLACEN	DETACH
LEXENTRY:	AT	ASTI	PROV	DETACH
LEXENTRY:	AUTOSTRADA	AUTOSTRADA	TYPE	DET_PRE
LEXENTRY:	AUTOSTRADA DEI	AUTOSTRADA DEI	TYPE	DET_PRE
LEXENTRY:	AUTOSTRADA DEL	AUTOSTRADA DEL	TYPE	DET_PRE
LEXENTRY:	AUTOSTRADA DELLA	AUTOSTRADA DELLA	TYPE	DET_PRE
LEXENTRY:	AV	AVELLINO	PROV	DETACH
LEXENTRY:	AVENUE	AVENUE	TYPE	DET_PRE
LEXENTRY:	AVENUE DE	AVENUE DE	TYPE	DET_PRE
LEXENTRY:	AVENUE DE LA	AVENUE DE LA	TYPE	DET_PRE
LEXENTRY:	AVENUE DES	AVENUE DES	TYPE	DET_PRE
LEXENTRY:	AVENUE DU	AVENUE DU	TYPE	DET_PRE
LEXENTRY:	AZIENDA	AZIENDA	PLACEN	DETACH
LEXENTRY:	BA	BARI	PROV	DETACH
LEXENTRY:	BACINO	BACINO	TYPE	DET_PRE
LEXENTRY:	BANCA	BANCA	PLACEN	DETACH
LEXENTRY:	BANCO	BANCO	PLACEN	DETACH
LEXENTRY:	BARRIERA	BARRIERA	TYPE	DET_PRE
LEXENTRY:	BASTIONE	BASTIONE	TYPE	DET_PRE
LEXENTRY:	BASTIONE DELLA	BASTIONE DELLA	TYPE	DET_PRE
LEXENTRY:	BASTIONI DI	BASTIONI DI	TYPE	DET_PRE
LEXENTRY:	BELVEDERE	BELVEDERE	TYPE	DET_PRE
LEXENTRY:	BG	BERGAMO	PROV	DETACH
LEXENTRY:	BL	BELLUNO	PROV	DETACH
LEXENTRY:	BN	BENEVENTO	PROV	DETACH
LEXENTRY:	BO	BOLOGNA	PROV	DETACH
LEXENTRY:	BORGATA	BORGATA	TYPE	DET_PRE
LEXENTRY:	BORGO	BORGO	TYPE	DET_PRE
LEXENTRY:	BORGO MAGGIORE	BORGO MAGGIORE	CITY	DETACH
LEXENTRY:	BOULEVARD	BOULEVARD	TYPE	DET_PRE
LEXENTRY:	BOULEVARD DES	BOULEVARD DES	TYPE	DET_PRE
LEXENTRY:	BR	BRINDISI	PROV	DETACH
LEXENTRY:	BRÜCKE	BRÜCKE	TYPE	DET_SUF
LEXENTRY:	BS	BRESCIA	PROV	DETACH
LEXENTRY:	BZ	BOLZANO	PROV	DETACH
LEXENTRY:	C.DA	CONTRADA	TYPE	DET_PRE
LEXENTRY:	C.L	CALLE	TYPE	DET_PRE
LEXENTRY:	C.PO	CAMPO	TYPE	DET_PRE
LEXENTRY:	C.SO	CORSO	TYPE	DET_PRE
LEXENTRY:	CA	CAGLIARI	PROV	DETACH
LEXENTRY:	CA'	CA'	TYPE	DET_PRE
LEXENTRY:	CA' DEI	CA' DEI	TYPE	DET_PRE
";
"LEXENTRY:	CA' DEL	CA' DEL	TYPE	DET_PRE
LEXENTRY:	CA' DI	CA' DI	TYPE	DET_PRE
LEXENTRY:	CA' RIGO	CA' RIGO	CITY	DETACH
LEXENTRY:	CAILUNGO	CAILUNGO	CITY	DETACH
LEXENTRY:	CAL	CAL	TYPE	DET_PRE
LEXENTRY:	CALATA	CALATA	TYPE	DET_PRE
LEXENTRY:	CALLE	CALLE	TYPE	DET_PRE
LEXENTRY:	CALLE DEL	CALLE DEL	TYPE	DET_PRE
LEXENTRY:	CAMPIELLO	CAMPIELLO	TYPE	DET_PRE
LEXENTRY:	CAMPO	CAMPO	TYPE	DET_PRE
LEXENTRY:	CANTON	CANTON	TYPE	DET_PRE
LEXENTRY:	CANTONE	CANTONE	TYPE	DET_PRE
LEXENTRY:	CARRER	CARRER	TYPE	DET_PRE
LEXENTRY:	CARRER DE L'	CARRER DE L'	TYPE	ATT_PRE
LEXENTRY:	CARRER DE LA	CARRER DE LA	TYPE	DET_PRE
LEXENTRY:	CARRER DE LES	CARRER DE LES	TYPE	DET_PRE
LEXENTRY:	CARRER DEL	CARRER DEL	TYPE	DET_PRE
LEXENTRY:	CARRER DELS	CARRER DELS	TYPE	DET_PRE
LEXENTRY:	CASA	CASA	PLACEN	DETACH
LEXENTRY:	CASALE	CASALE	TYPE	DET_PRE
LEXENTRY:	CASCINA	CASCINA	TYPE	DET_PRE
LEXENTRY:	CASE	CASE	TYPE	DET_PRE
LEXENTRY:	CASE SPARSE	CASE SPARSE	TYPE	DET_PRE
LEXENTRY:	CASELLA POSTALE	CASELLA POSTALE	BOXH	DETACH
LEXENTRY:	CASOLE	CASOLE	CITY	DETACH
LEXENTRY:	CAVALCAVIA	CAVALCAVIA	TYPE	DET_PRE
LEXENTRY:	CB	CAMPOBASSO	PROV	DETACH
LEXENTRY:	CE	CASERTA	PROV	DETACH
LEXENTRY:	CERBAIOLA	CERBAIOLA	CITY	DETACH
LEXENTRY:	CH	CHIETI	PROV	DETACH
LEXENTRY:	CHEMIN	CHEMIN	TYPE	DET_PRE
LEXENTRY:	CHEMIN DE	CHEMIN DE	TYPE	DET_PRE
LEXENTRY:	CHEMIN DE L'	CHEMIN DE L'	TYPE	ATT_PRE
LEXENTRY:	CHEMIN DE LA	CHEMIN DE LA	TYPE	DET_PRE
LEXENTRY:	CHEMIN DES	CHEMIN DES	TYPE	DET_PRE
LEXENTRY:	CHEMIN DU	CHEMIN DU	TYPE	DET_PRE
LEXENTRY:	CHIASSO	CHIASSO	TYPE	DET_PRE
LEXENTRY:	CHIASSO DE'	CHIASSO DE'	TYPE	DET_PRE
LEXENTRY:	CHIASSO DEGLI	CHIASSO DEGLI	TYPE	DET_PRE
LEXENTRY:	CHIASSO DEI	CHIASSO DEI	TYPE	DET_PRE
LEXENTRY:	CHIASSO DEL	CHIASSO DEL	TYPE	DET_PRE
LEXENTRY:	CHIASSO DELLE	CHIASSO DELLE	TYPE	DET_PRE
LEXENTRY:	CHIASSO DI	CHIASSO DI	TYPE	DET_PRE
LEXENTRY:	CHIESA	CHIESA	PLACEN	DETACH
LEXENTRY:	CHIESANUOVA	CHIESANUOVA	CITY	DETACH
LEXENTRY:	CIRCONVALLAZIONE	CIRCONVALLAZIONE	TYPE	DET_PRE
LEXENTRY:	CIRCONVALLAZIONE DELLE	CIRCONVALLAZIONE DELLE	TYPE	DET_PRE
LEXENTRY:	CL	CALTANISSETTA	PROV	DETACH
LEXENTRY:	CN	CUNEO	PROV	DETACH
LEXENTRY:	CO	COMO	PROV	DETACH
LEXENTRY:	COMPANIA	COMPANIA	PLACEN	DETACH
LEXENTRY:	CONSORZIO	CONSORZIO	PLACEN	DETACH
LEXENTRY:	CONTRADA	CONTRADA	TYPE	DET_PRE
LEXENTRY:	CONTRADA DEL	CONTRADA DEL	TYPE	DET_PRE
LEXENTRY:	CONTRÀ	CONTRÀ	TYPE	DET_PRE
LEXENTRY:	CONTRÀ DEI	CONTRÀ DEI	TYPE	DET_PRE
LEXENTRY:	CONTRÀ DEL	CONTRÀ DEL	TYPE	DET_PRE
LEXENTRY:	CONTRÀ DELLA	CONTRÀ DELLA	TYPE	DET_PRE
";
"LEXENTRY:	CONTRÀ DELLE	CONTRÀ DELLE	TYPE	DET_PRE
LEXENTRY:	COPAGNIA	COPAGNIA	PLACEN	DETACH
LEXENTRY:	CORSIA	CORSIA	TYPE	DET_PRE
LEXENTRY:	CORSO	CORSO	TYPE	DET_PRE
LEXENTRY:	CORSO AL	CORSO AL	TYPE	DET_PRE
LEXENTRY:	CORSO D'	CORSO D'	TYPE	ATT_PRE
LEXENTRY:	CORSO DEGLI	CORSO DEGLI	TYPE	DET_PRE
LEXENTRY:	CORSO DEL	CORSO DEL	TYPE	DET_PRE
LEXENTRY:	CORSO DELLA	CORSO DELLA	TYPE	DET_PRE
LEXENTRY:	CORSO DI	CORSO DI	TYPE	DET_PRE
LEXENTRY:	CORTE	CORTE	TYPE	DET_PRE
LEXENTRY:	CORTE DEI	CORTE DEI	TYPE	DET_PRE
LEXENTRY:	CORTICELLA	CORTICELLA	TYPE	DET_PRE
LEXENTRY:	CORTILE	CORTILE	TYPE	DET_PRE
LEXENTRY:	COSTA	COSTA	TYPE	DET_PRE
LEXENTRY:	COSTA DEL	COSTA DEL	TYPE	DET_PRE
LEXENTRY:	COSTA DELLE	COSTA DELLE	TYPE	DET_PRE
LEXENTRY:	COSTA DI	COSTA DI	TYPE	DET_PRE
LEXENTRY:	CP	CASELLA POSTALE	BOXH	DETACH
LEXENTRY:	CR	CREMONA	PROV	DETACH
LEXENTRY:	CREDITO	CREDITO	PLACEN	DETACH
LEXENTRY:	CROSA	CROSA	TYPE	DET_PRE
LEXENTRY:	CROSA DI	CROSA DI	TYPE	DET_PRE
LEXENTRY:	CROSINO DELLO	CROSINO DELLO	TYPE	DET_PRE
LEXENTRY:	CROSINO DI	CROSINO DI	TYPE	DET_PRE
LEXENTRY:	CS	COSENZA	PROV	DETACH
LEXENTRY:	CSO	CORSO	TYPE	DET_PRE
LEXENTRY:	CT	CATANIA	PROV	DETACH
LEXENTRY:	CZ	CATANZARO	PROV	DETACH
LEXENTRY:	DAMM	DAMM	TYPE	DET_SUF
LEXENTRY:	DISCESA	DISCESA	TYPE	DET_PRE
LEXENTRY:	DISCESA A	DISCESA A	TYPE	DET_PRE
LEXENTRY:	DISTACCO DI PIAZZA	DISTACCO DI PIAZZA	TYPE	DET_PRE
LEXENTRY:	DOGANA	DOGANA	CITY	DETACH
LEXENTRY:	DOMAGNANO	DOMAGNANO	CITY	DETACH
LEXENTRY:	EN	ENNA	PROV	DETACH
LEXENTRY:	ENTE	ENTE	PLACEN	DETACH
LEXENTRY:	FAETANO	FAETANO	CITY	DETACH
LEXENTRY:	FALCIANO	FALCIANO	CITY	DETACH
LEXENTRY:	FE	FERRARA	PROV	DETACH
LEXENTRY:	FELD	FELD	TYPE	DET_SUF
LEXENTRY:	FG	FOGGIA	PROV	DETACH
LEXENTRY:	FI	FIRENZE	PROV	DETACH
LEXENTRY:	FIORENTINO	FIORENTINO	CITY	DETACH
LEXENTRY:	FIORINA	FIORINA	CITY	DETACH
LEXENTRY:	FO	FORLI	PROV	DETACH
LEXENTRY:	FOND	FONDAMENTA	TYPE	DET_PRE
LEXENTRY:	FOND.	FONDAMENTA	TYPE	DET_PRE
LEXENTRY:	FONDACO	FONDACO	TYPE	DET_PRE
LEXENTRY:	FONDAMENTA	FONDAMENTA	TYPE	DET_PRE
LEXENTRY:	FORO	FORO	TYPE	DET_PRE
LEXENTRY:	FOSSATO	FOSSATO	TYPE	DET_PRE
LEXENTRY:	FOSSATO DI	FOSSATO DI	TYPE	DET_PRE
LEXENTRY:	FR	FROSINONE	PROV	DETACH
LEXENTRY:	FR. FR	FRAZIONE	TYPE	DET_PRE
LEXENTRY:	FRAZ	FRAZIONE	TYPE	DET_PRE
LEXENTRY:	FRAZ.	FRAZIONE	TYPE	DET_PRE
LEXENTRY:	FRAZIONE	FRAZIONE	TYPE	DET_PRE
LEXENTRY:	GALAZZANO	GALAZZANO	CITY	DETACH
LEXENTRY:	GALLERIA	GALLERIA	TYPE	DET_PRE
LEXENTRY:	GALLERIA DEGLI	GALLERIA DEGLI	TYPE	DET_PRE
LEXENTRY:	GALLERIA DEI	GALLERIA DEI	TYPE	DET_PRE
";
"LEXENTRY:	GALLERIA DEL	GALLERIA DEL	TYPE	DET_PRE
LEXENTRY:	GALLERIA DELLE	GALLERIA DELLE	TYPE	DET_PRE
LEXENTRY:	GASSE	GASSE	TYPE	DET_SUF
LEXENTRY:	GE	GENOVA	PROV	DETACH
LEXENTRY:	GIARDINI	GIARDINI	TYPE	DET_PRE
LEXENTRY:	GIARDINO	GIARDINO	TYPE	DET_PRE
LEXENTRY:	GO	GORIZIA	PROV	DETACH
LEXENTRY:	GR	GROSSETO	PROV	DETACH
LEXENTRY:	GRABEN	GRABEN	TYPE	DET_SUF
LEXENTRY:	GUALDICCIOLO	GUALDICCIOLO	CITY	DETACH
LEXENTRY:	HAMEAU	HAMEAU	TYPE	DET_PRE
LEXENTRY:	HAMEAU DE	HAMEAU DE	TYPE	DET_PRE
LEXENTRY:	HAMEAU DE LA	HAMEAU DE LA	TYPE	DET_PRE
LEXENTRY:	HAMEAU LA	HAMEAU LA	TYPE	DET_PRE
LEXENTRY:	HÖHE	HÖHE	TYPE	DET_SUF
LEXENTRY:	ICDP	ICDP	PLACEN	DETACH
LEXENTRY:	IM	IMPERIA	PROV	DETACH
LEXENTRY:	IMPASSE	IMPASSE	TYPE	DET_PRE
LEXENTRY:	IMPASSE DES	IMPASSE DES	TYPE	DET_PRE
LEXENTRY:	INTERRATO	INTERRATO	TYPE	DET_PRE
LEXENTRY:	IS	ISERNIA	PROV	DETACH
LEXENTRY:	LANDSTRASSE	LANDSTRASSE	TYPE	DET_SUF
LEXENTRY:	LARGO	LARGO	TYPE	DET_PRE
LEXENTRY:	LARGO DEGLI	LARGO DEGLI	TYPE	DET_PRE
LEXENTRY:	LARGO DEI	LARGO DEI	TYPE	DET_PRE
LEXENTRY:	LARGO DEL	LARGO DEL	TYPE	DET_PRE
LEXENTRY:	LARGO DELL'	LARGO DELL'	TYPE	ATT_PRE
LEXENTRY:	LARGO DELLA	LARGO DELLA	TYPE	DET_PRE
LEXENTRY:	LARGO DELLE	LARGO DELLE	TYPE	DET_PRE
LEXENTRY:	LARGO DI	LARGO DI	TYPE	DET_PRE
LEXENTRY:	LE	LECCE	PROV	DETACH
LEXENTRY:	LGO	LARGO	TYPE	DET_PRE
LEXENTRY:	LGO.	LARGO	TYPE	DET_PRE
LEXENTRY:	LI	LIVORNO	PROV	DETACH
LEXENTRY:	LISTA	LISTA	TYPE	DET_PRE
LEXENTRY:	LOCALITÀ	LOCALITÀ	TYPE	DET_PRE
LEXENTRY:	LT	LATINA	PROV	DETACH
LEXENTRY:	LU	LUCCA	PROV	DETACH
LEXENTRY:	LUNGADIGE	LUNGADIGE	TYPE	DET_PRE
LEXENTRY:	LUNGARGINE	LUNGARGINE	TYPE	DET_PRE
LEXENTRY:	LUNGARGINE DEL	LUNGARGINE DEL	TYPE	DET_PRE
LEXENTRY:	LUNGARNO	LUNGARNO	TYPE	DET_PRE
LEXENTRY:	LUNGARNO DEGLI	LUNGARNO DEGLI	TYPE	DET_PRE
LEXENTRY:	LUNGARNO DEI	LUNGARNO DEI	TYPE	DET_PRE
LEXENTRY:	LUNGARNO DEL	LUNGARNO DEL	TYPE	DET_PRE
LEXENTRY:	LUNGARNO DELLA	LUNGARNO DELLA	TYPE	DET_PRE
LEXENTRY:	LUNGARNO DELLE	LUNGARNO DELLE	TYPE	DET_PRE
LEXENTRY:	LUNGARNO DI	LUNGARNO DI	TYPE	DET_PRE
LEXENTRY:	LUNGO DORA	LUNGO DORA	TYPE	DET_PRE
LEXENTRY:	LUNGO PO	LUNGO PO	TYPE	DET_PRE
LEXENTRY:	LUNGO STURA	LUNGO STURA	TYPE	DET_PRE
LEXENTRY:	LUNGO TORRENTE	LUNGO TORRENTE	TYPE	DET_PRE
LEXENTRY:	LUNGOBISAGNO	LUNGOBISAGNO	TYPE	DET_PRE
LEXENTRY:	LUNGOMARE	LUNGOMARE	TYPE	DET_PRE
LEXENTRY:	LUNGOMARE DI	LUNGOMARE DI	TYPE	DET_PRE
LEXENTRY:	LUNGOMONTE	LUNGOMONTE	TYPE	DET_PRE
LEXENTRY:	LUNGOPARCO	LUNGOPARCO	TYPE	DET_PRE
LEXENTRY:	LUNGOSTURA CORSO	LUNGOSTURA CORSO	TYPE	DET_PRE
";
"LEXENTRY:	LUNGOTEVERE	LUNGOTEVERE	TYPE	DET_PRE
LEXENTRY:	LUNGOTEVERE DE'	LUNGOTEVERE DE'	TYPE	DET_PRE
LEXENTRY:	LUNGOTEVERE DEGLI	LUNGOTEVERE DEGLI	TYPE	DET_PRE
LEXENTRY:	LUNGOTEVERE DEI	LUNGOTEVERE DEI	TYPE	DET_PRE
LEXENTRY:	LUNGOTEVERE DELLA	LUNGOTEVERE DELLA	TYPE	DET_PRE
LEXENTRY:	LUNGOTEVERE DELLE	LUNGOTEVERE DELLE	TYPE	DET_PRE
LEXENTRY:	LUNGOTEVERE DI	LUNGOTEVERE DI	TYPE	DET_PRE
LEXENTRY:	LUNGOTEVERE IN	LUNGOTEVERE IN	TYPE	DET_PRE
LEXENTRY:	MC	MACERATA	PROV	DETACH
LEXENTRY:	ME	MESSINA	PROV	DETACH
LEXENTRY:	MI	MILANO	PROV	DETACH
LEXENTRY:	MN	MANTOVA	PROV	DETACH
LEXENTRY:	MO	MODENA	PROV	DETACH
LEXENTRY:	MOLO	MOLO	TYPE	DET_PRE
LEXENTRY:	MONTEGIARDINO	MONTEGIARDINO	CITY	DETACH
LEXENTRY:	MS	MASSA CARRARA	PROV	DETACH
LEXENTRY:	MT	MATERA	PROV	DETACH
LEXENTRY:	MUNICIPALE	MUNICIPALE	PLACEN	DETACH
LEXENTRY:	MUNICIPIO	MUNICIPIO	PLACEN	DETACH
LEXENTRY:	MURA	MURA	TYPE	DET_PRE
LEXENTRY:	MURA DEGLI	MURA DEGLI	TYPE	DET_PRE
LEXENTRY:	MURA DEL	MURA DEL	TYPE	DET_PRE
LEXENTRY:	MURA DELLA	MURA DELLA	TYPE	DET_PRE
LEXENTRY:	MURA DELLE	MURA DELLE	TYPE	DET_PRE
LEXENTRY:	MURA DELLO	MURA DELLO	TYPE	DET_PRE
LEXENTRY:	MURA DI	MURA DI	TYPE	DET_PRE
LEXENTRY:	MURALLA DEL	MURALLA DEL	TYPE	DET_PRE
LEXENTRY:	MURAT	MURAT	CITY	DETACH
LEXENTRY:	NA	NAPOLI	PROV	DETACH
LEXENTRY:	NO	NOVARA	PROV	DETACH
LEXENTRY:	NU	NUORO	PROV	DETACH
LEXENTRY:	NUOVA STRADA	NUOVA STRADA	TYPE	DET_PRE
LEXENTRY:	OR	ORISTANO	PROV	DETACH
LEXENTRY:	P.	PIAZZA	TYPE	DET_PRE
LEXENTRY:	P.LE	PIAZZALE	TYPE	DET_PRE
LEXENTRY:	P.ZA	PIAZZA	TYPE	DET_PRE
LEXENTRY:	PA	PALERMO	PROV	DETACH
LEXENTRY:	PARCO	PARCO	TYPE	DET_PRE
LEXENTRY:	PARCO DELLE	PARCO DELLE	TYPE	DET_PRE
LEXENTRY:	PASSAGE	PASSAGE	TYPE	DET_PRE
LEXENTRY:	PASSAGE DU	PASSAGE DU	TYPE	DET_PRE
LEXENTRY:	PASSAGGIO	PASSAGGIO	TYPE	DET_PRE
LEXENTRY:	PASSAGGIO DEGLI	PASSAGGIO DEGLI	TYPE	DET_PRE
LEXENTRY:	PASSAGGIO PRIVATO	PASSAGGIO PRIVATO	TYPE	DET_PRE
LEXENTRY:	PASSEGGIATA	PASSEGGIATA	TYPE	DET_PRE
LEXENTRY:	PASSEGGIATA DEL	PASSEGGIATA DEL	TYPE	DET_PRE
LEXENTRY:	PASSETTO	PASSETTO	TYPE	DET_PRE
LEXENTRY:	PASSO	PASSO	TYPE	DET_PRE
LEXENTRY:	PASSO A	PASSO A	TYPE	DET_PRE
LEXENTRY:	PASSO AL	PASSO AL	TYPE	DET_PRE
LEXENTRY:	PASSO DEI	PASSO DEI	TYPE	DET_PRE
LEXENTRY:	PASSO DEL	PASSO DEL	TYPE	DET_PRE
LEXENTRY:	PASSO DELL'	PASSO DELL'	TYPE	ATT_PRE
LEXENTRY:	PASSO DELLA	PASSO DELLA	TYPE	DET_PRE
LEXENTRY:	PASSO DELLE	PASSO DELLE	TYPE	DET_PRE
LEXENTRY:	PASSO DELLO	PASSO DELLO	TYPE	DET_PRE
LEXENTRY:	PASSO DI	PASSO DI	TYPE	DET_PRE
LEXENTRY:	PC	PIACENZA	PROV	DETACH
LEXENTRY:	PD	PADOVA	PROV	DETACH
";
"LEXENTRY:	PE	PESCARA	PROV	DETACH
LEXENTRY:	PERCORSO	PERCORSO	TYPE	DET_PRE
LEXENTRY:	PG	PERUGIA	PROV	DETACH
LEXENTRY:	PI	PISA	PROV	DETACH
LEXENTRY:	PIANO DI	PIANO DI	TYPE	DET_PRE
LEXENTRY:	PIAZZA	PIAZZA	TYPE	DET_PRE
LEXENTRY:	PIAZZA AI	PIAZZA AI	TYPE	DET_PRE
LEXENTRY:	PIAZZA DE'	PIAZZA DE'	TYPE	DET_PRE
LEXENTRY:	PIAZZA DEGLI	PIAZZA DEGLI	TYPE	DET_PRE
LEXENTRY:	PIAZZA DEI	PIAZZA DEI	TYPE	DET_PRE
LEXENTRY:	PIAZZA DEL	PIAZZA DEL	TYPE	DET_PRE
LEXENTRY:	PIAZZA DELL'	PIAZZA DELL'	TYPE	ATT_PRE
LEXENTRY:	PIAZZA DELLA	PIAZZA DELLA	TYPE	DET_PRE
LEXENTRY:	PIAZZA DELLE	PIAZZA DELLE	TYPE	DET_PRE
LEXENTRY:	PIAZZA DELLO	PIAZZA DELLO	TYPE	DET_PRE
LEXENTRY:	PIAZZA DI	PIAZZA DI	TYPE	DET_PRE
LEXENTRY:	PIAZZA IN	PIAZZA IN	TYPE	DET_PRE
LEXENTRY:	PIAZZA INFERIORE	PIAZZA INFERIORE	TYPE	DET_PRE
LEXENTRY:	PIAZZA INFERIORE DI	PIAZZA INFERIORE DI	TYPE	DET_PRE
LEXENTRY:	PIAZZA SUPERIORE	PIAZZA SUPERIORE	TYPE	DET_PRE
LEXENTRY:	PIAZZA À	PIAZZA À	TYPE	DET_PRE
LEXENTRY:	PIAZZALE	PIAZZALE	TYPE	DET_PRE
LEXENTRY:	PIAZZALE AI	PIAZZALE AI	TYPE	DET_PRE
LEXENTRY:	PIAZZALE DEGLI	PIAZZALE DEGLI	TYPE	DET_PRE
LEXENTRY:	PIAZZALE DEI	PIAZZALE DEI	TYPE	DET_PRE
LEXENTRY:	PIAZZALE DEL	PIAZZALE DEL	TYPE	DET_PRE
LEXENTRY:	PIAZZALE DELL'	PIAZZALE DELL'	TYPE	ATT_PRE
LEXENTRY:	PIAZZALE DELLA	PIAZZALE DELLA	TYPE	DET_PRE
LEXENTRY:	PIAZZALE DELLE	PIAZZALE DELLE	TYPE	DET_PRE
LEXENTRY:	PIAZZALE DELLO	PIAZZALE DELLO	TYPE	DET_PRE
LEXENTRY:	PIAZZALE DI	PIAZZALE DI	TYPE	DET_PRE
LEXENTRY:	PIAZZETTA	PIAZZETTA	TYPE	DET_PRE
LEXENTRY:	PIAZZETTA DEI	PIAZZETTA DEI	TYPE	DET_PRE
LEXENTRY:	PIAZZETTA DEL	PIAZZETTA DEL	TYPE	DET_PRE
LEXENTRY:	PIAZZETTA DELL'	PIAZZETTA DELL'	TYPE	ATT_PRE
LEXENTRY:	PIAZZETTA DELLA	PIAZZETTA DELLA	TYPE	DET_PRE
LEXENTRY:	PIAZZETTA DI	PIAZZETTA DI	TYPE	DET_PRE
LEXENTRY:	PIAZZETTA PRIVATA	PIAZZETTA PRIVATA	TYPE	DET_PRE
LEXENTRY:	PISCINA	PISCINA	TYPE	DET_PRE
LEXENTRY:	PLACE	PLACE	TYPE	DET_PRE
LEXENTRY:	PLACE DE	PLACE DE	TYPE	DET_PRE
LEXENTRY:	PLACE DE L'	PLACE DE L'	TYPE	ATT_PRE
LEXENTRY:	PLACE DE LA	PLACE DE LA	TYPE	DET_PRE
LEXENTRY:	PLACE DES	PLACE DES	TYPE	DET_PRE
LEXENTRY:	PLACE DU	PLACE DU	TYPE	DET_PRE
LEXENTRY:	PLACETA DE	PLACETA DE	TYPE	DET_PRE
LEXENTRY:	PLATZ	PLATZ	TYPE	ATT_PRE,ATT_SUF,DET_PRE,DET_SUF
LEXENTRY:	PLAÇA DE	PLAÇA DE	TYPE	DET_PRE
LEXENTRY:	PLAÇA DEL	PLAÇA DEL	TYPE	DET_PRE
LEXENTRY:	PN	PORDENONE	PROV	DETACH
LEXENTRY:	POGGIO	POGGIO	TYPE	DET_PRE
LEXENTRY:	POGGIO DELLA	POGGIO DELLA	TYPE	DET_PRE
LEXENTRY:	POGGIO DI	POGGIO DI	TYPE	DET_PRE
LEXENTRY:	PONTE	PONTE	TYPE	DET_PRE
";
"LEXENTRY:	PONTE DEI	PONTE DEI	TYPE	DET_PRE
LEXENTRY:	PONTE DEL	PONTE DEL	TYPE	DET_PRE
LEXENTRY:	PONTE DELLA	PONTE DELLA	TYPE	DET_PRE
LEXENTRY:	PONTE DI	PONTE DI	TYPE	DET_PRE
LEXENTRY:	PONTE SUL	PONTE SUL	TYPE	DET_PRE
LEXENTRY:	PORTA	PORTA	TYPE	DET_PRE
LEXENTRY:	PORTICHETTI	PORTICHETTI	TYPE	DET_PRE
LEXENTRY:	PORTICI	PORTICI	TYPE	DET_PRE
LEXENTRY:	PORTICO	PORTICO	TYPE	DET_PRE
LEXENTRY:	PR	PARMA	PROV	DETACH
LEXENTRY:	PROMENADE	PROMENADE	TYPE	DET_SUF
LEXENTRY:	PS	PESARO	PROV	DETACH
LEXENTRY:	PT	PISTOIA	PROV	DETACH
LEXENTRY:	PV	PAVIA	PROV	DETACH
LEXENTRY:	PZ	POTENZA	PROV	DETACH
LEXENTRY:	QUADRATO	QUADRATO	TYPE	DET_PRE
LEXENTRY:	QUADRATO DELLA	QUADRATO DELLA	TYPE	DET_PRE
LEXENTRY:	QUADRIVIO	QUADRIVIO	TYPE	DET_PRE
LEXENTRY:	RA	RAVENNA	PROV	DETACH
LEXENTRY:	RACCORDO	RACCORDO	TYPE	DET_PRE
LEXENTRY:	RACCORDO AUTOSTRADALE	RACCORDO AUTOSTRADALE	TYPE	DET_PRE
LEXENTRY:	RAMO	RAMO	TYPE	DET_PRE
LEXENTRY:	RAMPA	RAMPA	TYPE	DET_PRE
LEXENTRY:	RAMPA DELLA	RAMPA DELLA	TYPE	DET_PRE
LEXENTRY:	RAMPA DELLE	RAMPA DELLE	TYPE	DET_PRE
LEXENTRY:	RAMPA DI	RAMPA DI	TYPE	DET_PRE
LEXENTRY:	RC	REGGIO CALABRIA	PROV	DETACH
LEXENTRY:	RE	REGGIO EMILIA	PROV	DETACH
LEXENTRY:	REGIONE	REGIONE	TYPE	DET_PRE
LEXENTRY:	REP. OF SAN MARINO	SAN MARINO	NATION	DETACH
LEXENTRY:	REPUBLIC OF SAN MARINO	SAN MARINO	NATION	DETACH
LEXENTRY:	RG	RAGUSA	PROV	DETACH
LEXENTRY:	RI	RIETI	PROV	DETACH
LEXENTRY:	RIO	RIO	TYPE	DET_PRE
LEXENTRY:	RIO TERRÀ	RIO TERRÀ	TYPE	DET_PRE
LEXENTRY:	RIPA	RIPA	TYPE	DET_PRE
LEXENTRY:	RIPA DI	RIPA DI	TYPE	DET_PRE
LEXENTRY:	RIVA	RIVA	TYPE	DET_PRE
LEXENTRY:	RIVA DEL	RIVA DEL	TYPE	DET_PRE
LEXENTRY:	RIVALE	RIVALE	TYPE	DET_PRE
LEXENTRY:	RIVIERA	RIVIERA	TYPE	DET_PRE
LEXENTRY:	RIVIERA DEI	RIVIERA DEI	TYPE	DET_PRE
LEXENTRY:	RIVO	RIVO	TYPE	DET_PRE
LEXENTRY:	RM	ROMA	PROV	DETACH
LEXENTRY:	RO	ROVIGO	PROV	DETACH
LEXENTRY:	RONDÒ	RONDÒ	TYPE	DET_PRE
LEXENTRY:	ROTONDA	ROTONDA	TYPE	DET_PRE
LEXENTRY:	ROUTE	ROUTE	TYPE	DET_PRE
LEXENTRY:	ROUTE DE	ROUTE DE	TYPE	DET_PRE
LEXENTRY:	ROUTE DE LA	ROUTE DE LA	TYPE	DET_PRE
LEXENTRY:	ROUTE DES	ROUTE DES	TYPE	DET_PRE
LEXENTRY:	ROUTE DU	ROUTE DU	TYPE	DET_PRE
LEXENTRY:	ROVERETA	ROVERETA	CITY	DETACH
LEXENTRY:	RUA	RUA	TYPE	DET_PRE
LEXENTRY:	RUE	RUE	TYPE	DET_PRE
LEXENTRY:	RUE DE	RUE DE	TYPE	DET_PRE
LEXENTRY:	RUE DE LA	RUE DE LA	TYPE	DET_PRE
LEXENTRY:	RUE DES	RUE DES	TYPE	DET_PRE
LEXENTRY:	RUE DU	RUE DU	TYPE	DET_PRE
LEXENTRY:	RUE LA	RUE LA	TYPE	DET_PRE
LEXENTRY:	RUELLE	RUELLE	TYPE	DET_PRE
LEXENTRY:	RUELLE DE	RUELLE DE	TYPE	DET_PRE
LEXENTRY:	RUELLE DES	RUELLE DES	TYPE	DET_PRE
";
"LEXENTRY:	RUELLE DU	RUELLE DU	TYPE	DET_PRE
LEXENTRY:	RUGA	RUGA	TYPE	DET_PRE
LEXENTRY:	SA	SA	PLACEN	DETACH
LEXENTRY:	SA	SALERNO	PROV	DETACH
LEXENTRY:	SALITA	SALITA	TYPE	DET_PRE
LEXENTRY:	SALITA A	SALITA A	TYPE	DET_PRE
LEXENTRY:	SALITA AI	SALITA AI	TYPE	DET_PRE
LEXENTRY:	SALITA AL	SALITA AL	TYPE	DET_PRE
LEXENTRY:	SALITA ALLA	SALITA ALLA	TYPE	DET_PRE
LEXENTRY:	SALITA ALLE	SALITA ALLE	TYPE	DET_PRE
LEXENTRY:	SALITA DEGLI	SALITA DEGLI	TYPE	DET_PRE
LEXENTRY:	SALITA DEI	SALITA DEI	TYPE	DET_PRE
LEXENTRY:	SALITA DEL	SALITA DEL	TYPE	DET_PRE
LEXENTRY:	SALITA DELL'	SALITA DELL'	TYPE	ATT_PRE
LEXENTRY:	SALITA DELLA	SALITA DELLA	TYPE	DET_PRE
LEXENTRY:	SALITA DELLE	SALITA DELLE	TYPE	DET_PRE
LEXENTRY:	SALITA DI	SALITA DI	TYPE	DET_PRE
LEXENTRY:	SALITA INFERIORE	SALITA INFERIORE	TYPE	DET_PRE
LEXENTRY:	SALITA INFERIORE AL	SALITA INFERIORE AL	TYPE	DET_PRE
LEXENTRY:	SALITA INFERIORE DI	SALITA INFERIORE DI	TYPE	DET_PRE
LEXENTRY:	SALITA SUPERIORE	SALITA SUPERIORE	TYPE	DET_PRE
LEXENTRY:	SALITA SUPERIORE AI	SALITA SUPERIORE AI	TYPE	DET_PRE
LEXENTRY:	SALITA SUPERIORE DELLA	SALITA SUPERIORE DELLA	TYPE	DET_PRE
LEXENTRY:	SALITA SUPERIORE DI	SALITA SUPERIORE DI	TYPE	DET_PRE
LEXENTRY:	SALITA VECCHIA DI	SALITA VECCHIA DI	TYPE	DET_PRE
LEXENTRY:	SAN GIOVANNI	SAN GIOVANNI	CITY	DETACH
LEXENTRY:	SAN MARINO	SAN MARINO	CITY,NATION	DETACH
LEXENTRY:	SANTA MUSTIOLA	SANTA MUSTIOLA	CITY	DETACH
LEXENTRY:	SAPA	SAPA	PLACEN	DETACH
LEXENTRY:	SAS	SAS	PLACEN	DETACH
LEXENTRY:	SCALA	SCALA	TYPE	DET_PRE
LEXENTRY:	SCALA DEI	SCALA DEI	TYPE	DET_PRE
LEXENTRY:	SCALA DELL'	SCALA DELL'	TYPE	ATT_PRE
LEXENTRY:	SCALEA	SCALEA	TYPE	DET_PRE
LEXENTRY:	SCALETTA	SCALETTA	TYPE	DET_PRE
LEXENTRY:	SCALINATA	SCALINATA	TYPE	DET_PRE
LEXENTRY:	SCALINATA A	SCALINATA A	TYPE	DET_PRE
LEXENTRY:	SCALINATA A VIA	SCALINATA A VIA	TYPE	DET_PRE
LEXENTRY:	SCALINATA CHIUSA	SCALINATA CHIUSA	TYPE	DET_PRE
LEXENTRY:	SCALINATA DEI	SCALINATA DEI	TYPE	DET_PRE
LEXENTRY:	SCALINATA DEL	SCALINATA DEL	TYPE	DET_PRE
LEXENTRY:	SCALINATA DELL'	SCALINATA DELL'	TYPE	ATT_PRE
LEXENTRY:	SCALINATA DELLA	SCALINATA DELLA	TYPE	DET_PRE
LEXENTRY:	SCALINATA DELLE	SCALINATA DELLE	TYPE	DET_PRE
LEXENTRY:	SCALINATA DI	SCALINATA DI	TYPE	DET_PRE
LEXENTRY:	SCALO	SCALO	TYPE	DET_PRE
LEXENTRY:	SCALONE	SCALONE	TYPE	DET_PRE
LEXENTRY:	SCALONE VOLTO	SCALONE VOLTO	TYPE	DET_PRE
LEXENTRY:	SDRUCCIOLO DE'	SDRUCCIOLO DE'	TYPE	DET_PRE
LEXENTRY:	SELCIATO	SELCIATO	TYPE	DET_PRE
LEXENTRY:	SENTIERO	SENTIERO	TYPE	DET_PRE
LEXENTRY:	SENTIERO DEL	SENTIERO DEL	TYPE	DET_PRE
";
"LEXENTRY:	SERRAVALLE	SERRAVALLE	CITY	DETACH
LEXENTRY:	SI	SIENA	PROV	DETACH
LEXENTRY:	SITO DEI	SITO DEI	TYPE	DET_PRE
LEXENTRY:	SITO DELLA	SITO DELLA	TYPE	DET_PRE
LEXENTRY:	SM	SAN MARINO	NATION	DETACH
LEXENTRY:	SMR	SAN MARINO	NATION	DETACH
LEXENTRY:	SNC	SNC	PLACEN	DETACH
LEXENTRY:	SO	SONDRIO	PROV	DETACH
LEXENTRY:	SOCIETÀ	SOCIETÀ	PLACEN	DETACH
LEXENTRY:	SOTTOPASSAGGIO	SOTTOPASSAGGIO	TYPE	DET_PRE
LEXENTRY:	SOTTOPORTICO	SOTTOPORTICO	TYPE	DET_PRE
LEXENTRY:	SOTTOVIA	SOTTOVIA	TYPE	DET_PRE
LEXENTRY:	SP	LA SPEZIA	PROV	DETACH
LEXENTRY:	SPA	SPA	PLACEN	DETACH
LEXENTRY:	SPALTO	SPALTO	TYPE	DET_PRE
LEXENTRY:	SPIANATA DI	SPIANATA DI	TYPE	DET_PRE
LEXENTRY:	SQUARE	SQUARE	TYPE	DET_PRE
LEXENTRY:	SR	SIRACUSA	PROV	DETACH
LEXENTRY:	SRL	SRL	PLACEN	DETACH
LEXENTRY:	SS	SASSARI	PROV	DETACH
LEXENTRY:	SS	SUPERSTRADA	TYPE	DET_PRE
LEXENTRY:	SS.	SUPERSTRADA	TYPE	DET_PRE
LEXENTRY:	STAZIONE	STAZIONE	PLACEN	DETACH
LEXENTRY:	STEG	STEG	TYPE	DET_SUF
LEXENTRY:	STRADA	STRADA	TYPE	DET_PRE
LEXENTRY:	STRADA AI	STRADA AI	TYPE	DET_PRE
LEXENTRY:	STRADA AL	STRADA AL	TYPE	DET_PRE
LEXENTRY:	STRADA ALLA	STRADA ALLA	TYPE	DET_PRE
LEXENTRY:	STRADA ALLE	STRADA ALLE	TYPE	DET_PRE
LEXENTRY:	STRADA ALTA DI	STRADA ALTA DI	TYPE	DET_PRE
LEXENTRY:	STRADA ANTICA	STRADA ANTICA	TYPE	DET_PRE
LEXENTRY:	STRADA ANTICA DELLA	STRADA ANTICA DELLA	TYPE	DET_PRE
LEXENTRY:	STRADA ANTICA DI	STRADA ANTICA DI	TYPE	DET_PRE
LEXENTRY:	STRADA COMUNALE	STRADA COMUNALE	TYPE	DET_PRE
LEXENTRY:	STRADA COMUNALE ALLA	STRADA COMUNALE ALLA	TYPE	DET_PRE
LEXENTRY:	STRADA COMUNALE ANTICA DI	STRADA COMUNALE ANTICA DI	TYPE	DET_PRE
LEXENTRY:	STRADA COMUNALE DA	STRADA COMUNALE DA	TYPE	DET_PRE
LEXENTRY:	STRADA COMUNALE DEI	STRADA COMUNALE DEI	TYPE	DET_PRE
LEXENTRY:	STRADA COMUNALE DEL	STRADA COMUNALE DEL	TYPE	DET_PRE
LEXENTRY:	STRADA COMUNALE DELLA	STRADA COMUNALE DELLA	TYPE	DET_PRE
LEXENTRY:	STRADA COMUNALE DELLE	STRADA COMUNALE DELLE	TYPE	DET_PRE
LEXENTRY:	STRADA COMUNALE DI	STRADA COMUNALE DI	TYPE	DET_PRE
LEXENTRY:	STRADA COMUNALE PER	STRADA COMUNALE PER	TYPE	DET_PRE
LEXENTRY:	STRADA CONSORTILE	STRADA CONSORTILE	TYPE	DET_PRE
LEXENTRY:	STRADA CONSORTILE ALLA	STRADA CONSORTILE ALLA	TYPE	DET_PRE
LEXENTRY:	STRADA CONSORTILE DEI	STRADA CONSORTILE DEI	TYPE	DET_PRE
LEXENTRY:	STRADA CONSORTILE DEL	STRADA CONSORTILE DEL	TYPE	DET_PRE
LEXENTRY:	STRADA CONSORTILE DELLA	STRADA CONSORTILE DELLA	TYPE	DET_PRE
LEXENTRY:	STRADA DA	STRADA DA	TYPE	DET_PRE
LEXENTRY:	STRADA DAI	STRADA DAI	TYPE	DET_PRE
LEXENTRY:	STRADA DAL	STRADA DAL	TYPE	DET_PRE
";
"LEXENTRY:	STRADA DEGLI	STRADA DEGLI	TYPE	DET_PRE
LEXENTRY:	STRADA DEI	STRADA DEI	TYPE	DET_PRE
LEXENTRY:	STRADA DEL	STRADA DEL	TYPE	DET_PRE
LEXENTRY:	STRADA DELL'	STRADA DELL'	TYPE	ATT_PRE
LEXENTRY:	STRADA DELLA	STRADA DELLA	TYPE	DET_PRE
LEXENTRY:	STRADA DELLE	STRADA DELLE	TYPE	DET_PRE
LEXENTRY:	STRADA DI	STRADA DI	TYPE	DET_PRE
LEXENTRY:	STRADA ESTERNA	STRADA ESTERNA	TYPE	DET_PRE
LEXENTRY:	STRADA INTERPODERALE	STRADA INTERPODERALE	TYPE	DET_PRE
LEXENTRY:	STRADA MILITARE	STRADA MILITARE	TYPE	DET_PRE
LEXENTRY:	STRADA PER	STRADA PER	TYPE	DET_PRE
LEXENTRY:	STRADA PODERALE	STRADA PODERALE	TYPE	DET_PRE
LEXENTRY:	STRADA PRIVATA	STRADA PRIVATA	TYPE	DET_PRE
LEXENTRY:	STRADA PROVINCIALE	STRADA PROVINCIALE	TYPE	DET_PRE
LEXENTRY:	STRADA PROVINCIALE DEI	STRADA PROVINCIALE DEI	TYPE	DET_PRE
LEXENTRY:	STRADA PROVINCIALE DEL	STRADA PROVINCIALE DEL	TYPE	DET_PRE
LEXENTRY:	STRADA PROVINCIALE DELL'	STRADA PROVINCIALE DELL'	TYPE	ATT_PRE
LEXENTRY:	STRADA PROVINCIALE DELLA	STRADA PROVINCIALE DELLA	TYPE	DET_PRE
LEXENTRY:	STRADA PROVINCIALE DELLE	STRADA PROVINCIALE DELLE	TYPE	DET_PRE
LEXENTRY:	STRADA PROVINCIALE DI	STRADA PROVINCIALE DI	TYPE	DET_PRE
LEXENTRY:	STRADA PROVINCIALE PER	STRADA PROVINCIALE PER	TYPE	DET_PRE
LEXENTRY:	STRADA REGIONALE DELLA	STRADA REGIONALE DELLA	TYPE	DET_PRE
LEXENTRY:	STRADA REGIONALE DI	STRADA REGIONALE DI	TYPE	DET_PRE
LEXENTRY:	STRADA STATALE	STRADA STATALE	TYPE	DET_PRE
LEXENTRY:	STRADA STATALE DEL	STRADA STATALE DEL	TYPE	DET_PRE
LEXENTRY:	STRADA STATALE DELLA	STRADA STATALE DELLA	TYPE	DET_PRE
LEXENTRY:	STRADA STATALE DELLE	STRADA STATALE DELLE	TYPE	DET_PRE
LEXENTRY:	STRADA STATALE DI	STRADA STATALE DI	TYPE	DET_PRE
LEXENTRY:	STRADA VICINALE	STRADA VICINALE	TYPE	DET_PRE
LEXENTRY:	STRADA VICINALE DA	STRADA VICINALE DA	TYPE	DET_PRE
LEXENTRY:	STRADA VICINALE DEI	STRADA VICINALE DEI	TYPE	DET_PRE
LEXENTRY:	STRADA VICINALE DEL	STRADA VICINALE DEL	TYPE	DET_PRE
LEXENTRY:	STRADA VICINALE DELLA	STRADA VICINALE DELLA	TYPE	DET_PRE
LEXENTRY:	STRADA VICINALE DELLE	STRADA VICINALE DELLE	TYPE	DET_PRE
LEXENTRY:	STRADA VICINALE DI	STRADA VICINALE DI	TYPE	DET_PRE
LEXENTRY:	STRADALE	STRADALE	TYPE	DET_PRE
LEXENTRY:	STRADELLA	STRADELLA	TYPE	DET_PRE
LEXENTRY:	STRADELLA DELLE	STRADELLA DELLE	TYPE	DET_PRE
LEXENTRY:	STRADONE	STRADONE	TYPE	DET_PRE
LEXENTRY:	STRADONE DEI	STRADONE DEI	TYPE	DET_PRE
LEXENTRY:	STRADONE DI	STRADONE DI	TYPE	DET_PRE
LEXENTRY:	STRASSE	STRASSE	TYPE	DET_PRE,DET_SUF
LEXENTRY:	SUPERSTRADA	SUPERSTRADA	TYPE	DET_PRE
";
"LEXENTRY:	SUPERSTRADA PER	SUPERSTRADA PER	TYPE	DET_PRE
LEXENTRY:	SV	SAVONA	PROV	DETACH
LEXENTRY:	SVINCOLO	SVINCOLO	TYPE	DET_PRE
LEXENTRY:	TA	TARANTO	PROV	DETACH
LEXENTRY:	TANGENZIALE	TANGENZIALE	TYPE	DET_PRE
LEXENTRY:	TANGENZIALE DI	TANGENZIALE DI	TYPE	DET_PRE
LEXENTRY:	TE	TERAMO	PROV	DETACH
LEXENTRY:	TEGLIO	TEGLIO	CITY	DETACH
LEXENTRY:	TN	TRENTO	PROV	DETACH
LEXENTRY:	TO	TORINO	PROV	DETACH
LEXENTRY:	TORRACCIA	TORRACCIA	CITY	DETACH
LEXENTRY:	TP	TRAPANI	PROV	DETACH
LEXENTRY:	TR	TERNI	PROV	DETACH
LEXENTRY:	TRAFORO	TRAFORO	TYPE	DET_PRE
LEXENTRY:	TRAFORO DEL	TRAFORO DEL	TYPE	DET_PRE
LEXENTRY:	TRAVERSA	TRAVERSA	TYPE	DET_PRE
LEXENTRY:	TRAVERSA ALLA	TRAVERSA ALLA	TYPE	DET_PRE
LEXENTRY:	TRAVERSA DEGLI	TRAVERSA DEGLI	TYPE	DET_PRE
LEXENTRY:	TRAVERSA DEI	TRAVERSA DEI	TYPE	DET_PRE
LEXENTRY:	TRAVERSA DI	TRAVERSA DI	TYPE	DET_PRE
LEXENTRY:	TS	TRIESTE	PROV	DETACH
LEXENTRY:	TV	TREVISO	PROV	DETACH
LEXENTRY:	UD	UDINE	PROV	DETACH
LEXENTRY:	V	VIA	TYPE	DET_PRE
LEXENTRY:	V A	VIA A	TYPE	DET_PRE
LEXENTRY:	V AI	VIA AI	TYPE	DET_PRE
LEXENTRY:	V AL	VIA AL	TYPE	DET_PRE
LEXENTRY:	V ALLA	VIA ALLA	TYPE	DET_PRE
LEXENTRY:	V ALLE	VIA ALLE	TYPE	DET_PRE
LEXENTRY:	V DA	VIA DA	TYPE	DET_PRE
LEXENTRY:	V DAI	VIA DAI	TYPE	DET_PRE
LEXENTRY:	V DAL	VIA DAL	TYPE	DET_PRE
LEXENTRY:	V DE'	VIA DE'	TYPE	DET_PRE
LEXENTRY:	V DEI	VIA DEI	TYPE	DET_PRE
LEXENTRY:	V DEL	VIA DEL	TYPE	DET_PRE
LEXENTRY:	V DI	VIA DI	TYPE	DET_PRE
LEXENTRY:	V FRA	VIA FRA	TYPE	DET_PRE
LEXENTRY:	V IN	VIA IN	TYPE	DET_PRE
LEXENTRY:	V PER	VIA PER	TYPE	DET_PRE
LEXENTRY:	V.	VIA	TYPE	DET_PRE
LEXENTRY:	V. A	VIA A	TYPE	DET_PRE
LEXENTRY:	V. AI	VIA AI	TYPE	DET_PRE
LEXENTRY:	V. AL	VIA AL	TYPE	DET_PRE
LEXENTRY:	V. ALLA	VIA ALLA	TYPE	DET_PRE
LEXENTRY:	V. ALLE	VIA ALLE	TYPE	DET_PRE
LEXENTRY:	V. DA	VIA DA	TYPE	DET_PRE
LEXENTRY:	V. DAI	VIA DAI	TYPE	DET_PRE
LEXENTRY:	V. DAL	VIA DAL	TYPE	DET_PRE
LEXENTRY:	V. DE'	VIA DE'	TYPE	DET_PRE
LEXENTRY:	V. DEI	VIA DEI	TYPE	DET_PRE
LEXENTRY:	V. DEL	VIA DEL	TYPE	DET_PRE
LEXENTRY:	V. DI	VIA DI	TYPE	DET_PRE
LEXENTRY:	V. FRA	VIA FRA	TYPE	DET_PRE
LEXENTRY:	V. IN	VIA IN	TYPE	DET_PRE
LEXENTRY:	V. PER	VIA PER	TYPE	DET_PRE
LEXENTRY:	VA	VARESE	PROV	DETACH
LEXENTRY:	VALDRAGONE	VALDRAGONE	CITY	DETACH
LEXENTRY:	VALLETTA	VALLETTA	TYPE	DET_PRE
LEXENTRY:	VARCO	VARCO	TYPE	DET_PRE
LEXENTRY:	VC	VERCELLI	PROV	DETACH
LEXENTRY:	VE	VENEZIA	PROV	DETACH
LEXENTRY:	VENTOSO	VENTOSO	CITY	DETACH
LEXENTRY:	VI	VICENZA	PROV	DETACH
LEXENTRY:	VIA	VIA	TYPE	DET_PRE
LEXENTRY:	VIA A	VIA A	TYPE	DET_PRE
LEXENTRY:	VIA AI	VIA AI	TYPE	DET_PRE
";
"LEXENTRY:	VIA AL	VIA AL	TYPE	DET_PRE
LEXENTRY:	VIA ALL'	VIA ALL'	TYPE	ATT_PRE
LEXENTRY:	VIA ALLA	VIA ALLA	TYPE	DET_PRE
LEXENTRY:	VIA ALLE	VIA ALLE	TYPE	DET_PRE
LEXENTRY:	VIA ALLE VECCHIE	VIA ALLE VECCHIE	TYPE	DET_PRE
LEXENTRY:	VIA ANTICA	VIA ANTICA	TYPE	DET_PRE
LEXENTRY:	VIA D'	VIA D'	TYPE	ATT_PRE
LEXENTRY:	VIA DA	VIA DA	TYPE	DET_PRE
LEXENTRY:	VIA DAI	VIA DAI	TYPE	DET_PRE
LEXENTRY:	VIA DAL	VIA DAL	TYPE	DET_PRE
LEXENTRY:	VIA DE'	VIA DE'	TYPE	DET_PRE
LEXENTRY:	VIA DEGLI	VIA DEGLI	TYPE	DET_PRE
LEXENTRY:	VIA DEI	VIA DEI	TYPE	DET_PRE
LEXENTRY:	VIA DEL	VIA DEL	TYPE	DET_PRE
LEXENTRY:	VIA DELL'	VIA DELL'	TYPE	ATT_PRE
LEXENTRY:	VIA DELLA	VIA DELLA	TYPE	DET_PRE
LEXENTRY:	VIA DELLE	VIA DELLE	TYPE	DET_PRE
LEXENTRY:	VIA DELLO	VIA DELLO	TYPE	DET_PRE
LEXENTRY:	VIA DI	VIA DI	TYPE	DET_PRE
LEXENTRY:	VIA DIETRO	VIA DIETRO	TYPE	DET_PRE
LEXENTRY:	VIA FRA	VIA FRA	TYPE	DET_PRE
LEXENTRY:	VIA IN	VIA IN	TYPE	DET_PRE
LEXENTRY:	VIA INFERIORE	VIA INFERIORE	TYPE	DET_PRE
LEXENTRY:	VIA INFERIORE DEI	VIA INFERIORE DEI	TYPE	DET_PRE
LEXENTRY:	VIA INFERIORE DI	VIA INFERIORE DI	TYPE	DET_PRE
LEXENTRY:	VIA INTERNA	VIA INTERNA	TYPE	DET_PRE
LEXENTRY:	VIA MILITARE DI	VIA MILITARE DI	TYPE	DET_PRE
LEXENTRY:	VIA MURA DI	VIA MURA DI	TYPE	DET_PRE
LEXENTRY:	VIA PER	VIA PER	TYPE	DET_PRE
LEXENTRY:	VIA PONTE	VIA PONTE	TYPE	DET_PRE
LEXENTRY:	VIA PRIVATA	VIA PRIVATA	TYPE	DET_PRE
LEXENTRY:	VIA PRIVATA DEGLI	VIA PRIVATA DEGLI	TYPE	DET_PRE
LEXENTRY:	VIA PRIVATA DEI	VIA PRIVATA DEI	TYPE	DET_PRE
LEXENTRY:	VIA PRIVATA DEL	VIA PRIVATA DEL	TYPE	DET_PRE
LEXENTRY:	VIA PRIVATA DELL'	VIA PRIVATA DELL'	TYPE	ATT_PRE
LEXENTRY:	VIA PRIVATA DELLA	VIA PRIVATA DELLA	TYPE	DET_PRE
LEXENTRY:	VIA PRIVATA DELLE	VIA PRIVATA DELLE	TYPE	DET_PRE
LEXENTRY:	VIA PRIVATA DI	VIA PRIVATA DI	TYPE	DET_PRE
LEXENTRY:	VIA PROVINCIALE	VIA PROVINCIALE	TYPE	DET_PRE
LEXENTRY:	VIA SOTTO	VIA SOTTO	TYPE	DET_PRE
LEXENTRY:	VIA SOTTO I	VIA SOTTO I	TYPE	DET_PRE
LEXENTRY:	VIA SOTTO LE	VIA SOTTO LE	TYPE	DET_PRE
LEXENTRY:	VIA SUPERIORE	VIA SUPERIORE	TYPE	DET_PRE
LEXENTRY:	VIA SUPERIORE DEI	VIA SUPERIORE DEI	TYPE	DET_PRE
LEXENTRY:	VIA SUPERIORE DEL	VIA SUPERIORE DEL	TYPE	DET_PRE
LEXENTRY:	VIA SUPERIORE DELL'	VIA SUPERIORE DELL'	TYPE	ATT_PRE
LEXENTRY:	VIA SUPERIORE DELLE	VIA SUPERIORE DELLE	TYPE	DET_PRE
LEXENTRY:	VIA VECCHIA DI	VIA VECCHIA DI	TYPE	DET_PRE
LEXENTRY:	VIA VICINALE	VIA VICINALE	TYPE	DET_PRE
LEXENTRY:	VIADOTTO	VIADOTTO	TYPE	DET_PRE
LEXENTRY:	VIADOTTO DELLA	VIADOTTO DELLA	TYPE	DET_PRE
LEXENTRY:	VIALE	VIALE	TYPE	DET_PRE
";
"LEXENTRY:	VIALE AI	VIALE AI	TYPE	DET_PRE
LEXENTRY:	VIALE AL	VIALE AL	TYPE	DET_PRE
LEXENTRY:	VIALE ALLA	VIALE ALLA	TYPE	DET_PRE
LEXENTRY:	VIALE DEGLI	VIALE DEGLI	TYPE	DET_PRE
LEXENTRY:	VIALE DEI	VIALE DEI	TYPE	DET_PRE
LEXENTRY:	VIALE DEL	VIALE DEL	TYPE	DET_PRE
LEXENTRY:	VIALE DELL'	VIALE DELL'	TYPE	ATT_PRE
LEXENTRY:	VIALE DELLA	VIALE DELLA	TYPE	DET_PRE
LEXENTRY:	VIALE DELLE	VIALE DELLE	TYPE	DET_PRE
LEXENTRY:	VIALE DELLO	VIALE DELLO	TYPE	DET_PRE
LEXENTRY:	VIALE DI	VIALE DI	TYPE	DET_PRE
LEXENTRY:	VIALETTO	VIALETTO	TYPE	DET_PRE
LEXENTRY:	VIALETTO DEL	VIALETTO DEL	TYPE	DET_PRE
LEXENTRY:	VIALETTO DELLA	VIALETTO DELLA	TYPE	DET_PRE
LEXENTRY:	VICO	VICO	TYPE	DET_PRE
LEXENTRY:	VICO A	VICO A	TYPE	DET_PRE
LEXENTRY:	VICO ALLA	VICO ALLA	TYPE	DET_PRE
LEXENTRY:	VICO CHIUSO	VICO CHIUSO	TYPE	DET_PRE
LEXENTRY:	VICO CHIUSO DEGLI	VICO CHIUSO DEGLI	TYPE	DET_PRE
LEXENTRY:	VICO CHIUSO DEI	VICO CHIUSO DEI	TYPE	DET_PRE
LEXENTRY:	VICO CHIUSO DEL	VICO CHIUSO DEL	TYPE	DET_PRE
LEXENTRY:	VICO CHIUSO DELLA	VICO CHIUSO DELLA	TYPE	DET_PRE
LEXENTRY:	VICO CHIUSO DELLO	VICO CHIUSO DELLO	TYPE	DET_PRE
LEXENTRY:	VICO CIECO DIETRO	VICO CIECO DIETRO	TYPE	DET_PRE
LEXENTRY:	VICO DE	VICO DE	TYPE	DET_PRE
LEXENTRY:	VICO DEGLI	VICO DEGLI	TYPE	DET_PRE
LEXENTRY:	VICO DEI	VICO DEI	TYPE	DET_PRE
LEXENTRY:	VICO DEL	VICO DEL	TYPE	DET_PRE
LEXENTRY:	VICO DELLA	VICO DELLA	TYPE	DET_PRE
LEXENTRY:	VICO DELLE	VICO DELLE	TYPE	DET_PRE
LEXENTRY:	VICO DI	VICO DI	TYPE	DET_PRE
LEXENTRY:	VICO DIETRO	VICO DIETRO	TYPE	DET_PRE
LEXENTRY:	VICO DIETRO IL	VICO DIETRO IL	TYPE	DET_PRE
LEXENTRY:	VICO INFERIORE	VICO INFERIORE	TYPE	DET_PRE
LEXENTRY:	VICO INFERIORE DEL	VICO INFERIORE DEL	TYPE	DET_PRE
LEXENTRY:	VICO SECONDO	VICO SECONDO	TYPE	DET_PRE
LEXENTRY:	VICO SECONDO DELLO	VICO SECONDO DELLO	TYPE	DET_PRE
LEXENTRY:	VICO SUPERIORE	VICO SUPERIORE	TYPE	DET_PRE
LEXENTRY:	VICO SUPERIORE DEL	VICO SUPERIORE DEL	TYPE	DET_PRE
LEXENTRY:	VICO SUPERIORE DI	VICO SUPERIORE DI	TYPE	DET_PRE
LEXENTRY:	VICOLETTO	VICOLETTO	TYPE	DET_PRE
LEXENTRY:	VICOLETTO CIECO	VICOLETTO CIECO	TYPE	DET_PRE
LEXENTRY:	VICOLETTO CIECO DIETRO	VICOLETTO CIECO DIETRO	TYPE	DET_PRE
LEXENTRY:	VICOLETTO CORTICELLA	VICOLETTO CORTICELLA	TYPE	DET_PRE
LEXENTRY:	VICOLO	VICOLO	TYPE	DET_PRE
LEXENTRY:	VICOLO AL	VICOLO AL	TYPE	DET_PRE
LEXENTRY:	VICOLO CIECO	VICOLO CIECO	TYPE	DET_PRE
LEXENTRY:	VICOLO DE'	VICOLO DE'	TYPE	DET_PRE
LEXENTRY:	VICOLO DEGLI	VICOLO DEGLI	TYPE	DET_PRE
LEXENTRY:	VICOLO DEI	VICOLO DEI	TYPE	DET_PRE
LEXENTRY:	VICOLO DEL	VICOLO DEL	TYPE	DET_PRE
";
"LEXENTRY:	VICOLO DELLA	VICOLO DELLA	TYPE	DET_PRE
LEXENTRY:	VICOLO DELLE	VICOLO DELLE	TYPE	DET_PRE
LEXENTRY:	VICOLO DELLO	VICOLO DELLO	TYPE	DET_PRE
LEXENTRY:	VICOLO DI	VICOLO DI	TYPE	DET_PRE
LEXENTRY:	VICOLO DIETRO	VICOLO DIETRO	TYPE	DET_PRE
LEXENTRY:	VICOLO PER	VICOLO PER	TYPE	DET_PRE
LEXENTRY:	VICOLO PRIVATO	VICOLO PRIVATO	TYPE	DET_PRE
LEXENTRY:	VIE	VIALE	TYPE	DET_PRE
LEXENTRY:	VIE.	VIALE	TYPE	DET_PRE
LEXENTRY:	VILLAGGIO	VILLAGGIO	TYPE	DET_PRE
LEXENTRY:	VIOTTOLA	VIOTTOLA	TYPE	DET_PRE
LEXENTRY:	VIOTTOLO	VIOTTOLO	TYPE	DET_PRE
LEXENTRY:	VIUZZO	VIUZZO	TYPE	DET_PRE
LEXENTRY:	VIUZZO DE'	VIUZZO DE'	TYPE	DET_PRE
LEXENTRY:	VIUZZO DEI	VIUZZO DEI	TYPE	DET_PRE
LEXENTRY:	VIUZZO DEL	VIUZZO DEL	TYPE	DET_PRE
LEXENTRY:	VIUZZO DELLA	VIUZZO DELLA	TYPE	DET_PRE
LEXENTRY:	VIUZZO DELLE	VIUZZO DELLE	TYPE	DET_PRE
LEXENTRY:	VIUZZO DI	VIUZZO DI	TYPE	DET_PRE
LEXENTRY:	VL	VIALE	TYPE	DET_PRE
LEXENTRY:	VL.	VIALE	TYPE	DET_PRE
LEXENTRY:	VO'	VO'	TYPE	DET_PRE
LEXENTRY:	VOCABOLO	VOCABOLO	TYPE	DET_PRE
LEXENTRY:	VOLTA	VOLTA	TYPE	DET_PRE
LEXENTRY:	VOLTA DE'	VOLTA DE'	TYPE	DET_PRE
LEXENTRY:	VOLTA DEI	VOLTA DEI	TYPE	DET_PRE
LEXENTRY:	VOLTA DELLA	VOLTA DELLA	TYPE	DET_PRE
LEXENTRY:	VOLTA DI	VOLTA DI	TYPE	DET_PRE
LEXENTRY:	VOLTO	VOLTO	TYPE	DET_PRE
LEXENTRY:	VR	VERONA	PROV	DETACH
LEXENTRY:	VT	VITERBO	PROV	DETACH
LEXENTRY:	WEG	WEG	TYPE	DET_PRE,DET_SUF
LEXENTRY:	WINKEL	WINKEL	TYPE	DET_SUF
"].
(** data/sample/spain.lex *)
Definition slex_spain : list string :=
[
"LEXICON:	lex-spain.txt	SPA	es_ES
LEXENTRY:	APARTADO	APARTADO	BOXH	DETACH
LEXENTRY:	APARTADO DE CORREOS	APARTADO DE CORREOS	BOXH	DETACH
LEXENTRY:	APARTAT DE CORREUS	APARTADO DE CORREOS	BOXH	DETACH
LEXENTRY:	APARTAT	APARTADO	BOXH	DETACH
LEXENTRY:	APTO	APARTADO	BOXH	DETACH
LEXENTRY:	APTO.	APARTADO	BOXH	DETACH
LEXENTRY:	POSTA KUTXATILA	POSTA KUTXATILA	BOXH	DETACH
LEXENTRY:	º	º	UNITH	ATT_SUF,DET_SUF
LEXENTRY:	°	°	UNITH	ATT_SUF,DET_SUF
LEXENTRY:	A CORUÑA	LA CORUÑA	PROV,CITY	DETACH
LEXENTRY:	ALACANT	ALICANTE	PROV,CITY	DETACH
LEXENTRY:	ALAMEDA	ALAMEDA	TYPE	DET_PRE
LEXENTRY:	ALAMEDA DE	ALAMEDA DE	TYPE	DET_PRE
LEXENTRY:	ALAMEDA DE LA	ALAMEDA DE LA	TYPE	DET_PRE
LEXENTRY:	ALAMEDA DE LAS	ALAMEDA DE LAS	TYPE	DET_PRE
LEXENTRY:	ALAMEDA DEL	ALAMEDA DEL	TYPE	DET_PRE
LEXENTRY:	ALAVA	ÁLAVA	PROV,CITY	DETACH
LEXENTRY:	ALBACETE	ALBACETE	PROV,CITY	DETACH
LEXENTRY:	ALDAPA	ALDAPA	TYPE	DET_SUF
LEXENTRY:	ALICANTE	ALICANTE	PROV,CITY	DETACH
LEXENTRY:	ALMERIA	ALMERÍA	PROV,CITY	DETACH
LEXENTRY:	ALMERÍA	ALMERÍA	PROV,CITY	DETACH
LEXENTRY:	ARABA	ÁLAVA	PROV,CITY	DETACH
LEXENTRY:	ASTURIAS	ASTURIAS	PROV,CITY	DETACH
LEXENTRY:	ASTURIE	ASTURIAS	PROV,CITY	DETACH
LEXENTRY:	ASTURIEN	ASTURIAS	PROV,CITY	DETACH
LEXENTRY:	ASTURIË	ASTURIAS	PROV,CITY	DETACH
LEXENTRY:	ASTÚRIAS	ASTURIAS	PROV,CITY	DETACH
LEXENTRY:	AUTOBIA	AUTOBIA	TYPE	DET_SUF
LEXENTRY:	AUTOBIDEA	AUTOBIDEA	TYPE	DET_SUF
LEXENTRY:	AUTOPISTA	AUTOPISTA	TYPE	DET_PRE
LEXENTRY:	AUTOPISTA DE	AUTOPISTA DE	TYPE	DET_PRE
LEXENTRY:	AUTOPISTA DEL	AUTOPISTA DEL	TYPE	DET_PRE
LEXENTRY:	AUTOVIA	AUTOVIA	TYPE	DET_PRE
LEXENTRY:	AUTOVIA DE	AUTOVIA DE	TYPE	DET_PRE
LEXENTRY:	AUZUNEA	AUZUNEA	TYPE	DET_SUF
LEXENTRY:	AV	AVENIDA	TYPE	DET_PRE
LEXENTRY:	AV DA	AVENIDA DA	TYPE	DET_PRE
LEXENTRY:	AV DAS	AVENIDA DAS	TYPE	DET_PRE
LEXENTRY:	AV DE	AVENIDA DE	TYPE	DET_PRE
LEXENTRY:	AV DE LA	AVENIDA DE LA	TYPE	DET_PRE
LEXENTRY:	AV DE LAS	AVENIDA DE LAS	TYPE	DET_PRE
LEXENTRY:	AV DE LOS	AVENIDA DE LOS	TYPE	DET_PRE
LEXENTRY:	AV DEL	AVENIDA DEL	TYPE	DET_PRE
LEXENTRY:	AV DO	AVENIDA DO	TYPE	DET_PRE
LEXENTRY:	AV.	AVENIDA	TYPE	DET_PRE
LEXENTRY:	AV. DA	AVENIDA DA	TYPE	DET_PRE
LEXENTRY:	AV. DAS	AVENIDA DAS	TYPE	DET_PRE
LEXENTRY:	AV. DE	AVENIDA DE	TYPE	DET_PRE
LEXENTRY:	AV. DE LA	AVENIDA DE LA	TYPE	DET_PRE
LEXENTRY:	AV. DE LAS	AVENIDA DE LAS	TYPE	DET_PRE
LEXENTRY:	AV. DE LOS	AVENIDA DE LOS	TYPE	DET_PRE
LEXENTRY:	AV. DEL	AVENIDA DEL	TYPE	DET_PRE
LEXENTRY:	AV. DO	AVENIDA DO	TYPE	DET_PRE
LEXENTRY:	AVDA	AVENIDA	TYPE	DET_PRE
LEXENTRY:	AVDA DA	AVENIDA DA	TYPE	DET_PRE
";
"LEXENTRY:	AVDA DAS	AVENIDA DAS	TYPE	DET_PRE
LEXENTRY:	AVDA DE	AVENIDA DE	TYPE	DET_PRE
LEXENTRY:	AVDA DE LA	AVENIDA DE LA	TYPE	DET_PRE
LEXENTRY:	AVDA DE LAS	AVENIDA DE LAS	TYPE	DET_PRE
LEXENTRY:	AVDA DE LOS	AVENIDA DE LOS	TYPE	DET_PRE
LEXENTRY:	AVDA DEL	AVENIDA DEL	TYPE	DET_PRE
LEXENTRY:	AVDA DO	AVENIDA DO	TYPE	DET_PRE
LEXENTRY:	AVDA.	AVENIDA	TYPE	DET_PRE
LEXENTRY:	AVDA. DA	AVENIDA DA	TYPE	DET_PRE
LEXENTRY:	AVDA. DAS	AVENIDA DAS	TYPE	DET_PRE
LEXENTRY:	AVDA. DE	AVENIDA DE	TYPE	DET_PRE
LEXENTRY:	AVDA. DE LA	AVENIDA DE LA	TYPE	DET_PRE
LEXENTRY:	AVDA. DE LAS	AVENIDA DE LAS	TYPE	DET_PRE
LEXENTRY:	AVDA. DE LOS	AVENIDA DE LOS	TYPE	DET_PRE
LEXENTRY:	AVDA. DEL	AVENIDA DEL	TYPE	DET_PRE
LEXENTRY:	AVDA. DO	AVENIDA DO	TYPE	DET_PRE
LEXENTRY:	AVENIDA	AVENIDA	TYPE	DET_PRE
LEXENTRY:	AVENIDA DA	AVENIDA DA	TYPE	DET_PRE
LEXENTRY:	AVENIDA DAS	AVENIDA DAS	TYPE	DET_PRE
LEXENTRY:	AVENIDA DE	AVENIDA DE	TYPE	DET_PRE
LEXENTRY:	AVENIDA DE LA	AVENIDA DE LA	TYPE	DET_PRE
LEXENTRY:	AVENIDA DE LAS	AVENIDA DE LAS	TYPE	DET_PRE
LEXENTRY:	AVENIDA DE LOS	AVENIDA DE LOS	TYPE	DET_PRE
LEXENTRY:	AVENIDA DEL	AVENIDA DEL	TYPE	DET_PRE
LEXENTRY:	AVENIDA DO	AVENIDA DO	TYPE	DET_PRE
LEXENTRY:	AVILA	ÁVILA	PROV,CITY	DETACH
LEXENTRY:	AVINGUDA	AVINGUDA	TYPE	DET_PRE
LEXENTRY:	AVINGUDA D'	AVINGUDA D'	TYPE	ATT_PRE
LEXENTRY:	AVINGUDA DE	AVINGUDA DE	TYPE	DET_PRE
LEXENTRY:	AVINGUDA DE L'	AVINGUDA DE L'	TYPE	ATT_PRE
LEXENTRY:	AVINGUDA DE LA	AVINGUDA DE LA	TYPE	DET_PRE
LEXENTRY:	AVINGUDA DE LES	AVINGUDA DE LES	TYPE	DET_PRE
LEXENTRY:	AVINGUDA DEL	AVINGUDA DEL	TYPE	DET_PRE
LEXENTRY:	AVINGUDA DELS	AVINGUDA DELS	TYPE	DET_PRE
LEXENTRY:	BADAJOZ	BADAJOZ	PROV,CITY	DETACH
LEXENTRY:	BAIXADA DE	BAIXADA DE	TYPE	DET_PRE
LEXENTRY:	BAIXADA DE LA	BAIXADA DE LA	TYPE	DET_PRE
LEXENTRY:	BAIXADA DEL	BAIXADA DEL	TYPE	DET_PRE
LEXENTRY:	BALEAREN	BALEAREN	PROV,CITY	DETACH
LEXENTRY:	BALEARENE	BALEAREN	PROV,CITY	DETACH
LEXENTRY:	BALEARERNA	BALEAREN	PROV,CITY	DETACH
LEXENTRY:	BALEARES	BALEAREN	PROV,CITY	DETACH
LEXENTRY:	BALEARIC ISLANDS	BALEAREN	PROV,CITY	DETACH
LEXENTRY:	BALEARISCHE INSELN	BALEAREN	PROV,CITY	DETACH
LEXENTRY:	BARCELLONA	BARCELONA	PROV,CITY	DETACH
LEXENTRY:	BARCELONA	BARCELONA	PROV,CITY	DETACH
LEXENTRY:	BARCELONE	BARCELONA	PROV,CITY	DETACH
LEXENTRY:	BARRI	BARRI	TYPE	DET_PRE
LEXENTRY:	BARRIADA	BARRIADA	TYPE	DET_PRE
LEXENTRY:	BARRIADA DE LA	BARRIADA DE LA	TYPE	DET_PRE
LEXENTRY:	BARRIO	BARRIO	WORD,TYPE	DET_PRE
LEXENTRY:	BARRIO DE	BARRIO DE	WORD,TYPE	DET_PRE
LEXENTRY:	BARRIO DE LA	BARRIO DE LA	WORD,TYPE	DET_PRE
";
"LEXENTRY:	BARRIO DE LAS	BARRIO DE LAS	WORD,TYPE	DET_PRE
LEXENTRY:	BARRIO DEL	BARRIO DEL	WORD,TYPE	DET_PRE
LEXENTRY:	BIDARIAK	BIDARIAK	TYPE	DET_SUF
LEXENTRY:	BIDEA	BIDEA	TYPE	DET_SUF
LEXENTRY:	BIZKAIA	VIZCAYA	PROV,CITY	DETACH
LEXENTRY:	BLOQUE	BLOQUE	UNITH	DETACH
LEXENTRY:	BURGOS	BURGOS	PROV,CITY	DETACH
LEXENTRY:	C/	CALLE	TYPE	DET_PRE
LEXENTRY:	C/ DE	CALLE DE	TYPE	DET_PRE
LEXENTRY:	C/ DE LA	CALLE DE LA	TYPE	DET_PRE
LEXENTRY:	C/ DE LAS	CALLE DE LAS	TYPE	DET_PRE
LEXENTRY:	C/ DE LOS	CALLE DE LOS	TYPE	DET_PRE
LEXENTRY:	C/ DEL	CALLE DEL	TYPE	DET_PRE
LEXENTRY:	C/ PARTICULAR	CALLE PARTICULAR	TYPE	DET_PRE
LEXENTRY:	C/ PARTICULAR DE	CALLE PARTICULAR DE	TYPE	DET_PRE
LEXENTRY:	C/ PARTICULAR DE LA	CALLE PARTICULAR DE LA	TYPE	DET_PRE
LEXENTRY:	C/ PARTICULAR DEL	CALLE PARTICULAR DEL	TYPE	DET_PRE
LEXENTRY:	CADICE	CÁDIZ	PROV,CITY	DETACH
LEXENTRY:	CADIX	CÁDIZ	PROV,CITY	DETACH
LEXENTRY:	CADIZ	CÁDIZ	PROV,CITY	DETACH
LEXENTRY:	CALEXÓN	CALEXÓN	TYPE	DET_PRE
LEXENTRY:	CALEXÓN DE	CALEXÓN DE	TYPE	DET_PRE
LEXENTRY:	CALEXÓN DO	CALEXÓN DO	TYPE	DET_PRE
LEXENTRY:	CALEXÓN DOS	CALEXÓN DOS	TYPE	DET_PRE
LEXENTRY:	CALLE	CALLE	TYPE	DET_PRE
LEXENTRY:	CALLE DE	CALLE DE	TYPE	DET_PRE
LEXENTRY:	CALLE DE LA	CALLE DE LA	TYPE	DET_PRE
LEXENTRY:	CALLE DE LAS	CALLE DE LAS	TYPE	DET_PRE
LEXENTRY:	CALLE DE LOS	CALLE DE LOS	TYPE	DET_PRE
LEXENTRY:	CALLE DEL	CALLE DEL	TYPE	DET_PRE
LEXENTRY:	CALLE PARTICULAR	CALLE PARTICULAR	TYPE	DET_PRE
LEXENTRY:	CALLE PARTICULAR DE	CALLE PARTICULAR DE	TYPE	DET_PRE
LEXENTRY:	CALLE PARTICULAR DE LA	CALLE PARTICULAR DE LA	TYPE	DET_PRE
LEXENTRY:	CALLE PARTICULAR DEL	CALLE PARTICULAR DEL	TYPE	DET_PRE
LEXENTRY:	CALLEJÓN	CALLEJÓN	TYPE	DET_PRE
LEXENTRY:	CALLEJÓN DE	CALLEJÓN DE	TYPE	DET_PRE
LEXENTRY:	CALLEJÓN DE LA	CALLEJÓN DE LA	TYPE	DET_PRE
LEXENTRY:	CALLEJÓN DE LOS	CALLEJÓN DE LOS	TYPE	DET_PRE
LEXENTRY:	CALLEJÓN DEL	CALLEJÓN DEL	TYPE	DET_PRE
LEXENTRY:	CAMINO	CAMINO	TYPE	DET_PRE
LEXENTRY:	CAMINO DE	CAMINO DE	TYPE	DET_PRE
LEXENTRY:	CAMINO DE LA	CAMINO DE LA	TYPE	DET_PRE
LEXENTRY:	CAMINO DE LAS	CAMINO DE LAS	TYPE	DET_PRE
LEXENTRY:	CAMINO DE LOS	CAMINO DE LOS	TYPE	DET_PRE
LEXENTRY:	CAMINO DEL	CAMINO DEL	TYPE	DET_PRE
LEXENTRY:	CAMIÑO	CAMIÑO	TYPE	DET_PRE
LEXENTRY:	CAMIÑO DA	CAMIÑO DA	TYPE	DET_PRE
LEXENTRY:	CAMIÑO DAS	CAMIÑO DAS	TYPE	DET_PRE
LEXENTRY:	CAMIÑO DE	CAMIÑO DE	TYPE	DET_PRE
LEXENTRY:	CAMIÑO DO	CAMIÑO DO	TYPE	DET_PRE
LEXENTRY:	CAMIÑO DOS	CAMIÑO DOS	TYPE	DET_PRE
LEXENTRY:	CAMPA	CAMPA	TYPE	DET_PRE
LEXENTRY:	CAMPA DEL	CAMPA DEL	TYPE	DET_PRE
LEXENTRY:	CAMÍ	CAMÍ	TYPE	DET_PRE
";
"LEXENTRY:	CAMÍ DE	CAMÍ DE	TYPE	DET_PRE
LEXENTRY:	CAMÍ DE L'	CAMÍ DE L'	TYPE	ATT_PRE
LEXENTRY:	CAMÍ DE LA	CAMÍ DE LA	TYPE	DET_PRE
LEXENTRY:	CAMÍ DEL	CAMÍ DEL	TYPE	DET_PRE
LEXENTRY:	CAMÍ DELS	CAMÍ DELS	TYPE	DET_PRE
LEXENTRY:	CANELLA	CANELLA	TYPE	DET_PRE
LEXENTRY:	CANELLA DAS	CANELLA DAS	TYPE	DET_PRE
LEXENTRY:	CANTABRIA	CANTABRIA	PROV,CITY	DETACH
LEXENTRY:	CANTABRIQUE	CANTABRIA	PROV,CITY	DETACH
LEXENTRY:	CANTÁBRIA	CANTABRIA	PROV,CITY	DETACH
LEXENTRY:	CARRER	CARRER	TYPE	DET_PRE
LEXENTRY:	CARRER D'	CARRER D'	TYPE	ATT_PRE
LEXENTRY:	CARRER D'EN	CARRER D'EN	TYPE	DET_PRE
LEXENTRY:	CARRER DE	CARRER DE	TYPE	DET_PRE
LEXENTRY:	CARRER DE L'	CARRER DE L'	TYPE	ATT_PRE
LEXENTRY:	CARRER DE LA	CARRER DE LA	TYPE	DET_PRE
LEXENTRY:	CARRER DE LES	CARRER DE LES	TYPE	DET_PRE
LEXENTRY:	CARRER DE N'	CARRER DE N'	TYPE	ATT_PRE
LEXENTRY:	CARRER DEL	CARRER DEL	TYPE	DET_PRE
LEXENTRY:	CARRER DELS	CARRER DELS	TYPE	DET_PRE
LEXENTRY:	CARRERÓ DE	CARRERÓ DE	TYPE	DET_PRE
LEXENTRY:	CARRERÓ DE LES	CARRERÓ DE LES	TYPE	DET_PRE
LEXENTRY:	CARRETERA	CARRETERA	TYPE	DET_PRE
LEXENTRY:	CARRETERA A	CARRETERA A	TYPE	DET_PRE
LEXENTRY:	CARRETERA D'	CARRETERA D'	TYPE	ATT_PRE
LEXENTRY:	CARRETERA DE	CARRETERA DE	TYPE	DET_PRE
LEXENTRY:	CARRETERA DE L'	CARRETERA DE L'	TYPE	ATT_PRE
LEXENTRY:	CARRETERA DE LA	CARRETERA DE LA	TYPE	DET_PRE
LEXENTRY:	CARRETERA DE LAS	CARRETERA DE LAS	TYPE	DET_PRE
LEXENTRY:	CARRETERA DE LES	CARRETERA DE LES	TYPE	DET_PRE
LEXENTRY:	CARRETERA DE LOS	CARRETERA DE LOS	TYPE	DET_PRE
LEXENTRY:	CARRETERA DEL	CARRETERA DEL	TYPE	DET_PRE
LEXENTRY:	CARRETERA DELS	CARRETERA DELS	TYPE	DET_PRE
LEXENTRY:	CASTELLO	CASTELLÓN	PROV,CITY	DETACH
LEXENTRY:	CASTELLON	CASTELLÓN	PROV,CITY	DETACH
LEXENTRY:	CASTELLÓ	CASTELLÓN	PROV,CITY	DETACH
LEXENTRY:	CASTELLÓN	CASTELLÓN	PROV,CITY	DETACH
LEXENTRY:	CEUTA	CEUTA	PROV,CITY	DETACH
LEXENTRY:	CIDADE REAL	CIUDAD REAL	PROV,CITY	DETACH
LEXENTRY:	CIUDAD REAL	CIUDAD REAL	PROV,CITY	DETACH
LEXENTRY:	CJ	CALLEJÓN	TYPE	DET_PRE
LEXENTRY:	CJ DE	CALLEJÓN DE	TYPE	DET_PRE
LEXENTRY:	CJ DE LA	CALLEJÓN DE LA	TYPE	DET_PRE
LEXENTRY:	CJ DE LOS	CALLEJÓN DE LOS	TYPE	DET_PRE
LEXENTRY:	CJ DEL	CALLEJÓN DEL	TYPE	DET_PRE
LEXENTRY:	CJ.	CALLEJÓN	TYPE	DET_PRE
LEXENTRY:	CJ. DE	CALLEJÓN DE	TYPE	DET_PRE
LEXENTRY:	CJ. DE LA	CALLEJÓN DE LA	TYPE	DET_PRE
LEXENTRY:	CJ. DE LOS	CALLEJÓN DE LOS	TYPE	DET_PRE
LEXENTRY:	CJ. DEL	CALLEJÓN DEL	TYPE	DET_PRE
LEXENTRY:	CM	CAMINO	TYPE	DET_PRE
LEXENTRY:	CM DE	CAMINO DE	TYPE	DET_PRE
LEXENTRY:	CM DE LA	CAMINO DE LA	TYPE	DET_PRE
LEXENTRY:	CM DE LAS	CAMINO DE LAS	TYPE	DET_PRE
";
"LEXENTRY:	CM DE LOS	CAMINO DE LOS	TYPE	DET_PRE
LEXENTRY:	CM DEL	CAMINO DEL	TYPE	DET_PRE
LEXENTRY:	CM.	CAMINO	TYPE	DET_PRE
LEXENTRY:	CM. DE	CAMINO DE	TYPE	DET_PRE
LEXENTRY:	CM. DE LA	CAMINO DE LA	TYPE	DET_PRE
LEXENTRY:	CM. DE LAS	CAMINO DE LAS	TYPE	DET_PRE
LEXENTRY:	CM. DE LOS	CAMINO DE LOS	TYPE	DET_PRE
LEXENTRY:	CM. DEL	CAMINO DEL	TYPE	DET_PRE
LEXENTRY:	COMERCIANTE	COMERCIANTE	PLACEN	DETACH
LEXENTRY:	COOPERATIVA	COOPERATIVA	PLACEN	DETACH
LEXENTRY:	CORDOBA	CÓRDOBA	PROV,CITY	DETACH
LEXENTRY:	CORDOUE	CÓRDOBA	PROV,CITY	DETACH
LEXENTRY:	CORDOVA	CÓRDOBA	PROV,CITY	DETACH
LEXENTRY:	CORUNNA	LA CORUÑA	PROV,CITY	DETACH
LEXENTRY:	COSTA	COSTA	TYPE	DET_PRE
LEXENTRY:	COSTA DE	COSTA DE	TYPE	DET_PRE
LEXENTRY:	COSTA DO	COSTA DO	TYPE	DET_PRE
LEXENTRY:	CR	CARRETERA	TYPE	DET_PRE
LEXENTRY:	CR A	CARRETERA A	TYPE	DET_PRE
LEXENTRY:	CR DE	CARRETERA DE	TYPE	DET_PRE
LEXENTRY:	CR DE LA	CARRETERA DE LA	TYPE	DET_PRE
LEXENTRY:	CR DE LAS	CARRETERA DE LAS	TYPE	DET_PRE
LEXENTRY:	CR DE LES	CARRETERA DE LES	TYPE	DET_PRE
LEXENTRY:	CR DE LOS	CARRETERA DE LOS	TYPE	DET_PRE
LEXENTRY:	CR DEL	CARRETERA DEL	TYPE	DET_PRE
LEXENTRY:	CR DELS	CARRETERA DELS	TYPE	DET_PRE
LEXENTRY:	CR.	CARRETERA	TYPE	DET_PRE
LEXENTRY:	CR. A	CARRETERA A	TYPE	DET_PRE
LEXENTRY:	CR. DE	CARRETERA DE	TYPE	DET_PRE
LEXENTRY:	CR. DE LA	CARRETERA DE LA	TYPE	DET_PRE
LEXENTRY:	CR. DE LAS	CARRETERA DE LAS	TYPE	DET_PRE
LEXENTRY:	CR. DE LES	CARRETERA DE LES	TYPE	DET_PRE
LEXENTRY:	CR. DE LOS	CARRETERA DE LOS	TYPE	DET_PRE
LEXENTRY:	CR. DEL	CARRETERA DEL	TYPE	DET_PRE
LEXENTRY:	CR. DELS	CARRETERA DELS	TYPE	DET_PRE
LEXENTRY:	CTE	CARRETERA	TYPE	DET_PRE
LEXENTRY:	CTE A	CARRETERA A	TYPE	DET_PRE
LEXENTRY:	CTE DE	CARRETERA DE	TYPE	DET_PRE
LEXENTRY:	CTE DE LA	CARRETERA DE LA	TYPE	DET_PRE
LEXENTRY:	CTE DE LAS	CARRETERA DE LAS	TYPE	DET_PRE
LEXENTRY:	CTE DE LES	CARRETERA DE LES	TYPE	DET_PRE
LEXENTRY:	CTE DE LOS	CARRETERA DE LOS	TYPE	DET_PRE
LEXENTRY:	CTE DEL	CARRETERA DEL	TYPE	DET_PRE
LEXENTRY:	CTE DELS	CARRETERA DELS	TYPE	DET_PRE
LEXENTRY:	CTE.	CARRETERA	TYPE	DET_PRE
LEXENTRY:	CTE.	CARRETERA DE LOS	TYPE	DET_PRE
LEXENTRY:	CTE. A	CARRETERA A	TYPE	DET_PRE
LEXENTRY:	CTE. DE	CARRETERA DE	TYPE	DET_PRE
LEXENTRY:	CTE. DE LA	CARRETERA DE LA	TYPE	DET_PRE
LEXENTRY:	CTE. DE LAS	CARRETERA DE LAS	TYPE	DET_PRE
LEXENTRY:	CTE. DE LES	CARRETERA DE LES	TYPE	DET_PRE
LEXENTRY:	CTE. DEL	CARRETERA DEL	TYPE	DET_PRE
LEXENTRY:	CTE. DELS	CARRETERA DELS	TYPE	DET_PRE
LEXENTRY:	CTRA	CARRETERA	TYPE	DET_PRE
LEXENTRY:	CTRA A	CARRETERA A	TYPE	DET_PRE
";
"LEXENTRY:	CTRA DE	CARRETERA DE	TYPE	DET_PRE
LEXENTRY:	CTRA DE LA	CARRETERA DE LA	TYPE	DET_PRE
LEXENTRY:	CTRA DE LAS	CARRETERA DE LAS	TYPE	DET_PRE
LEXENTRY:	CTRA DE LES	CARRETERA DE LES	TYPE	DET_PRE
LEXENTRY:	CTRA DE LOS	CARRETERA DE LOS	TYPE	DET_PRE
LEXENTRY:	CTRA DEL	CARRETERA DEL	TYPE	DET_PRE
LEXENTRY:	CTRA DELS	CARRETERA DELS	TYPE	DET_PRE
LEXENTRY:	CTRA.	CARRETERA	TYPE	DET_PRE
LEXENTRY:	CTRA. A	CARRETERA A	TYPE	DET_PRE
LEXENTRY:	CTRA. DE	CARRETERA DE	TYPE	DET_PRE
LEXENTRY:	CTRA. DE LA	CARRETERA DE LA	TYPE	DET_PRE
LEXENTRY:	CTRA. DE LAS	CARRETERA DE LAS	TYPE	DET_PRE
LEXENTRY:	CTRA. DE LES	CARRETERA DE LES	TYPE	DET_PRE
LEXENTRY:	CTRA. DE LOS	CARRETERA DE LOS	TYPE	DET_PRE
LEXENTRY:	CTRA. DEL	CARRETERA DEL	TYPE	DET_PRE
LEXENTRY:	CTRA. DELS	CARRETERA DELS	TYPE	DET_PRE
LEXENTRY:	CUENCA	CUENCA	PROV,CITY	DETACH
LEXENTRY:	CUESTA	CUESTA	TYPE	DET_PRE
LEXENTRY:	CUESTA DE	CUESTA DE	TYPE	DET_PRE
LEXENTRY:	CUESTA DE LA	CUESTA DE LA	TYPE	DET_PRE
LEXENTRY:	CUESTA DE LAS	CUESTA DE LAS	TYPE	DET_PRE
LEXENTRY:	CUESTA DE LOS	CUESTA DE LOS	TYPE	DET_PRE
LEXENTRY:	CUESTA DEL	CUESTA DEL	TYPE	DET_PRE
LEXENTRY:	CURUNHA	LA CORUÑA	PROV,CITY	DETACH
LEXENTRY:	CÁCERES	CÁCERES	PROV,CITY	DETACH
LEXENTRY:	CÁDIS	CÁDIZ	PROV,CITY	DETACH
LEXENTRY:	CÁDIZ	CÁDIZ	PROV,CITY	DETACH
LEXENTRY:	CÓRDOBA	CÓRDOBA	PROV,CITY	DETACH
LEXENTRY:	DISTRIBUIDOR	DISTRIBUIDOR	TYPE	DET_PRE
LEXENTRY:	EDIFICIO	EDIFICIO	PLACEN	DET_PRE
LEXENTRY:	ERREPIDEA	ERREPIDEA	TYPE	DET_SUF
LEXENTRY:	ERRIBERA	ERRIBERA	TYPE	DET_SUF
LEXENTRY:	ES	SPAIN	NATION	DETACH
LEXENTRY:	ESC	ESC	UNITH	DETACH
LEXENTRY:	ESCALA DE LA	ESCALA DE LA	TYPE	DET_PRE
LEXENTRY:	ESCALES DE	ESCALES DE	TYPE	DET_PRE
LEXENTRY:	ESCALES DE LA	ESCALES DE LA	TYPE	DET_PRE
LEXENTRY:	ESP	SPAIN	NATION	DETACH
LEXENTRY:	ESPAGNE	SPAIN	NATION	DETACH
LEXENTRY:	ESPANHA	SPAIN	NATION	DETACH
LEXENTRY:	ESPANJA	SPAIN	NATION	DETACH
LEXENTRY:	ESPAÑA	SPAIN	NATION	DETACH
LEXENTRY:	ESTARDA	ESTARDA	TYPE	DET_SUF
LEXENTRY:	ESTRADA	ESTRADA	TYPE	DET_PRE
LEXENTRY:	ESTRADA A	ESTRADA A	TYPE	DET_PRE
LEXENTRY:	ESTRADA DA	ESTRADA DA	TYPE	DET_PRE
LEXENTRY:	ESTRADA DAS	ESTRADA DAS	TYPE	DET_PRE
LEXENTRY:	ESTRADA DE	ESTRADA DE	TYPE	DET_PRE
LEXENTRY:	ESTRADA DO	ESTRADA DO	TYPE	DET_PRE
LEXENTRY:	ETORBIDEA	ETORBIDEA	TYPE	DET_SUF
LEXENTRY:	ETXALDEA	ETXALDEA	TYPE	DET_SUF
LEXENTRY:	FUNDACION	FUNDACION	PLACEN	DETACH
LEXENTRY:	G.	GLORIETA	TYPE	DET_PRE
LEXENTRY:	G. DE	GLORIETA DE	TYPE	DET_PRE
LEXENTRY:	G. DE LA	GLORIETA DE LA	TYPE	DET_PRE
LEXENTRY:	G. DE LAS	GLORIETA DE LAS	TYPE	DET_PRE
";
"LEXENTRY:	G. DE LOS	GLORIETA DE LOS	TYPE	DET_PRE
LEXENTRY:	G. DEL	GLORIETA DEL	TYPE	DET_PRE
LEXENTRY:	GERONA	GERONA	PROV,CITY	DETACH
LEXENTRY:	GIPUZKOA	GUIPÚZCOA	PROV,CITY	DETACH
LEXENTRY:	GIRONA	GERONA	PROV,CITY	DETACH
LEXENTRY:	GLORIETA	GLORIETA	TYPE	DET_PRE
LEXENTRY:	GLORIETA DE	GLORIETA DE	TYPE	DET_PRE
LEXENTRY:	GLORIETA DE LA	GLORIETA DE LA	TYPE	DET_PRE
LEXENTRY:	GLORIETA DE LAS	GLORIETA DE LAS	TYPE	DET_PRE
LEXENTRY:	GLORIETA DE LOS	GLORIETA DE LOS	TYPE	DET_PRE
LEXENTRY:	GLORIETA DEL	GLORIETA DEL	TYPE	DET_PRE
LEXENTRY:	GRAN VIA	GRAN VIA	TYPE	DET_PRE
LEXENTRY:	GRAN VIA DE	GRAN VIA DE	TYPE	DET_PRE
LEXENTRY:	GRAN VÍA	GRAN VÍA	TYPE	DET_PRE
LEXENTRY:	GRAN VÍA DE	GRAN VÍA DE	TYPE	DET_PRE
LEXENTRY:	GRANADA	GRANADA	PROV,CITY	DETACH
LEXENTRY:	GRENADE	GRANADA	PROV,CITY	DETACH
LEXENTRY:	GRUPO	GRUPO	TYPE	DET_PRE
LEXENTRY:	GRUPO DE	GRUPO DE	TYPE	DET_PRE
LEXENTRY:	GRUPO DE LA	GRUPO DE LA	TYPE	DET_PRE
LEXENTRY:	GRUPO DEL	GRUPO DEL	TYPE	DET_PRE
LEXENTRY:	GUADALAJARA	GUADALAJARA	PROV,CITY	DETACH
LEXENTRY:	GUIPÚZCOA	GUIPÚZCOA	PROV,CITY	DETACH
LEXENTRY:	GÉRONE	GERONA	PROV,CITY	DETACH
LEXENTRY:	HIRIBIDEA	HIRIBIDEA	TYPE	DET_SUF
LEXENTRY:	HUELVA	HUELVA	PROV,CITY	DETACH
LEXENTRY:	HUESCA	HUESCA	PROV,CITY	DETACH
LEXENTRY:	IBILBIDEA	IBILBIDEA	TYPE	DET_SUF
LEXENTRY:	IBILTOKIA	IBILTOKIA	TYPE	DET_SUF
LEXENTRY:	ILES BALÉARES	BALEAREN	PROV,CITY	DETACH
LEXENTRY:	ILHAS BALEARES	BALEAREN	PROV,CITY	DETACH
LEXENTRY:	ILLES BALEARS	BALEAREN	PROV,CITY	DETACH
LEXENTRY:	INGURUBIDEA	INGURUBIDEA	TYPE	DET_SUF
LEXENTRY:	ISLAS BALEARES	BALEAREN	PROV,CITY	DETACH
LEXENTRY:	ISOLE BALEARI	BALEAREN	PROV,CITY	DETACH
LEXENTRY:	JAEN	JAÉN	PROV,CITY	DETACH
LEXENTRY:	JARDINES DE	JARDINES DE	TYPE	DET_PRE
LEXENTRY:	JARDINS DE	JARDINS DE	TYPE	DET_PRE
LEXENTRY:	JARDINS DEL	JARDINS DEL	TYPE	DET_PRE
LEXENTRY:	JARDÍ DE	JARDÍ DE	TYPE	DET_PRE
LEXENTRY:	JAÉN	JAÉN	PROV,CITY	DETACH
LEXENTRY:	KAIA	KAIA	TYPE	DET_SUF
LEXENTRY:	KALE NAGUSIA	KALE NAGUSIA	TYPE	DET_SUF
LEXENTRY:	KALE PARTIKULARRA	KALE PARTIKULARRA	TYPE	DET_SUF
LEXENTRY:	KALEA	KALEA	TYPE	DET_SUF
LEXENTRY:	KALEITXIA	KALEITXIA	TYPE	DET_SUF
LEXENTRY:	KANTABRIEN	CANTABRIA	PROV,CITY	DETACH
LEXENTRY:	KANTOIA	KANTOIA	TYPE	DET_SUF
LEXENTRY:	KARRIKA	KARRIKA	TYPE	DET_SUF
LEXENTRY:	LA COROGNE	LA CORUÑA	PROV,CITY	DETACH
LEXENTRY:	LA CORUÑA	LA CORUÑA	PROV,CITY	DETACH
LEXENTRY:	LA RIOJA	LA RIOJA	PROV,CITY	DETACH
LEXENTRY:	LANDA	LANDA	TYPE	DET_SUF
LEXENTRY:	LAS PALMAS	LAS PALMAS	PROV,CITY	DETACH
LEXENTRY:	LEON	LEÓN	PROV,CITY	DETACH
";
"LEXENTRY:	LES ASTURIES	ASTURIAS	PROV,CITY	DETACH
LEXENTRY:	LEÓN	LEÓN	PROV,CITY	DETACH
LEXENTRY:	LLEIDA	LÉRIDA	PROV,CITY	DETACH
LEXENTRY:	LORATEGIA	LORATEGIA	TYPE	DET_SUF
LEXENTRY:	LUGO	LUGO	PROV,CITY	DETACH
LEXENTRY:	LÉRIDA	LÉRIDA	PROV,CITY	DETACH
LEXENTRY:	MADRID	MADRID	PROV,CITY	DETACH
LEXENTRY:	MALAGA	MÁLAGA	PROV,CITY	DETACH
LEXENTRY:	MARÍA	MARÍA	WORD	DETACH
LEXENTRY:	MELILLA	MELILLA	PROV,CITY	DETACH
LEXENTRY:	MENDATEA	MENDATEA	TYPE	DET_SUF
LEXENTRY:	MOLL D'	MOLL D'	TYPE	ATT_PRE
LEXENTRY:	MOLL DE	MOLL DE	TYPE	DET_PRE
LEXENTRY:	MOLL DE L'	MOLL DE L'	TYPE	ATT_PRE
LEXENTRY:	MOLL DE LA	MOLL DE LA	TYPE	DET_PRE
LEXENTRY:	MOLL DE LES	MOLL DE LES	TYPE	DET_PRE
LEXENTRY:	MOLL DEL	MOLL DEL	TYPE	DET_PRE
LEXENTRY:	MUELLE	MUELLE	TYPE	DET_PRE
LEXENTRY:	MUELLE DE	MUELLE DE	TYPE	DET_PRE
LEXENTRY:	MUELLE DE LA	MUELLE DE LA	TYPE	DET_PRE
LEXENTRY:	MUELLE DEL	MUELLE DEL	TYPE	DET_PRE
LEXENTRY:	MURCIA	MURCIA	PROV,CITY	DETACH
LEXENTRY:	MURICE	MURCIA	PROV,CITY	DETACH
LEXENTRY:	M°	MARÍA	WORD	DETACH
LEXENTRY:	MÁLAGA	MÁLAGA	PROV,CITY	DETACH
LEXENTRY:	MÚRCIA	MURCIA	PROV,CITY	DETACH
LEXENTRY:	NAFARROA	NAVARRA	PROV,CITY	DETACH
LEXENTRY:	NAVARRA	NAVARRA	PROV,CITY	DETACH
LEXENTRY:	NUDO	NUDO	TYPE	DET_PRE
LEXENTRY:	NUDO DE	NUDO DE	TYPE	DET_PRE
LEXENTRY:	NUS DE LA	NUS DE LA	TYPE	DET_PRE
LEXENTRY:	NUS DEL	NUS DEL	TYPE	DET_PRE
LEXENTRY:	ORENSE	ORENSE	PROV,CITY	DETACH
LEXENTRY:	OURENSE	ORENSE	PROV,CITY	DETACH
LEXENTRY:	OVIEDO	OVIEDO	PROV,CITY	DETACH
LEXENTRY:	P.	PLAZA	TYPE	DET_PRE
LEXENTRY:	P. DE	PLAZA DE	TYPE	DET_PRE
LEXENTRY:	P. DE LA	PLAZA DE LA	TYPE	DET_PRE
LEXENTRY:	P. DE LAS	PLAZA DE LAS	TYPE	DET_PRE
LEXENTRY:	P. DE LOS	PLAZA DE LOS	TYPE	DET_PRE
LEXENTRY:	P. DEL	PLAZA DEL	TYPE	DET_PRE
LEXENTRY:	P.O	PASEO	TYPE	DET_PRE
LEXENTRY:	P.O DA	PASEO DA	TYPE	DET_PRE
LEXENTRY:	P.O DAS	PASEO DAS	TYPE	DET_PRE
LEXENTRY:	P.O DE	PASEO DE	TYPE	DET_PRE
LEXENTRY:	P.O DE LA	PASEO DE LA	TYPE	DET_PRE
LEXENTRY:	P.O DE LAS	PASEO DE LAS	TYPE	DET_PRE
LEXENTRY:	P.O DE LOS	PASEO DE LOS	TYPE	DET_PRE
LEXENTRY:	P.O DEL	PASEO DEL	TYPE	DET_PRE
LEXENTRY:	P.O DO	PASEO DO	TYPE	DET_PRE
LEXENTRY:	P.O DOS	PASEO DOS	TYPE	DET_PRE
LEXENTRY:	PALENCIA	PALENCIA	PROV,CITY	DETACH
LEXENTRY:	PALMA DE MALLORCA	PALMA DE MALLORCA	PROV,CITY	DETACH
LEXENTRY:	PALÊNCIA	PALENCIA	PROV,CITY	DETACH
LEXENTRY:	PARC	PARC	TYPE	DET_PRE
LEXENTRY:	PARC DE LA	PARC DE LA	TYPE	DET_PRE
LEXENTRY:	PARC DE LES	PARC DE LES	TYPE	DET_PRE
LEXENTRY:	PARC DEL	PARC DEL	TYPE	DET_PRE
LEXENTRY:	PARC DELS	PARC DELS	TYPE	DET_PRE
LEXENTRY:	PASADIZO	PASADIZO	TYPE	DET_PRE
";
"LEXENTRY:	PASADIZO DE	PASADIZO DE	TYPE	DET_PRE
LEXENTRY:	PASADIZO DEL	PASADIZO DEL	TYPE	DET_PRE
LEXENTRY:	PASAIA	PASAIA	TYPE	DET_SUF
LEXENTRY:	PASAJE	PASAJE	TYPE	DET_PRE
LEXENTRY:	PASAJE DE	PASAJE DE	TYPE	DET_PRE
LEXENTRY:	PASAJE DE LA	PASAJE DE LA	TYPE	DET_PRE
LEXENTRY:	PASAJE DE LAS	PASAJE DE LAS	TYPE	DET_PRE
LEXENTRY:	PASAJE DE LOS	PASAJE DE LOS	TYPE	DET_PRE
LEXENTRY:	PASAJE DEL	PASAJE DEL	TYPE	DET_PRE
LEXENTRY:	PASAXE	PASAXE	TYPE	DET_PRE
LEXENTRY:	PASEALEKUA	PASEALEKUA	TYPE	DET_SUF
LEXENTRY:	PASEO	PASEO	TYPE	DET_PRE
LEXENTRY:	PASEO DA	PASEO DA	TYPE	DET_PRE
LEXENTRY:	PASEO DAS	PASEO DAS	TYPE	DET_PRE
LEXENTRY:	PASEO DE	PASEO DE	TYPE	DET_PRE
LEXENTRY:	PASEO DE LA	PASEO DE LA	TYPE	DET_PRE
LEXENTRY:	PASEO DE LAS	PASEO DE LAS	TYPE	DET_PRE
LEXENTRY:	PASEO DE LOS	PASEO DE LOS	TYPE	DET_PRE
LEXENTRY:	PASEO DEL	PASEO DEL	TYPE	DET_PRE
LEXENTRY:	PASEO DO	PASEO DO	TYPE	DET_PRE
LEXENTRY:	PASEO DOS	PASEO DOS	TYPE	DET_PRE
LEXENTRY:	PASSADÍS DE L'	PASSADÍS DE L'	TYPE	ATT_PRE
LEXENTRY:	PASSATGE	PASSATGE	TYPE	DET_PRE
LEXENTRY:	PASSATGE D'	PASSATGE D'	TYPE	ATT_PRE
LEXENTRY:	PASSATGE D'EN	PASSATGE D'EN	TYPE	DET_PRE
LEXENTRY:	PASSATGE DE	PASSATGE DE	TYPE	DET_PRE
LEXENTRY:	PASSATGE DE L'	PASSATGE DE L'	TYPE	ATT_PRE
LEXENTRY:	PASSATGE DE LA	PASSATGE DE LA	TYPE	DET_PRE
LEXENTRY:	PASSATGE DEL	PASSATGE DEL	TYPE	DET_PRE
LEXENTRY:	PASSATGE DELS	PASSATGE DELS	TYPE	DET_PRE
LEXENTRY:	PASSEIG	PASSEIG	TYPE	DET_PRE
LEXENTRY:	PASSEIG D'	PASSEIG D'	TYPE	ATT_PRE
LEXENTRY:	PASSEIG DE	PASSEIG DE	TYPE	DET_PRE
LEXENTRY:	PASSEIG DE L'	PASSEIG DE L'	TYPE	ATT_PRE
LEXENTRY:	PASSEIG DE LA	PASSEIG DE LA	TYPE	DET_PRE
LEXENTRY:	PASSEIG DE LES	PASSEIG DE LES	TYPE	DET_PRE
LEXENTRY:	PASSEIG DEL	PASSEIG DEL	TYPE	DET_PRE
LEXENTRY:	PASSEIG DELS	PASSEIG DELS	TYPE	DET_PRE
LEXENTRY:	PEIRAO	PEIRAO	TYPE	DET_PRE
LEXENTRY:	PEIRAO DE	PEIRAO DE	TYPE	DET_PRE
LEXENTRY:	PLACETA	PLACETA	TYPE	DET_PRE
LEXENTRY:	PLACETA D'EN	PLACETA D'EN	TYPE	DET_PRE
LEXENTRY:	PLACETA DE	PLACETA DE	TYPE	DET_PRE
LEXENTRY:	PLACETA DEL	PLACETA DEL	TYPE	DET_PRE
LEXENTRY:	PLACETA DELS	PLACETA DELS	TYPE	DET_PRE
LEXENTRY:	PLAZA	PLAZA	TYPE	DET_PRE
LEXENTRY:	PLAZA DE	PLAZA DE	TYPE	DET_PRE
LEXENTRY:	PLAZA DE LA	PLAZA DE LA	TYPE	DET_PRE
LEXENTRY:	PLAZA DE LAS	PLAZA DE LAS	TYPE	DET_PRE
LEXENTRY:	PLAZA DE LOS	PLAZA DE LOS	TYPE	DET_PRE
LEXENTRY:	PLAZA DEL	PLAZA DEL	TYPE	DET_PRE
LEXENTRY:	PLAZATXOA	PLAZATXOA	TYPE	DET_SUF
LEXENTRY:	PLAZOLETA DEL	PLAZOLETA DEL	TYPE	DET_PRE
LEXENTRY:	PLAÇA	PLAÇA	TYPE	DET_PRE
LEXENTRY:	PLAÇA 	PLAÇA	TYPE	DET_PRE
";
"LEXENTRY:	PLAÇA D'	PLAÇA D'	TYPE	ATT_PRE
LEXENTRY:	PLAÇA D'EN	PLAÇA D'EN	TYPE	DET_PRE
LEXENTRY:	PLAÇA DE	PLAÇA DE	TYPE	DET_PRE
LEXENTRY:	PLAÇA DE L'	PLAÇA DE L'	TYPE	ATT_PRE
LEXENTRY:	PLAÇA DE LA	PLAÇA DE LA	TYPE	DET_PRE
LEXENTRY:	PLAÇA DE LES	PLAÇA DE LES	TYPE	DET_PRE
LEXENTRY:	PLAÇA DEL	PLAÇA DEL	TYPE	DET_PRE
LEXENTRY:	PLAÇA DELS	PLAÇA DELS	TYPE	DET_PRE
LEXENTRY:	PLZ.	PLAZA	TYPE	DET_PRE
LEXENTRY:	PLZ. DE	PLAZA DE	TYPE	DET_PRE
LEXENTRY:	PLZ. DE LA	PLAZA DE LA	TYPE	DET_PRE
LEXENTRY:	PLZ. DEL	PLAZA DEL	TYPE	DET_PRE
LEXENTRY:	PLZ. LAS	PLAZA DE LAS	TYPE	DET_PRE
LEXENTRY:	PLZ. LOS	PLAZA DE LOS	TYPE	DET_PRE
LEXENTRY:	POL.	POLIGONO	WORD	DETACH
LEXENTRY:	POLIGONO	POLIGONO	WORD	DETACH
LEXENTRY:	PONT DE	PONT DE	TYPE	DET_PRE
LEXENTRY:	PONTE	PONTE	TYPE	DET_PRE
LEXENTRY:	PONTE DE	PONTE DE	TYPE	DET_PRE
LEXENTRY:	PONTE DO	PONTE DO	TYPE	DET_PRE
LEXENTRY:	PONTEVEDRA	PONTEVEDRA	PROV,CITY	DETACH
LEXENTRY:	PRACIÑA DAS	PRACIÑA DAS	TYPE	DET_PRE
LEXENTRY:	PRACIÑA DE	PRACIÑA DE	TYPE	DET_PRE
LEXENTRY:	PRAZA	PRAZA	TYPE	DET_PRE
LEXENTRY:	PRAZA DA	PRAZA DA	TYPE	DET_PRE
LEXENTRY:	PRAZA DAS	PRAZA DAS	TYPE	DET_PRE
LEXENTRY:	PRAZA DE	PRAZA DE	TYPE	DET_PRE
LEXENTRY:	PRAZA DO	PRAZA DO	TYPE	DET_PRE
LEXENTRY:	PRAZA DOS	PRAZA DOS	TYPE	DET_PRE
LEXENTRY:	PUENTE	PUENTE	TYPE	DET_PRE
LEXENTRY:	PUENTE DE	PUENTE DE	TYPE	DET_PRE
LEXENTRY:	PUENTE DE LA	PUENTE DE LA	TYPE	DET_PRE
LEXENTRY:	PUENTE DE LOS	PUENTE DE LOS	TYPE	DET_PRE
LEXENTRY:	PUENTE DEL	PUENTE DEL	TYPE	DET_PRE
LEXENTRY:	PUJADA	PUJADA	TYPE	DET_PRE
LEXENTRY:	PZA	PLAZA	TYPE	DET_PRE
LEXENTRY:	PZA DE	PLAZA DE	TYPE	DET_PRE
LEXENTRY:	PZA DE LA	PLAZA DE LA	TYPE	DET_PRE
LEXENTRY:	PZA DEL	PLAZA DEL	TYPE	DET_PRE
LEXENTRY:	PZA LAS	PLAZA DE LAS	TYPE	DET_PRE
LEXENTRY:	PZA LOS	PLAZA DE LOS	TYPE	DET_PRE
LEXENTRY:	PZA.	PLAZA	TYPE	DET_PRE
LEXENTRY:	PZA. DE	PLAZA DE	TYPE	DET_PRE
LEXENTRY:	PZA. DE LA	PLAZA DE LA	TYPE	DET_PRE
LEXENTRY:	PZA. DEL	PLAZA DEL	TYPE	DET_PRE
LEXENTRY:	PZA. LAS	PLAZA DE LAS	TYPE	DET_PRE
LEXENTRY:	PZA. LOS	PLAZA DE LOS	TYPE	DET_PRE
LEXENTRY:	P°	PASEO	TYPE	DET_PRE
LEXENTRY:	P° DA	PASEO DA	TYPE	DET_PRE
LEXENTRY:	P° DAS	PASEO DAS	TYPE	DET_PRE
LEXENTRY:	P° DE	PASEO DE	TYPE	DET_PRE
LEXENTRY:	P° DE LA	PASEO DE LA	TYPE	DET_PRE
LEXENTRY:	P° DE LAS	PASEO DE LAS	TYPE	DET_PRE
LEXENTRY:	P° DE LOS	PASEO DE LOS	TYPE	DET_PRE
LEXENTRY:	P° DEL	PASEO DEL	TYPE	DET_PRE
LEXENTRY:	P° DO	PASEO DO	TYPE	DET_PRE
LEXENTRY:	P° DOS	PASEO DOS	TYPE	DET_PRE
LEXENTRY:	RAMBLA	RAMBLA	TYPE	DET_PRE
LEXENTRY:	RAMBLA D'	RAMBLA D'	TYPE	DET_PRE
";
"LEXENTRY:	RAMBLA D'EN	RAMBLA D'EN	TYPE	DET_PRE
LEXENTRY:	RAMBLA DE	RAMBLA DE	TYPE	DET_PRE
LEXENTRY:	RAMBLA DE LA	RAMBLA DE LA	TYPE	DET_PRE
LEXENTRY:	RAMBLA DE LAS	RAMBLA DE LAS	TYPE	DET_PRE
LEXENTRY:	RAMBLA DEL	RAMBLA DEL	TYPE	DET_PRE
LEXENTRY:	RAMBLA DELS	RAMBLA DELS	TYPE	DET_PRE
LEXENTRY:	RAVAL DE	RAVAL DE	TYPE	DET_PRE
LEXENTRY:	RBLA	RAMBLA	TYPE	DET_PRE
LEXENTRY:	RBLA D'	RAMBLA D'	TYPE	DET_PRE
LEXENTRY:	RBLA D'EN	RAMBLA D'EN	TYPE	DET_PRE
LEXENTRY:	RBLA DE	RAMBLA DE	TYPE	DET_PRE
LEXENTRY:	RBLA DE LA	RAMBLA DE LA	TYPE	DET_PRE
LEXENTRY:	RBLA DE LAS	RAMBLA DE LAS	TYPE	DET_PRE
LEXENTRY:	RBLA DEL	RAMBLA DEL	TYPE	DET_PRE
LEXENTRY:	RBLA DELS	RAMBLA DELS	TYPE	DET_PRE
LEXENTRY:	RBLA.	RAMBLA	TYPE	DET_PRE
LEXENTRY:	RBLA. D'	RAMBLA D'	TYPE	DET_PRE
LEXENTRY:	RBLA. D'EN	RAMBLA D'EN	TYPE	DET_PRE
LEXENTRY:	RBLA. DE	RAMBLA DE	TYPE	DET_PRE
LEXENTRY:	RBLA. DE LA	RAMBLA DE LA	TYPE	DET_PRE
LEXENTRY:	RBLA. DE LAS	RAMBLA DE LAS	TYPE	DET_PRE
LEXENTRY:	RBLA. DEL	RAMBLA DEL	TYPE	DET_PRE
LEXENTRY:	RBLA. DELS	RAMBLA DELS	TYPE	DET_PRE
LEXENTRY:	RD	RONDA	TYPE	DET_PRE
LEXENTRY:	RD DE	RONDA DE	TYPE	DET_PRE
LEXENTRY:	RD DE LA	RONDA DE LA	TYPE	DET_PRE
LEXENTRY:	RD DE LAS	RONDA DE LAS	TYPE	DET_PRE
LEXENTRY:	RD DE LOS	RONDA DE LOS	TYPE	DET_PRE
LEXENTRY:	RD DEL	RONDA DEL	TYPE	DET_PRE
LEXENTRY:	RD DELS	RONDA DELS	TYPE	DET_PRE
LEXENTRY:	RD.	RONDA	TYPE	DET_PRE
LEXENTRY:	RD. DE	RONDA DE	TYPE	DET_PRE
LEXENTRY:	RD. DE LA	RONDA DE LA	TYPE	DET_PRE
LEXENTRY:	RD. DE LAS	RONDA DE LAS	TYPE	DET_PRE
LEXENTRY:	RD. DE LOS	RONDA DE LOS	TYPE	DET_PRE
LEXENTRY:	RD. DEL	RONDA DEL	TYPE	DET_PRE
LEXENTRY:	RD. DELS	RONDA DELS	TYPE	DET_PRE
LEXENTRY:	RIERA	RIERA	TYPE	DET_PRE
LEXENTRY:	RIERA D'	RIERA D'	TYPE	ATT_PRE
LEXENTRY:	RIERA DE	RIERA DE	TYPE	DET_PRE
LEXENTRY:	RIERA DE LES	RIERA DE LES	TYPE	DET_PRE
LEXENTRY:	RIERA DEL	RIERA DEL	TYPE	DET_PRE
LEXENTRY:	RONDA	RONDA	TYPE	DET_PRE
LEXENTRY:	RONDA DE	RONDA DE	TYPE	DET_PRE
LEXENTRY:	RONDA DE L'	RONDA DE L'	TYPE	ATT_PRE
LEXENTRY:	RONDA DE LA	RONDA DE LA	TYPE	DET_PRE
LEXENTRY:	RONDA DE LAS	RONDA DE LAS	TYPE	DET_PRE
LEXENTRY:	RONDA DE LOS	RONDA DE LOS	TYPE	DET_PRE
LEXENTRY:	RONDA DEL	RONDA DEL	TYPE	DET_PRE
LEXENTRY:	RONDA DELS	RONDA DELS	TYPE	DET_PRE
LEXENTRY:	RONDA DO	RONDA DO	TYPE	DET_PRE
LEXENTRY:	RÚA	RÚA	TYPE	DET_PRE
LEXENTRY:	RÚA DA	RÚA DA	TYPE	DET_PRE
LEXENTRY:	RÚA DAS	RÚA DAS	TYPE	DET_PRE
LEXENTRY:	RÚA DE	RÚA DE	TYPE	DET_PRE
LEXENTRY:	RÚA DO	RÚA DO	TYPE	DET_PRE
LEXENTRY:	RÚA DOS	RÚA DOS	TYPE	DET_PRE
LEXENTRY:	SA	SA	PLACEN	DETACH
LEXENTRY:	SAE	SAE	PLACEN	DETACH
";
"LEXENTRY:	SAL	SAL	PLACEN	DETACH
LEXENTRY:	SALAMANCA	SALAMANCA	PROV,CITY	DETACH
LEXENTRY:	SALAMANQUE	SALAMANCA	PROV,CITY	DETACH
LEXENTRY:	SANTA CRUZ DE TENERIFE	SANTA CRUZ TENERIFE	PROV,CITY	DETACH
LEXENTRY:	SANTA CRUZ TENERIFE	SANTA CRUZ TENERIFE	PROV,CITY	DETACH
LEXENTRY:	SANTANDER	SANTANDER	PROV,CITY	DETACH
LEXENTRY:	SARAGOSSE	ZARAGOZA	PROV,CITY	DETACH
LEXENTRY:	SARAGOZZA	ZARAGOZA	PROV,CITY	DETACH
LEXENTRY:	SARAGOÇA	ZARAGOZA	PROV,CITY	DETACH
LEXENTRY:	SARBIDEA	SARBIDEA	TYPE	DET_SUF
LEXENTRY:	SARRERA	SARRERA	TYPE	DET_SUF
LEXENTRY:	SC	SC	PLACEN	DETACH
LEXENTRY:	SCL	SCL	PLACEN	DETACH
LEXENTRY:	SEGOVIA	SEGOVIA	PROV,CITY	DETACH
LEXENTRY:	SEGÓVIA	SEGOVIA	PROV,CITY	DETACH
LEXENTRY:	SEVILHA	SEVILLA	PROV,CITY	DETACH
LEXENTRY:	SEVILLA	SEVILLA	PROV,CITY	DETACH
LEXENTRY:	SEVILLE	SEVILLA	PROV,CITY	DETACH
LEXENTRY:	SIVIGLIA	SEVILLA	PROV,CITY	DETACH
LEXENTRY:	SL	SL	PLACEN	DETACH
LEXENTRY:	SNC	SNC	PLACEN	DETACH
LEXENTRY:	SOCIEDAD	SOCIEDAD	PLACEN	DETACH
LEXENTRY:	SORIA	SORIA	PROV,CITY	DETACH
LEXENTRY:	SPAGNA	SPAIN	NATION	DETACH
LEXENTRY:	SPAIN	SPAIN	NATION	DETACH
LEXENTRY:	SPANELSKO	SPAIN	NATION	DETACH
LEXENTRY:	SPANIA	SPAIN	NATION	DETACH
LEXENTRY:	SPANIEN	SPAIN	NATION	DETACH
LEXENTRY:	SPANJE	SPAIN	NATION	DETACH
LEXENTRY:	SRL	SRL	PLACEN	DETACH
LEXENTRY:	SÉGOVIE	SEGOVIA	PROV,CITY	DETACH
LEXENTRY:	SÉVILLE	SEVILLA	PROV,CITY	DETACH
LEXENTRY:	TARRAGONA	TARRAGONA	PROV,CITY	DETACH
LEXENTRY:	TARRAGONE	TARRAGONA	PROV,CITY	DETACH
LEXENTRY:	TERUEL	TERUEL	PROV,CITY	DETACH
LEXENTRY:	TOLEDO	TOLEDO	PROV,CITY	DETACH
LEXENTRY:	TOLÈDE	TOLEDO	PROV,CITY	DETACH
LEXENTRY:	TORRENT D'	TORRENT D'	TYPE	ATT_PRE
LEXENTRY:	TORRENT DE	TORRENT DE	TYPE	DET_PRE
LEXENTRY:	TORRENT DE LA	TORRENT DE LA	TYPE	DET_PRE
LEXENTRY:	TORRENT DEL	TORRENT DEL	TYPE	DET_PRE
LEXENTRY:	TORRENT DELS	TORRENT DELS	TYPE	DET_PRE
LEXENTRY:	TRAVESSERA	TRAVESSERA	TYPE	DET_PRE
LEXENTRY:	TRAVESSERA DE	TRAVESSERA DE	TYPE	DET_PRE
LEXENTRY:	TRAVESSERA DE LES	TRAVESSERA DE LES	TYPE	DET_PRE
LEXENTRY:	TRAVESSERA DEL	TRAVESSERA DEL	TYPE	DET_PRE
LEXENTRY:	TRAVESSIA	TRAVESSIA	TYPE	DET_PRE
LEXENTRY:	TRAVESSIA DE	TRAVESSIA DE	TYPE	DET_PRE
LEXENTRY:	TRAVESÍA	TRAVESÍA	TYPE	DET_PRE
LEXENTRY:	TRAVESÍA DA	TRAVESÍA DA	TYPE	DET_PRE
LEXENTRY:	TRAVESÍA DE	TRAVESÍA DE	TYPE	DET_PRE
LEXENTRY:	TRAVESÍA DE LA	TRAVESÍA DE LA	TYPE	DET_PRE
LEXENTRY:	TRAVESÍA DE LAS	TRAVESÍA DE LAS	TYPE	DET_PRE
LEXENTRY:	TRAVESÍA DE LOS	TRAVESÍA DE LOS	TYPE	DET_PRE
LEXENTRY:	TRAVESÍA DEL	TRAVESÍA DEL	TYPE	DET_PRE
LEXENTRY:	TRAVESÍA DO	TRAVESÍA DO	TYPE	DET_PRE
";
"LEXENTRY:	TRAVESÍA DOS	TRAVESÍA DOS	TYPE	DET_PRE
LEXENTRY:	URBANITZACIÓ	URBANITZACIÓ	TYPE	DET_PRE
LEXENTRY:	URBANITZACIÓ DEL	URBANITZACIÓ DEL	TYPE	DET_PRE
LEXENTRY:	URBANIZACIÓN	URBANIZACIÓN	TYPE	DET_PRE
LEXENTRY:	URBANIZACIÓN DEL	URBANIZACIÓN DEL	TYPE	DET_PRE
LEXENTRY:	VALENCE	VALENCIA	PROV,CITY	DETACH
LEXENTRY:	VALENCIA	VALENCIA	PROV,CITY	DETACH
LEXENTRY:	VALLADOLID	VALLADOLID	PROV,CITY	DETACH
LEXENTRY:	VALÈNCIA	VALENCIA	PROV,CITY	DETACH
LEXENTRY:	VALÊNCIA	VALENCIA	PROV,CITY	DETACH
LEXENTRY:	VEREDA DE	VEREDA DE	TYPE	DET_PRE
LEXENTRY:	VEREDA DE LA	VEREDA DE LA	TYPE	DET_PRE
LEXENTRY:	VEREDA DEL	VEREDA DEL	TYPE	DET_PRE
LEXENTRY:	VIA	VIA	TYPE	DET_PRE
LEXENTRY:	VIA DE	VIA DE	TYPE	DET_PRE
LEXENTRY:	VIADUCTE DE	VIADUCTE DE	TYPE	DET_PRE
LEXENTRY:	VIADUCTO	VIADUCTO	TYPE	DET_PRE
LEXENTRY:	VIADUCTO DE	VIADUCTO DE	TYPE	DET_PRE
LEXENTRY:	VIADUCTO DE LA	VIADUCTO DE LA	TYPE	DET_PRE
LEXENTRY:	VIADUCTO DE LAS	VIADUCTO DE LAS	TYPE	DET_PRE
LEXENTRY:	VIZCAYA	VIZCAYA	PROV,CITY	DETACH
LEXENTRY:	VOLTA	VOLTA	TYPE	DET_PRE
LEXENTRY:	VOLTA DA	VOLTA DA	TYPE	DET_PRE
LEXENTRY:	VOLTA DAS	VOLTA DAS	TYPE	DET_PRE
LEXENTRY:	VOLTA DE	VOLTA DE	TYPE	DET_PRE
LEXENTRY:	VÍA	VÍA	TYPE	DET_PRE
LEXENTRY:	VÍA DE	VÍA DE	TYPE	DET_PRE
LEXENTRY:	VÍA DEL	VÍA DEL	TYPE	DET_PRE
LEXENTRY:	ZAMORA	ZAMORA	PROV,CITY	DETACH
LEXENTRY:	ZARAGOZA	ZARAGOZA	PROV,CITY	DETACH
LEXENTRY:	ZEHARBIDEA	ZEHARBIDEA	TYPE	DET_SUF
LEXENTRY:	ZEHARKALEA	ZEHARKALEA	TYPE	DET_SUF
LEXENTRY:	ZUBIA	ZUBIA	TYPE	DET_SUF
LEXENTRY:	ZUMARDIA	ZUMARDIA	TYPE	DET_SUF
LEXENTRY:	ZUMARKALEA	ZUMARKALEA	TYPE	DET_SUF
LEXENTRY:	ÁLAVA	ÁLAVA	PROV,CITY	DETACH
LEXENTRY:	ÁVILA	ÁVILA	PROV,CITY	DETACH
"].
(** data/sample/sweden.lex *)
Definition slex_sweden : list string :=
[
"LEXICON:	lex-sweden.txt	SWE	sv_SE
LEXENTRY:	AB	AB	PLACEN	DETACH
LEXENTRY:	AKTIEBOLAG	AKTIEBOLAG	PLACEN	DETACH
LEXENTRY:	AKTIEBOLAGET	AKTIEBOLAGET	PLACEN	DETACH
LEXENTRY:	ALLE	ALLÉ	TYPE	DET_SUF
LEXENTRY:	ALLEN	ALLÉN	TYPE	ATT_SUF
LEXENTRY:	ALLÉ	ALLÉ	TYPE	DET_SUF
LEXENTRY:	ALLÉN	ALLÉN	TYPE	ATT_SUF
LEXENTRY:	AS	ÅS	TYPE	DET_SUF
LEXENTRY:	ASEN	ÅSEN	TYPE	ATT_SUF
LEXENTRY:	AVFARTEN	AVFARTEN	TYPE	ATT_SUF
LEXENTRY:	BACKAR	BACKAR	TYPE	DET_SUF
LEXENTRY:	BACKARNA	BACKARNA	TYPE	ATT_SUF
LEXENTRY:	BACKE	BACKE	TYPE	DET_SUF
LEXENTRY:	BACKEN	BACKEN	TYPE	ATT_SUF,DET_SUF
LEXENTRY:	BAGEN	BÅGEN	TYPE	ATT_SUF
LEXENTRY:	BANKEN	BÄNKEN	TYPE	ATT_SUF
LEXENTRY:	BRANTEN	BRANTEN	TYPE	ATT_SUF
LEXENTRY:	BRINK	BRINK	TYPE	DET_SUF
LEXENTRY:	BRINKEN	BRINKEN	TYPE	ATT_SUF
LEXENTRY:	BRO	BRO	TYPE	ATT_SUF,DET_SUF
LEXENTRY:	BRON	BRON	TYPE	ATT_SUF
LEXENTRY:	BRYGGA	BRYGGA	TYPE	DET_SUF
LEXENTRY:	BRYGGAN	BRYGGAN	TYPE	ATT_SUF
LEXENTRY:	BÄNKEN	BÄNKEN	TYPE	ATT_SUF
LEXENTRY:	BÅGEN	BÅGEN	TYPE	ATT_SUF
LEXENTRY:	BOX	BOX	BOXH	DETACH
LEXENTRY:	DAL	DAL	TYPE	DET_SUF
LEXENTRY:	DALEN	DALEN	TYPE	ATT_SUF
LEXENTRY:	DRAGET	DRAGET	TYPE	ATT_SUF
LEXENTRY:	ESPLANADEN	ESPLANADEN	TYPE	ATT_SUF
LEXENTRY:	F O	F O	WORD	DETACH
LEXENTRY:	FO	F O	WORD	DETACH
LEXENTRY:	G	GATAN	TYPE	ATT_SUF
LEXENTRY:	G.	GATAN	TYPE	ATT_SUF
LEXENTRY:	GANG	GÅNG	TYPE	DET_SUF
LEXENTRY:	GANGEN	GÅNGEN	TYPE	ATT_SUF
LEXENTRY:	GARDSVAG	GÅRDSVÄG	TYPE	DET_SUF
LEXENTRY:	GARDSVAGEN	GÅRDSVÄGEN	TYPE	ATT_SUF
LEXENTRY:	GATA	GATA	TYPE	ATT_SUF,DET_SUF
LEXENTRY:	GATAN	GATAN	TYPE	ATT_SUF
LEXENTRY:	GRAND	GRÄND	TYPE	ATT_SUF,DET_SUF
LEXENTRY:	GRANDEN	GRÄNDEN	TYPE	ATT_SUF
LEXENTRY:	GRÄND	GRÄND	TYPE	ATT_SUF,DET_SUF
LEXENTRY:	GRÄNDEN	GRÄNDEN	TYPE	ATT_SUF
LEXENTRY:	GÅNG	GÅNG	TYPE	DET_SUF
LEXENTRY:	GÅNGEN	GÅNGEN	TYPE	ATT_SUF
LEXENTRY:	GÅRDSVÄG	GÅRDSVÄG	TYPE	DET_SUF
LEXENTRY:	GÅRDSVÄGEN	GÅRDSVÄGEN	TYPE	ATT_SUF
LEXENTRY:	HAMN	HAMN	TYPE	DET_SUF
LEXENTRY:	HAMNEN	HAMNEN	TYPE	ATT_SUF
LEXENTRY:	HOJD	HÖJD	TYPE	DET_SUF
LEXENTRY:	HOJDEN	HÖJDEN	TYPE	ATT_SUF
LEXENTRY:	HÖJD	HÖJD	TYPE	DET_SUF
LEXENTRY:	HÖJDEN	HÖJDEN	TYPE	ATT_SUF
LEXENTRY:	INFART	INFART	TYPE	DET_SUF
LEXENTRY:	INFARTEN	INFARTEN	TYPE	ATT_SUF
LEXENTRY:	KAJEN	KAJEN	TYPE	ATT_SUF
LEXENTRY:	KINGDON OF SWEDEN	SWEDEN	NATION	DETACH
LEXENTRY:	KLIPPA	KLIPPA	TYPE	DET_SUF
LEXENTRY:	KLIPPAN	KLIPPAN	TYPE	ATT_SUF
LEXENTRY:	KONUNGARIKET SVERIGE	SWEDEN	NATION	DETACH
LEXENTRY:	KOPPLET	KOPPLET	TYPE	ATT_SUF
LEXENTRY:	KORS	KORS	TYPE	DET_SUF
LEXENTRY:	KORSET	KORSET	TYPE	ATT_SUF
LEXENTRY:	KROK	KROK	TYPE	DET_SUF
LEXENTRY:	KROKEN	KROKEN	TYPE	ATT_SUF
";
"LEXENTRY:	LANKEN	LÄNKEN	TYPE	ATT_SUF
LEXENTRY:	LED	LED	TYPE	ATT_SUF,DET_SUF
LEXENTRY:	LEDEN	LEDEN	TYPE	ATT_SUF
LEXENTRY:	LID	LID	TYPE	DET_SUF
LEXENTRY:	LIDEN	LIDEN	TYPE	ATT_SUF
LEXENTRY:	LUND	LUND	TYPE	DET_SUF
LEXENTRY:	LUNDEN	LUNDEN	TYPE	ATT_SUF
LEXENTRY:	LÄNKEN	LÄNKEN	TYPE	ATT_SUF
LEXENTRY:	MOT	MOT	TYPE	DET_SUF
LEXENTRY:	MOTET	MOTET	TYPE	ATT_SUF
LEXENTRY:	PAFARTEN	PÅFARTEN	TYPE	ATT_SUF
LEXENTRY:	PARK	PARK	TYPE	DET_SUF
LEXENTRY:	PARKEN	PARKEN	TYPE	ATT_SUF,DET_SUF
LEXENTRY:	PASSAGEN	PASSAGEN	TYPE	ATT_SUF
LEXENTRY:	PASSET	PASSET	TYPE	ATT_SUF
LEXENTRY:	PLAN	PLAN	TYPE	ATT_SUF,DET_SUF
LEXENTRY:	PLATAN	PLATÅN	TYPE	ATT_SUF
LEXENTRY:	PLATS	PLATS	TYPE	DET_SUF
LEXENTRY:	PLATSEN	PLATSEN	TYPE	ATT_SUF
LEXENTRY:	PLATÅN	PLATÅN	TYPE	ATT_SUF
LEXENTRY:	PORTEN	PORTEN	TYPE	ATT_SUF
LEXENTRY:	PÅFARTEN	PÅFARTEN	TYPE	ATT_SUF
LEXENTRY:	RAMPEN	RAMPEN	TYPE	ATT_SUF
LEXENTRY:	RING	RING	TYPE	DET_SUF
LEXENTRY:	RINGEN	RINGEN	TYPE	ATT_SUF
LEXENTRY:	RUNDA	RUNDA	TYPE	DET_SUF
LEXENTRY:	RUNDAN	RUNDAN	TYPE	ATT_SUF
LEXENTRY:	SANKT	ST	WORD	DETACH
LEXENTRY:	SE	SWEDEN	NATION	DETACH
LEXENTRY:	SLINGAN	SLINGAN	TYPE	ATT_SUF
LEXENTRY:	SPARET	SPÅRET	TYPE	ATT_SUF
LEXENTRY:	SPÅRET	SPÅRET	TYPE	ATT_SUF
LEXENTRY:	ST	ST	WORD	DETACH
LEXENTRY:	ST.	ST	WORD	DETACH
LEXENTRY:	STIG	STIG	TYPE	DET_SUF
LEXENTRY:	STIGEN	STIGEN	TYPE	ATT_SUF
LEXENTRY:	STRAK	STRÅK	TYPE	DET_SUF
LEXENTRY:	STRAKET	STRÅKET	TYPE	ATT_SUF
LEXENTRY:	STRAND	STRAND	TYPE	ATT_SUF,DET_SUF
LEXENTRY:	STRANDEN	STRANDEN	TYPE	ATT_SUF
LEXENTRY:	STRANDPROMENAD	STRANDPROMENAD	TYPE	DET_SUF
LEXENTRY:	STRÅK	STRÅK	TYPE	DET_SUF
LEXENTRY:	STRÅKET	STRÅKET	TYPE	ATT_SUF
LEXENTRY:	STUPET	STUPET	TYPE	ATT_SUF
LEXENTRY:	SVANG	SVÄNG	TYPE	DET_SUF
LEXENTRY:	SVANGEN	SVÄNGEN	TYPE	ATT_SUF
LEXENTRY:	SVÄNG	SVÄNG	TYPE	DET_SUF
LEXENTRY:	SVÄNGEN	SVÄNGEN	TYPE	ATT_SUF
LEXENTRY:	SWE	SWEDEN	NATION	DETACH
LEXENTRY:	SWEDEN	SWEDEN	NATION	DETACH
LEXENTRY:	TAPPA	TÄPPA	TYPE	DET_SUF
LEXENTRY:	TAPPEN	TÄPPAN	TYPE	ATT_SUF
LEXENTRY:	TERRASSEN	TERRASSEN	TYPE	ATT_SUF
LEXENTRY:	TORG	TORG	TYPE	ATT_SUF,DET_SUF
LEXENTRY:	TORGET	TORGET	TYPE	ATT_SUF
LEXENTRY:	TRAPPAN	TRAPPAN	TYPE	ATT_SUF
LEXENTRY:	TRAPPOR	TRAPPOR	TYPE	DET_SUF
LEXENTRY:	TUNET	TUNET	TYPE	ATT_SUF
LEXENTRY:	TUNNELN	TUNNELN	TYPE	ATT_SUF
LEXENTRY:	TÄPPA	TÄPPA	TYPE	DET_SUF
LEXENTRY:	TÄPPAN	TÄPPAN	TYPE	ATT_SUF
LEXENTRY:	UDDE	UDDE	TYPE	DET_SUF
LEXENTRY:	UDDEN	UDDEN	TYPE	ATT_SUF
LEXENTRY:	V	VÄG	TYPE	DET_SUF
LEXENTRY:	V	VÄGEN	TYPE	ATT_SUF
LEXENTRY:	V.	VÄG	TYPE	DET_SUF
LEXENTRY:	V.	VÄGEN	TYPE	ATT_SUF
LEXENTRY:	VAG	VÄG	TYPE	ATT_SUF,DET_SUF
";
"LEXENTRY:	VAGEN	VÄGEN	TYPE	ATT_SUF
LEXENTRY:	VANDAN	VÄNDAN	TYPE	ATT_SUF
LEXENTRY:	VIADUKTEN	VIADUKTEN	TYPE	ATT_SUF
LEXENTRY:	VINDELN	VINDELN	TYPE	ATT_SUF
LEXENTRY:	VRET	VRET	TYPE	DET_SUF
LEXENTRY:	VRETEN	VRETEN	TYPE	ATT_SUF
LEXENTRY:	VÄG	VÄG	TYPE	ATT_SUF,DET_SUF
LEXENTRY:	VÄGEN	VÄGEN	TYPE	ATT_SUF
LEXENTRY:	VÄNDAN	VÄNDAN	TYPE	ATT_SUF
LEXENTRY:	ÅS	ÅS	TYPE	DET_SUF
LEXENTRY:	ÅSEN	ÅSEN	TYPE	ATT_SUF
"].
(** data/sample/switzerland.lex *)
Definition slex_switzerland : list string :=
[
"LEXICON:	lex-switzerland.txt	GER	gsw_CH
LEXENTRY:	AARGAU	AG	PROV	DETACH
LEXENTRY:	AG	AG	PLACEN	DETACH
LEXENTRY:	AG	AG	PROV	DETACH
LEXENTRY:	AI	AI	PROV	DETACH
LEXENTRY:	AKTIEN	AKTIEN	PLACEN	DETACH
LEXENTRY:	AKTIEN-GESELLSCHAFT	AKTIEN-GESELLSCHAFT	PLACEN	DETACH
LEXENTRY:	AKTIENGESELLSCHAFT	AKTIENGESELLSCHAFT	PLACEN	DETACH
LEXENTRY:	ALLEE	ALLEE	TYPE	ATT_SUF,DET_SUF
LEXENTRY:	ALLÉE	ALLÉE	TYPE	DET_PRE
LEXENTRY:	ALLÉE DE	ALLÉE DE	TYPE	DET_PRE
LEXENTRY:	ALLÉE DE LA	ALLÉE DE LA	TYPE	DET_PRE
LEXENTRY:	ALLÉE DES	ALLÉE DES	TYPE	DET_PRE
LEXENTRY:	ALLÉE DU	ALLÉE DU	TYPE	DET_PRE
LEXENTRY:	ALLÉE LE	ALLÉE LE	TYPE	DET_PRE
LEXENTRY:	ANCIEN CHEMIN	ANCIEN CHEMIN	TYPE	DET_PRE
LEXENTRY:	ANCIEN CHEMIN DE	ANCIEN CHEMIN DE	TYPE	DET_PRE
LEXENTRY:	ANCIENNE ROUTE	ANCIENNE ROUTE	TYPE	DET_PRE
LEXENTRY:	ANCIENNE ROUTE DE	ANCIENNE ROUTE DE	TYPE	DET_PRE
LEXENTRY:	ANSCHLUSSSTELLE	ANSCHLUSSSTELLE	TYPE	DET_PRE
LEXENTRY:	APPENZELL AUSSERRHODEN	AR	PROV	DETACH
LEXENTRY:	APPENZELL INNER RHODEN	AI	PROV	DETACH
LEXENTRY:	APPENZELL INNER-RHODEN	AI	PROV	DETACH
LEXENTRY:	AR	AR	PROV	DETACH
LEXENTRY:	AUTOROUTE	AUTOROUTE	TYPE	DET_PRE
LEXENTRY:	AUTOROUTE DE	AUTOROUTE DE	TYPE	DET_PRE
LEXENTRY:	AUTOROUTE DU	AUTOROUTE DU	TYPE	DET_PRE
LEXENTRY:	AUTOSTRADA	AUTOSTRADA	TYPE	DET_PRE
LEXENTRY:	AV	AVENUE	TYPE	DET_PRE,DET_SUF
LEXENTRY:	AV D'	AVENUE D'	TYPE	ATT_PRE
LEXENTRY:	AV DE	AVENUE DE	TYPE	DET_PRE
LEXENTRY:	AV DE L'	AVENUE DE L'	TYPE	ATT_PRE
LEXENTRY:	AV DE LA	AVENUE DE LA	TYPE	DET_PRE
LEXENTRY:	AV DES	AVENUE DES	TYPE	DET_PRE
LEXENTRY:	AV DU	AVENUE DU	TYPE	DET_PRE
LEXENTRY:	AV.	AVENUE	TYPE	DET_PRE,DET_SUF
LEXENTRY:	AV. D'	AVENUE D'	TYPE	ATT_PRE
LEXENTRY:	AV. DE	AVENUE DE	TYPE	DET_PRE
LEXENTRY:	AV. DE L'	AVENUE DE L'	TYPE	ATT_PRE
LEXENTRY:	AV. DE LA	AVENUE DE LA	TYPE	DET_PRE
LEXENTRY:	AV. DES	AVENUE DES	TYPE	DET_PRE
LEXENTRY:	AV. DU	AVENUE DU	TYPE	DET_PRE
LEXENTRY:	AVE	AVENUE	TYPE	DET_PRE,DET_SUF
LEXENTRY:	AVE D'	AVENUE D'	TYPE	ATT_PRE
LEXENTRY:	AVE DE	AVENUE DE	TYPE	DET_PRE
LEXENTRY:	AVE DE L'	AVENUE DE L'	TYPE	ATT_PRE
LEXENTRY:	AVE DE LA	AVENUE DE LA	TYPE	DET_PRE
LEXENTRY:	AVE DES	AVENUE DES	TYPE	DET_PRE
LEXENTRY:	AVE DU	AVENUE DU	TYPE	DET_PRE
LEXENTRY:	AVE.	AVENUE	TYPE	DET_PRE,DET_SUF
LEXENTRY:	AVE. D'	AVENUE D'	TYPE	ATT_PRE
LEXENTRY:	AVE. DE	AVENUE DE	TYPE	DET_PRE
LEXENTRY:	AVE. DE L'	AVENUE DE L'	TYPE	ATT_PRE
LEXENTRY:	AVE. DE LA	AVENUE DE LA	TYPE	DET_PRE
LEXENTRY:	AVE. DES	AVENUE DES	TYPE	DET_PRE
LEXENTRY:	AVE. DU	AVENUE DU	TYPE	DET_PRE
LEXENTRY:	AVENUE	AVENUE	TYPE	DET_PRE,DET_SUF
";
"LEXENTRY:	AVENUE D'	AVENUE D'	TYPE	ATT_PRE
LEXENTRY:	AVENUE DE	AVENUE DE	TYPE	DET_PRE
LEXENTRY:	AVENUE DE L'	AVENUE DE L'	TYPE	ATT_PRE
LEXENTRY:	AVENUE DE LA	AVENUE DE LA	TYPE	DET_PRE
LEXENTRY:	AVENUE DES	AVENUE DES	TYPE	DET_PRE
LEXENTRY:	AVENUE DU	AVENUE DU	TYPE	DET_PRE
LEXENTRY:	BACH	BACH	TYPE	ATT_SUF,DET_SUF
LEXENTRY:	BASEL LANDSCHAFT	BL	PROV	DETACH
LEXENTRY:	BASEL STADT	BS	PROV	DETACH
LEXENTRY:	BASEL-LANDSCHAFT	BL	PROV	DETACH
LEXENTRY:	BASEL-STADT	BS	PROV	DETACH
LEXENTRY:	BD	BOULEVARD	TYPE	DET_PRE,DET_SUF
LEXENTRY:	BD D'	BOULEVARD D'	TYPE	ATT_PRE
LEXENTRY:	BD DE BD. DE	BOULEVARD DE	TYPE	DET_PRE
LEXENTRY:	BD DE LA	BOULEVARD DE LA	TYPE	DET_PRE
LEXENTRY:	BD DES	BOULEVARD DES	TYPE	DET_PRE
LEXENTRY:	BD DU	BOULEVARD DU	TYPE	DET_PRE
LEXENTRY:	BD.	BOULEVARD	TYPE	DET_PRE,DET_SUF
LEXENTRY:	BD. D'	BOULEVARD D'	TYPE	ATT_PRE
LEXENTRY:	BD. DE LA	BOULEVARD DE LA	TYPE	DET_PRE
LEXENTRY:	BD. DES	BOULEVARD DES	TYPE	DET_PRE
LEXENTRY:	BD. DU	BOULEVARD DU	TYPE	DET_PRE
LEXENTRY:	BE	BE	PROV	DETACH
LEXENTRY:	BERG	BERG	TYPE	ATT_SUF,DET_SUF
LEXENTRY:	BERGWEG	BERGWEG	TYPE	ATT_SUF,DET_SUF
LEXENTRY:	BERN	BE	PROV	DETACH
LEXENTRY:	BETRIEB	BETRIEB	PLACEN	DETACH
LEXENTRY:	BGB	BGB	PLACEN	DETACH
LEXENTRY:	BL	BL	PROV	DETACH
LEXENTRY:	BLD	BOULEVARD	TYPE	DET_PRE,DET_SUF
LEXENTRY:	BLD DE	BOULEVARD DE	TYPE	DET_PRE
LEXENTRY:	BLD DE LA	BOULEVARD DE LA	TYPE	DET_PRE
LEXENTRY:	BLD DES	BOULEVARD DES	TYPE	DET_PRE
LEXENTRY:	BLD DU	BOULEVARD DU	TYPE	DET_PRE
LEXENTRY:	BLD.	BOULEVARD	TYPE	DET_PRE,DET_SUF
LEXENTRY:	BLD. DE	BOULEVARD DE	TYPE	DET_PRE
LEXENTRY:	BLD. DE LA	BOULEVARD DE LA	TYPE	DET_PRE
LEXENTRY:	BLD. DES	BOULEVARD DES	TYPE	DET_PRE
LEXENTRY:	BLD. DU	BOULEVARD DU	TYPE	DET_PRE
LEXENTRY:	BOGEN	BOGEN	TYPE	ATT_SUF,DET_SUF
LEXENTRY:	BOULEVARD	BOULEVARD	TYPE	DET_PRE,DET_SUF
LEXENTRY:	BOULEVARD D'	BOULEVARD D'	TYPE	ATT_PRE
LEXENTRY:	BOULEVARD DE	BOULEVARD DE	TYPE	DET_PRE
LEXENTRY:	BOULEVARD DE LA	BOULEVARD DE LA	TYPE	DET_PRE
LEXENTRY:	BOULEVARD DES	BOULEVARD DES	TYPE	DET_PRE
LEXENTRY:	BOULEVARD DU	BOULEVARD DU	TYPE	DET_PRE
LEXENTRY:	BRETELLE	BRETELLE	TYPE	DET_PRE
LEXENTRY:	BRÜCKE	BRÜCKE	TYPE	ATT_SUF,DET_SUF
LEXENTRY:	BS	BS	PROV	DETACH
LEXENTRY:	BURG	BURG	TYPE	ATT_SUF,DET_SUF
LEXENTRY:	C.	CORSO	TYPE	DET_PRE
LEXENTRY:	C.DA	CONTRADA	TYPE	DET_PRE
LEXENTRY:	C.DA DEL	CONTRADA DEL	TYPE	DET_PRE
LEXENTRY:	C.SO	CORSO	TYPE	DET_PRE
LEXENTRY:	C.SO.	CORSO	TYPE	DET_PRE
LEXENTRY:	CA'	CA'	TYPE	DET_PRE
LEXENTRY:	CAMPO	CAMPO	TYPE	DET_PRE
LEXENTRY:	CANTON	CANTON	TYPE	DET_PRE
";
"LEXENTRY:	CARREFOUR DE	CARREFOUR DE	TYPE	DET_PRE
LEXENTRY:	CARREFOUR DE L'	CARREFOUR DE L'	TYPE	ATT_PRE
LEXENTRY:	CARREFOUR DE LA	CARREFOUR DE LA	TYPE	DET_PRE
LEXENTRY:	CARREFOUR DES	CARREFOUR DES	TYPE	DET_PRE
LEXENTRY:	CARREFOUR DU	CARREFOUR DU	TYPE	DET_PRE
LEXENTRY:	CASE	CASE	TYPE	DET_PRE
LEXENTRY:	CH	CHAUSSÉE	TYPE	DET_PRE
LEXENTRY:	CH	SWITZERLAND	NATION	DETACH
LEXENTRY:	CH DE	CHAUSSÉE DE	TYPE	DET_PRE
LEXENTRY:	CH DE LA	CHAUSSÉE DE LA	TYPE	DET_PRE
LEXENTRY:	CH DES	CHAUSSÉE DES	TYPE	DET_PRE
LEXENTRY:	CH DU	CHAUSSÉE DU	TYPE	DET_PRE
LEXENTRY:	CH.	CHAUSSÉE	TYPE	DET_PRE
LEXENTRY:	CH. DE	CHAUSSÉE DE	TYPE	DET_PRE
LEXENTRY:	CH. DE LA	CHAUSSÉE DE LA	TYPE	DET_PRE
LEXENTRY:	CH. DES	CHAUSSÉE DES	TYPE	DET_PRE
LEXENTRY:	CH. DU	CHAUSSÉE DU	TYPE	DET_PRE
LEXENTRY:	CHAUSSÉE	CHAUSSÉE	TYPE	DET_PRE
LEXENTRY:	CHAUSSÉE DE	CHAUSSÉE DE	TYPE	DET_PRE
LEXENTRY:	CHAUSSÉE DE LA	CHAUSSÉE DE LA	TYPE	DET_PRE
LEXENTRY:	CHAUSSÉE DES	CHAUSSÉE DES	TYPE	DET_PRE
LEXENTRY:	CHAUSSÉE DU	CHAUSSÉE DU	TYPE	DET_PRE
LEXENTRY:	CHE	SWITZERLAND	NATION	DETACH
LEXENTRY:	CHEE	CHAUSSÉE	TYPE	DET_PRE
LEXENTRY:	CHEE DE	CHAUSSÉE DE	TYPE	DET_PRE
LEXENTRY:	CHEE DE LA	CHAUSSÉE DE LA	TYPE	DET_PRE
LEXENTRY:	CHEE DES	CHAUSSÉE DES	TYPE	DET_PRE
LEXENTRY:	CHEE DU	CHAUSSÉE DU	TYPE	DET_PRE
LEXENTRY:	CHEE.	CHAUSSÉE	TYPE	DET_PRE
LEXENTRY:	CHEE. DE	CHAUSSÉE DE	TYPE	DET_PRE
LEXENTRY:	CHEE. DE LA	CHAUSSÉE DE LA	TYPE	DET_PRE
LEXENTRY:	CHEE. DES	CHAUSSÉE DES	TYPE	DET_PRE
LEXENTRY:	CHEE. DU	CHAUSSÉE DU	TYPE	DET_PRE
LEXENTRY:	CHEMIN	CHEMIN	TYPE	DET_PRE
LEXENTRY:	CHEMIN AU	CHEMIN AU	TYPE	DET_PRE
LEXENTRY:	CHEMIN AUX	CHEMIN AUX	TYPE	DET_PRE
LEXENTRY:	CHEMIN D'	CHEMIN D'	TYPE	ATT_PRE
LEXENTRY:	CHEMIN DE	CHEMIN DE	TYPE	DET_PRE
LEXENTRY:	CHEMIN DE L'	CHEMIN DE L'	TYPE	ATT_PRE
LEXENTRY:	CHEMIN DE LA	CHEMIN DE LA	TYPE	DET_PRE
LEXENTRY:	CHEMIN DES	CHEMIN DES	TYPE	DET_PRE
LEXENTRY:	CHEMIN DU	CHEMIN DU	TYPE	DET_PRE
LEXENTRY:	CHEMIN LES	CHEMIN LES	TYPE	DET_PRE
LEXENTRY:	CHEMIN À	CHEMIN À	TYPE	DET_PRE
LEXENTRY:	CHÉE	CHAUSSÉE	TYPE	DET_PRE
LEXENTRY:	CHÉE DE	CHAUSSÉE DE	TYPE	DET_PRE
LEXENTRY:	CHÉE DE LA	CHAUSSÉE DE LA	TYPE	DET_PRE
LEXENTRY:	CHÉE DES	CHAUSSÉE DES	TYPE	DET_PRE
LEXENTRY:	CHÉE DU	CHAUSSÉE DU	TYPE	DET_PRE
LEXENTRY:	CHÉE.	CHAUSSÉE	TYPE	DET_PRE
LEXENTRY:	CHÉE. DE	CHAUSSÉE DE	TYPE	DET_PRE
LEXENTRY:	CHÉE. DE LA	CHAUSSÉE DE LA	TYPE	DET_PRE
LEXENTRY:	CHÉE. DES	CHAUSSÉE DES	TYPE	DET_PRE
LEXENTRY:	CHÉE. DU	CHAUSSÉE DU	TYPE	DET_PRE
LEXENTRY:	CITÉ	CITÉ	TYPE	DET_PRE
LEXENTRY:	CITÉ DU	CITÉ DU	TYPE	DET_PRE
LEXENTRY:	CLOS	CLOS	TYPE	DET_PRE
";
"LEXENTRY:	CLOS AUX	CLOS AUX	TYPE	DET_PRE
LEXENTRY:	CLOS DE	CLOS DE	TYPE	DET_PRE
LEXENTRY:	CLOS DE L'	CLOS DE L'	TYPE	ATT_PRE
LEXENTRY:	CLOS DE LA	CLOS DE LA	TYPE	DET_PRE
LEXENTRY:	CLOS DES	CLOS DES	TYPE	DET_PRE
LEXENTRY:	CLOS DU	CLOS DU	TYPE	DET_PRE
LEXENTRY:	CO	CO	PLACEN	DETACH
LEXENTRY:	COIN	COIN	TYPE	DET_PRE
LEXENTRY:	COIN D'	COIN D'	TYPE	ATT_PRE
LEXENTRY:	COIN DU	COIN DU	TYPE	DET_PRE
LEXENTRY:	CONTRADA	CONTRADA	TYPE	DET_PRE
LEXENTRY:	CONTRADA DEL	CONTRADA DEL	TYPE	DET_PRE
LEXENTRY:	CORSO	CORSO	TYPE	DET_PRE
LEXENTRY:	CORTE	CORTE	TYPE	DET_PRE
LEXENTRY:	CORTE DEI	CORTE DEI	TYPE	DET_PRE
LEXENTRY:	COSTA	COSTA	TYPE	DET_PRE
LEXENTRY:	COTEAU DE	COTEAU DE	TYPE	DET_PRE
LEXENTRY:	COUR	COUR	TYPE	DET_PRE
LEXENTRY:	COUR AUX	COUR AUX	TYPE	DET_PRE
LEXENTRY:	COUR D'	COUR D'	TYPE	ATT_PRE
LEXENTRY:	COUR DE LA	COUR DE LA	TYPE	DET_PRE
LEXENTRY:	COUR DES	COUR DES	TYPE	DET_PRE
LEXENTRY:	COURS	COURS	TYPE	DET_PRE
LEXENTRY:	COURS DE	COURS DE	TYPE	DET_PRE
LEXENTRY:	COURS DES	COURS DES	TYPE	DET_PRE
LEXENTRY:	CP	Postfach	BOXH	DETACH
LEXENTRY:	CROIX	CROIX	TYPE	DET_PRE
LEXENTRY:	CSO	CORSO	TYPE	DET_PRE
LEXENTRY:	CSO.	CORSO	TYPE	DET_PRE
LEXENTRY:	Case Postale	Postfach	BOXH	DETACH
LEXENTRY:	Casella Postale	Postfach	BOXH	DETACH
LEXENTRY:	CÔTE	CÔTE	TYPE	DET_PRE
LEXENTRY:	CÔTE DE	CÔTE DE	TYPE	DET_PRE
LEXENTRY:	CÔTE DES	CÔTE DES	TYPE	DET_PRE
LEXENTRY:	DAMM	DAMM	TYPE	ATT_SUF,DET_SUF
LEXENTRY:	DIGUE DE LA	DIGUE DE LA	TYPE	DET_PRE
LEXENTRY:	DIGUE DES	DIGUE DES	TYPE	DET_PRE
LEXENTRY:	DIGUE DU	DIGUE DU	TYPE	DET_PRE
LEXENTRY:	DOMAINE	DOMAINE	TYPE	DET_PRE
LEXENTRY:	DOMAINE DE	DOMAINE DE	TYPE	DET_PRE
LEXENTRY:	DOMAINE DES	DOMAINE DES	TYPE	DET_PRE
LEXENTRY:	EG	EG	PLACEN	DETACH
LEXENTRY:	EINZELFIRMA	EINZELFIRMA	PLACEN	DETACH
LEXENTRY:	EINZELUNTERNEHMEN	EINZELUNTERNEHMEN	PLACEN	DETACH
LEXENTRY:	ENCLOS	ENCLOS	TYPE	DET_PRE
LEXENTRY:	ENGETRAGENER	ENGETRAGENER	PLACEN	DETACH
LEXENTRY:	ESCALIER	ESCALIER	TYPE	DET_PRE
LEXENTRY:	ESCALIER DE	ESCALIER DE	TYPE	DET_PRE
LEXENTRY:	ESCALIER DE L'	ESCALIER DE L'	TYPE	ATT_PRE
LEXENTRY:	ESCALIER DE LA	ESCALIER DE LA	TYPE	DET_PRE
LEXENTRY:	ESCALIER DES	ESCALIER DES	TYPE	DET_PRE
LEXENTRY:	ESCALIER DU	ESCALIER DU	TYPE	DET_PRE
LEXENTRY:	ESPLANADE	ESPLANADE	TYPE	DET_PRE
LEXENTRY:	ESPLANADE DU	ESPLANADE DU	TYPE	DET_PRE
LEXENTRY:	EV	EV	PLACEN	DETACH
LEXENTRY:	FAUBOURG	FAUBOURG	TYPE	DET_PRE
LEXENTRY:	FAUBOURG DE	FAUBOURG DE	TYPE	DET_PRE
LEXENTRY:	FAUBOURG DE L'	FAUBOURG DE L'	TYPE	ATT_PRE
LEXENTRY:	FAUBOURG DE LA	FAUBOURG DE LA	TYPE	DET_PRE
";
"LEXENTRY:	FAUBOURG DES	FAUBOURG DES	TYPE	DET_PRE
LEXENTRY:	FAUBOURG DU	FAUBOURG DU	TYPE	DET_PRE
LEXENTRY:	FELD	FELD	TYPE	ATT_SUF,DET_SUF
LEXENTRY:	FIRMA	FIRMA	PLACEN	DETACH
LEXENTRY:	FR	FR	PROV	DETACH
LEXENTRY:	FRIBOURG	FR	PROV	DETACH
LEXENTRY:	GALERIE	GALERIE	TYPE	DET_PRE
LEXENTRY:	GALERIE DE	GALERIE DE	TYPE	DET_PRE
LEXENTRY:	GALLERIA	GALLERIA	TYPE	DET_PRE
LEXENTRY:	GALLERIA DEL	GALLERIA DEL	TYPE	DET_PRE
LEXENTRY:	GANG	GANG	TYPE	ATT_SUF
LEXENTRY:	GARTEN	GARTEN	TYPE	ATT_SUF,DET_SUF
LEXENTRY:	GASSE	GASSE	TYPE	ATT_SUF,DET_SUF
LEXENTRY:	GBR	GBR	PLACEN	DETACH
LEXENTRY:	GE	GE	PROV	DETACH
LEXENTRY:	GENEVA	GE	PROV	DETACH
LEXENTRY:	GENEVA	GENEVA	CITY	DETACH
LEXENTRY:	GENOSSENSCHAFT	GENOSSENSCHAFT	PLACEN	DETACH
LEXENTRY:	GESELLSCHAFT	GESELLSCHAFT	PLACEN	DETACH
LEXENTRY:	GIARDINI	GIARDINI	TYPE	DET_PRE
LEXENTRY:	GL	GL	PROV	DETACH
LEXENTRY:	GLARUS	GL	PROV	DETACH
LEXENTRY:	GMBH	GMBH	PLACEN	DETACH
LEXENTRY:	GR	GR	PROV	DETACH
LEXENTRY:	GRABEN	GRABEN	TYPE	ATT_SUF,DET_SUF
LEXENTRY:	GRAUBUNDEN	GR	PROV	DETACH
LEXENTRY:	GÄSSCHEN	GÄSSCHEN	TYPE	ATT_SUF
LEXENTRY:	HAMEAU	HAMEAU	TYPE	DET_PRE
LEXENTRY:	HAMEAU DE	HAMEAU DE	TYPE	DET_PRE
LEXENTRY:	HANDELSGESELLSCHAFT	HANDELSGESELLSCHAFT	PLACEN	DETACH
LEXENTRY:	HEIDE	HEIDE	TYPE	DET_SUF
LEXENTRY:	HOF	HOF	TYPE	ATT_SUF,DET_SUF
LEXENTRY:	HORST	HORST	TYPE	DET_SUF
LEXENTRY:	HÖHE	HÖHE	TYPE	ATT_SUF,DET_SUF
LEXENTRY:	IMP	IMPASSE	TYPE	DET_PRE
LEXENTRY:	IMP DE	IMPASSE DE	TYPE	DET_PRE
LEXENTRY:	IMP DE LA	IMPASSE DE LA	TYPE	DET_PRE
LEXENTRY:	IMP DES	IMPASSE DES	TYPE	DET_PRE
LEXENTRY:	IMP DU	IMPASSE DU	TYPE	DET_PRE
LEXENTRY:	IMP.	IMPASSE	TYPE	DET_PRE
LEXENTRY:	IMP. DE	IMPASSE DE	TYPE	DET_PRE
LEXENTRY:	IMP. DE LA	IMPASSE DE LA	TYPE	DET_PRE
LEXENTRY:	IMP. DES	IMPASSE DES	TYPE	DET_PRE
LEXENTRY:	IMP. DU	IMPASSE DU	TYPE	DET_PRE
LEXENTRY:	IMPASSE	IMPASSE	TYPE	DET_PRE
LEXENTRY:	IMPASSE DE	IMPASSE DE	TYPE	DET_PRE
LEXENTRY:	IMPASSE DE L'	IMPASSE DE L'	TYPE	ATT_PRE
LEXENTRY:	IMPASSE DE LA	IMPASSE DE LA	TYPE	DET_PRE
LEXENTRY:	IMPASSE DES	IMPASSE DES	TYPE	DET_PRE
LEXENTRY:	IMPASSE DU	IMPASSE DU	TYPE	DET_PRE
LEXENTRY:	JARDIN	JARDIN	TYPE	DET_PRE
LEXENTRY:	JETÉE D'	JETÉE D'	TYPE	ATT_PRE
LEXENTRY:	JETÉE DE LA	JETÉE DE LA	TYPE	DET_PRE
LEXENTRY:	JETÉE DES	JETÉE DES	TYPE	DET_PRE
LEXENTRY:	JU	JU	PROV	DETACH
LEXENTRY:	JURA	JU	PROV	DETACH
LEXENTRY:	KAI	KAI	TYPE	DET_SUF
LEXENTRY:	KANAL	KANAL	TYPE	DET_SUF
LEXENTRY:	KG	KG	PLACEN	DETACH
LEXENTRY:	KGAA	KGAA	PLACEN	DETACH
LEXENTRY:	KOMMANDITGESELLSCHAFT	KOMMANDITGESELLSCHAFT	PLACEN	DETACH
";
"LEXENTRY:	LANDSTRASSE	LANDSTRASSE	TYPE	DET_SUF
LEXENTRY:	LARGO	LARGO	TYPE	DET_PRE
LEXENTRY:	LE CLOS DE	LE CLOS DE	TYPE	DET_PRE
LEXENTRY:	LE CLOS DU	LE CLOS DU	TYPE	DET_PRE
LEXENTRY:	LES JARDINS	LES JARDINS	TYPE	DET_PRE
LEXENTRY:	LGO	LARGO	TYPE	DET_PRE
LEXENTRY:	LGO.	LARGO	TYPE	DET_PRE
LEXENTRY:	LU	LU	PROV	DETACH
LEXENTRY:	LUZERN	LU	PROV	DETACH
LEXENTRY:	MARKT	MARKT	TYPE	ATT_SUF,DET_SUF
LEXENTRY:	MBH	MBH	PLACEN	DETACH
LEXENTRY:	MONT	MONTÉE	TYPE	DET_PRE
LEXENTRY:	MONT DES	MONTÉE DES	TYPE	DET_PRE
LEXENTRY:	MONT DU	MONTÉE DU	TYPE	DET_PRE
LEXENTRY:	MONTAGNE	MONTÉE	TYPE	DET_PRE
LEXENTRY:	MONTAGNE DES	MONTÉE DES	TYPE	DET_PRE
LEXENTRY:	MONTAGNE DU	MONTÉE DU	TYPE	DET_PRE
LEXENTRY:	MONTÉE	MONTÉE	TYPE	DET_PRE
LEXENTRY:	MONTÉE DES	MONTÉE DES	TYPE	DET_PRE
LEXENTRY:	MONTÉE DU	MONTÉE DU	TYPE	DET_PRE
LEXENTRY:	MT	MONTÉE	TYPE	DET_PRE
LEXENTRY:	MT DES	MONTÉE DES	TYPE	DET_PRE
LEXENTRY:	MT DU	MONTÉE DU	TYPE	DET_PRE
LEXENTRY:	MT.	MONTÉE	TYPE	DET_PRE
LEXENTRY:	MT. DES	MONTÉE DES	TYPE	DET_PRE
LEXENTRY:	MT. DU	MONTÉE DU	TYPE	DET_PRE
LEXENTRY:	NE	NE	PROV	DETACH
LEXENTRY:	NEUCHÂTEL	NE	PROV	DETACH
LEXENTRY:	NIDWALDEN	NW	PROV	DETACH
LEXENTRY:	NW	NW	PROV	DETACH
LEXENTRY:	OBWALDEN	OW	PROV	DETACH
LEXENTRY:	OHG	OHG	PLACEN	DETACH
LEXENTRY:	OW	OW	PROV	DETACH
LEXENTRY:	P.	PIAZZA	TYPE	DET_PRE
LEXENTRY:	P.LE	PIAZZALE	TYPE	DET_PRE
LEXENTRY:	P.LE.	PIAZZALE	TYPE	DET_PRE
LEXENTRY:	P.ZA	PIAZZA	TYPE	DET_PRE
LEXENTRY:	P.ZA.	PIAZZA	TYPE	DET_PRE
LEXENTRY:	PARC	PARC	TYPE	DET_PRE
LEXENTRY:	PARC DES	PARC DES	TYPE	DET_PRE
LEXENTRY:	PARC DU	PARC DU	TYPE	DET_PRE
LEXENTRY:	PARK	PARK	TYPE	ATT_SUF,DET_SUF
LEXENTRY:	PASSAGE	PASSAGE	TYPE	ATT_SUF,DET_PRE,DET_SUF
LEXENTRY:	PASSAGE DE	PASSAGE DE	TYPE	DET_PRE
LEXENTRY:	PASSAGE DE L'	PASSAGE DE L'	TYPE	ATT_PRE
LEXENTRY:	PASSAGE DE LA	PASSAGE DE LA	TYPE	DET_PRE
LEXENTRY:	PASSAGE DES	PASSAGE DES	TYPE	DET_PRE
LEXENTRY:	PASSAGE DU	PASSAGE DU	TYPE	DET_PRE
LEXENTRY:	PASSAGGIO	PASSAGGIO	TYPE	DET_PRE
LEXENTRY:	PASSEGGIATA	PASSEGGIATA	TYPE	DET_PRE
LEXENTRY:	PASSERELLE	PASSERELLE	TYPE	DET_PRE
LEXENTRY:	PASSERELLE DE	PASSERELLE DE	TYPE	DET_PRE
LEXENTRY:	PASSERELLE DE L'	PASSERELLE DE L'	TYPE	ATT_PRE
LEXENTRY:	PASSERELLE DE LA	PASSERELLE DE LA	TYPE	DET_PRE
LEXENTRY:	PASSERELLE DES	PASSERELLE DES	TYPE	DET_PRE
LEXENTRY:	PASSERELLE DU	PASSERELLE DU	TYPE	DET_PRE
LEXENTRY:	PASSO DEL	PASSO DEL	TYPE	DET_PRE
LEXENTRY:	PASSO DELLA	PASSO DELLA	TYPE	DET_PRE
LEXENTRY:	PATT	PATT	TYPE	ATT_SUF
LEXENTRY:	PF	Postfach	BOXH	DETACH
LEXENTRY:	PFAD	PFAD	TYPE	ATT_SUF
";
"LEXENTRY:	PIANO DI	PIANO DI	TYPE	DET_PRE
LEXENTRY:	PIAZZA	PIAZZA	TYPE	DET_PRE
LEXENTRY:	PIAZZA DEI	PIAZZA DEI	TYPE	DET_PRE
LEXENTRY:	PIAZZA DEL	PIAZZA DEL	TYPE	DET_PRE
LEXENTRY:	PIAZZA DELLA	PIAZZA DELLA	TYPE	DET_PRE
LEXENTRY:	PIAZZA DELLE	PIAZZA DELLE	TYPE	DET_PRE
LEXENTRY:	PIAZZA DI	PIAZZA DI	TYPE	DET_PRE
LEXENTRY:	PIAZZALE	PIAZZALE	TYPE	DET_PRE
LEXENTRY:	PIAZZALE DEI	PIAZZALE DEI	TYPE	DET_PRE
LEXENTRY:	PIAZZALE DELLA	PIAZZALE DELLA	TYPE	DET_PRE
LEXENTRY:	PIAZZALE DI	PIAZZALE DI	TYPE	DET_PRE
LEXENTRY:	PIAZZETTA	PIAZZETTA	TYPE	DET_PRE
LEXENTRY:	PIAZZETTA DEI	PIAZZETTA DEI	TYPE	DET_PRE
LEXENTRY:	PIAZZETTA DEL	PIAZZETTA DEL	TYPE	DET_PRE
LEXENTRY:	PIAZZETTA DELLA	PIAZZETTA DELLA	TYPE	DET_PRE
LEXENTRY:	PIAZZETTA DI	PIAZZETTA DI	TYPE	DET_PRE
LEXENTRY:	PL	PLACE	TYPE	DET_PRE
LEXENTRY:	PL	PLATZ	TYPE	DET_SUF
LEXENTRY:	PL DE	PLACE DE	TYPE	DET_PRE
LEXENTRY:	PL DE LA	PLACE DE LA	TYPE	DET_PRE
LEXENTRY:	PL DES	PLACE DES	TYPE	DET_PRE
LEXENTRY:	PL DU	PLACE DU	TYPE	DET_PRE
LEXENTRY:	PL.	PLACE	TYPE	DET_PRE
LEXENTRY:	PL.	PLATZ	TYPE	ATT_SUF,DET_SUF
LEXENTRY:	PL. DE	PLACE DE	TYPE	DET_PRE
LEXENTRY:	PL. DE LA	PLACE DE LA	TYPE	DET_PRE
LEXENTRY:	PL. DES	PLACE DES	TYPE	DET_PRE
LEXENTRY:	PL. DU	PLACE DU	TYPE	DET_PRE
LEXENTRY:	PLACE	PLACE	TYPE	DET_PRE
LEXENTRY:	PLACE D'	PLACE D'	TYPE	ATT_PRE
LEXENTRY:	PLACE DE	PLACE DE	TYPE	DET_PRE
LEXENTRY:	PLACE DE L'	PLACE DE L'	TYPE	ATT_PRE
LEXENTRY:	PLACE DE LA	PLACE DE LA	TYPE	DET_PRE
LEXENTRY:	PLACE DES	PLACE DES	TYPE	DET_PRE
LEXENTRY:	PLACE DU	PLACE DU	TYPE	DET_PRE
LEXENTRY:	PLACETTE	PLACETTE	TYPE	DET_PRE
LEXENTRY:	PLACETTE DU	PLACETTE DU	TYPE	DET_PRE
LEXENTRY:	PLAINE D'	PLAINE D'	TYPE	ATT_PRE
LEXENTRY:	PLAINE DE	PLAINE DE	TYPE	DET_PRE
LEXENTRY:	PLATEAU DE	PLATEAU DE	TYPE	DET_PRE
LEXENTRY:	PLATZ	PLATZ	TYPE	ATT_SUF,DET_SUF
LEXENTRY:	PONT	PONT	TYPE	DET_PRE
LEXENTRY:	PONT D'	PONT D'	TYPE	ATT_PRE
LEXENTRY:	PONT DE	PONT DE	TYPE	DET_PRE
LEXENTRY:	PONT DE L'	PONT DE L'	TYPE	ATT_PRE
LEXENTRY:	PONT DE LA	PONT DE LA	TYPE	DET_PRE
LEXENTRY:	PONT DES	PONT DES	TYPE	DET_PRE
LEXENTRY:	PONT DU	PONT DU	TYPE	DET_PRE
LEXENTRY:	PONTE	PONTE	TYPE	DET_PRE
LEXENTRY:	PORT DE	PORT DE	TYPE	DET_PRE
LEXENTRY:	PORT À	PORT À	TYPE	DET_PRE
LEXENTRY:	PORTE DE	PORTE DE	TYPE	DET_PRE
LEXENTRY:	PORTE DU	PORTE DU	TYPE	DET_PRE
LEXENTRY:	PROMENADE	PROMENADE	TYPE	ATT_SUF,DET_PRE,DET_SUF
LEXENTRY:	PROMENADE D'	PROMENADE D'	TYPE	ATT_PRE
LEXENTRY:	PROMENADE DE	PROMENADE DE	TYPE	DET_PRE
LEXENTRY:	PROMENADE DE L'	PROMENADE DE L'	TYPE	ATT_PRE
";
"LEXENTRY:	PROMENADE DE LA	PROMENADE DE LA	TYPE	DET_PRE
LEXENTRY:	PROMENADE DES	PROMENADE DES	TYPE	DET_PRE
LEXENTRY:	PROMENADE DU	PROMENADE DU	TYPE	DET_PRE
LEXENTRY:	Postfach	Postfach	BOXH	DETACH
LEXENTRY:	QU	QUARTIER	TYPE	DET_PRE
LEXENTRY:	QU DE	QUARTIER DE	TYPE	DET_PRE
LEXENTRY:	QU DE LA	QUARTIER DE LA	TYPE	DET_PRE
LEXENTRY:	QU DES	QUARTIER DES	TYPE	DET_PRE
LEXENTRY:	QU DU	QUARTIER DU	TYPE	DET_PRE
LEXENTRY:	QU.	QUARTIER	TYPE	DET_PRE
LEXENTRY:	QU. DE	QUARTIER DE	TYPE	DET_PRE
LEXENTRY:	QU. DE LA	QUARTIER DE LA	TYPE	DET_PRE
LEXENTRY:	QU. DES	QUARTIER DES	TYPE	DET_PRE
LEXENTRY:	QU. DU	QUARTIER DU	TYPE	DET_PRE
LEXENTRY:	QUAI	QUAI	TYPE	DET_PRE
LEXENTRY:	QUAI D'	QUAI D'	TYPE	ATT_PRE
LEXENTRY:	QUAI DE	QUAI DE	TYPE	DET_PRE
LEXENTRY:	QUAI DE L'	QUAI DE L'	TYPE	ATT_PRE
LEXENTRY:	QUAI DE LA	QUAI DE LA	TYPE	DET_PRE
LEXENTRY:	QUAI DES	QUAI DES	TYPE	DET_PRE
LEXENTRY:	QUAI DU	QUAI DU	TYPE	DET_PRE
LEXENTRY:	QUARTIER	QUARTIER	TYPE	DET_PRE
LEXENTRY:	QUARTIER DE	QUARTIER DE	TYPE	DET_PRE
LEXENTRY:	QUARTIER DE LA	QUARTIER DE LA	TYPE	DET_PRE
LEXENTRY:	QUARTIER DES	QUARTIER DES	TYPE	DET_PRE
LEXENTRY:	QUARTIER DU	QUARTIER DU	TYPE	DET_PRE
LEXENTRY:	R	RUE	TYPE	DET_PRE
LEXENTRY:	R DE	RUE DE	TYPE	DET_PRE
LEXENTRY:	R DE LA	RUE DE LA	TYPE	DET_PRE
LEXENTRY:	R DES	RUE DES	TYPE	DET_PRE
LEXENTRY:	R DU	RUE DU	TYPE	DET_PRE
LEXENTRY:	R LE	RUE LE	TYPE	DET_PRE
LEXENTRY:	R À	RUE À	TYPE	DET_PRE
LEXENTRY:	R.	RUE	TYPE	DET_PRE
LEXENTRY:	R. DE	RUE DE	TYPE	DET_PRE
LEXENTRY:	R. DE LA	RUE DE LA	TYPE	DET_PRE
LEXENTRY:	R. DES	RUE DES	TYPE	DET_PRE
LEXENTRY:	R. DU	RUE DU	TYPE	DET_PRE
LEXENTRY:	R. LE	RUE LE	TYPE	DET_PRE
LEXENTRY:	R. À	RUE À	TYPE	DET_PRE
LEXENTRY:	RAMPE	RAMPE	TYPE	DET_PRE
LEXENTRY:	RAMPE DE	RAMPE DE	TYPE	DET_PRE
LEXENTRY:	RAMPE DE LA	RAMPE DE LA	TYPE	DET_PRE
LEXENTRY:	RAMPE DU	RAMPE DU	TYPE	DET_PRE
LEXENTRY:	REMPART DU	REMPART DU	TYPE	DET_PRE
LEXENTRY:	RING	RING	TYPE	ATT_SUF,DET_SUF
LEXENTRY:	RIVA	RIVA	TYPE	DET_PRE
LEXENTRY:	ROCADE	ROCADE	TYPE	DET_PRE
LEXENTRY:	ROND-POINT	ROND-POINT	TYPE	DET_PRE
LEXENTRY:	ROND-POINT DE	ROND-POINT DE	TYPE	DET_PRE
LEXENTRY:	ROND-POINT DES	ROND-POINT DES	TYPE	DET_PRE
LEXENTRY:	ROND-POINT DU	ROND-POINT DU	TYPE	DET_PRE
LEXENTRY:	ROUTE	ROUTE	TYPE	DET_PRE
LEXENTRY:	ROUTE AUX	ROUTE AUX	TYPE	DET_PRE
LEXENTRY:	ROUTE D'	ROUTE D'	TYPE	ATT_PRE
LEXENTRY:	ROUTE DE	ROUTE DE	TYPE	DET_PRE
LEXENTRY:	ROUTE DE L'	ROUTE DE L'	TYPE	ATT_PRE
LEXENTRY:	ROUTE DE LA	ROUTE DE LA	TYPE	DET_PRE
LEXENTRY:	ROUTE DES	ROUTE DES	TYPE	DET_PRE
LEXENTRY:	ROUTE DU	ROUTE DU	TYPE	DET_PRE
";
"LEXENTRY:	ROUTE À	ROUTE À	TYPE	DET_PRE
LEXENTRY:	RTE	ROUTE	TYPE	DET_PRE
LEXENTRY:	RTE AUX	ROUTE AUX	TYPE	DET_PRE
LEXENTRY:	RTE DE	ROUTE DE	TYPE	DET_PRE
LEXENTRY:	RTE DE LA	ROUTE DE LA	TYPE	DET_PRE
LEXENTRY:	RTE DES	ROUTE DES	TYPE	DET_PRE
LEXENTRY:	RTE DU	ROUTE DU	TYPE	DET_PRE
LEXENTRY:	RTE À	ROUTE À	TYPE	DET_PRE
LEXENTRY:	RTE.	ROUTE	TYPE	DET_PRE
LEXENTRY:	RTE. AUX	ROUTE AUX	TYPE	DET_PRE
LEXENTRY:	RTE. DE	ROUTE DE	TYPE	DET_PRE
LEXENTRY:	RTE. DE LA	ROUTE DE LA	TYPE	DET_PRE
LEXENTRY:	RTE. DES	ROUTE DES	TYPE	DET_PRE
LEXENTRY:	RTE. DU	ROUTE DU	TYPE	DET_PRE
LEXENTRY:	RTE. À	ROUTE À	TYPE	DET_PRE
LEXENTRY:	RUE	RUE	TYPE	DET_PRE
LEXENTRY:	RUE D'	RUE D'	TYPE	ATT_PRE
LEXENTRY:	RUE DE	RUE DE	TYPE	DET_PRE
LEXENTRY:	RUE DE L'	RUE DE L'	TYPE	ATT_PRE
LEXENTRY:	RUE DE LA	RUE DE LA	TYPE	DET_PRE
LEXENTRY:	RUE DES	RUE DES	TYPE	DET_PRE
LEXENTRY:	RUE DU	RUE DU	TYPE	DET_PRE
LEXENTRY:	RUE L'	RUE L'	TYPE	ATT_PRE
LEXENTRY:	RUE LE	RUE LE	TYPE	DET_PRE
LEXENTRY:	RUE À	RUE À	TYPE	DET_PRE
LEXENTRY:	RUELLE	RUELLE	TYPE	DET_PRE
LEXENTRY:	RUELLE AUX	RUELLE AUX	TYPE	DET_PRE
LEXENTRY:	RUELLE DE	RUELLE DE	TYPE	DET_PRE
LEXENTRY:	RUELLE DE L'	RUELLE DE L'	TYPE	ATT_PRE
LEXENTRY:	RUELLE DE LA	RUELLE DE LA	TYPE	DET_PRE
LEXENTRY:	RUELLE DES	RUELLE DES	TYPE	DET_PRE
LEXENTRY:	RUELLE DU	RUELLE DU	TYPE	DET_PRE
LEXENTRY:	RUELLE À	RUELLE À	TYPE	DET_PRE
LEXENTRY:	RÉSIDENCE	RÉSIDENCE	TYPE	DET_PRE
LEXENTRY:	RÉSIDENCE DE LA	RÉSIDENCE DE LA	TYPE	DET_PRE
LEXENTRY:	RÉSIDENCE DES	RÉSIDENCE DES	TYPE	DET_PRE
LEXENTRY:	SALITA	SALITA	TYPE	DET_PRE
LEXENTRY:	SALITA AI	SALITA AI	TYPE	DET_PRE
LEXENTRY:	SALITA AL	SALITA AL	TYPE	DET_PRE
LEXENTRY:	SALITA ALLA	SALITA ALLA	TYPE	DET_PRE
LEXENTRY:	SALITA ALLE	SALITA ALLE	TYPE	DET_PRE
LEXENTRY:	SALITA DEGLI	SALITA DEGLI	TYPE	DET_PRE
LEXENTRY:	SALITA DEI	SALITA DEI	TYPE	DET_PRE
LEXENTRY:	SALITA DEL	SALITA DEL	TYPE	DET_PRE
LEXENTRY:	SALITA DELLA	SALITA DELLA	TYPE	DET_PRE
LEXENTRY:	SALITA DELLE	SALITA DELLE	TYPE	DET_PRE
LEXENTRY:	SALITA DI	SALITA DI	TYPE	DET_PRE
LEXENTRY:	SANKT GALLEN	SG	PROV	DETACH
LEXENTRY:	SCALETTA	SCALETTA	TYPE	DET_PRE
LEXENTRY:	SCALINATA	SCALINATA	TYPE	DET_PRE
LEXENTRY:	SCALINATA DEI	SCALINATA DEI	TYPE	DET_PRE
LEXENTRY:	SCALINATA DEL	SCALINATA DEL	TYPE	DET_PRE
LEXENTRY:	SCALINATA DELL'	SCALINATA DELL'	TYPE	ATT_PRE
LEXENTRY:	SCALINATA DELLA	SCALINATA DELLA	TYPE	DET_PRE
LEXENTRY:	SCHAFFHAUSEN	SH	PROV	DETACH
LEXENTRY:	SCHWEIZ	SWITZERLAND	NATION	DETACH
LEXENTRY:	SCHWYZ	SZ	PROV	DETACH
LEXENTRY:	SENTIER	SENTIER	TYPE	DET_PRE
";
"LEXENTRY:	SENTIER D'	SENTIER D'	TYPE	ATT_PRE
LEXENTRY:	SENTIER DE	SENTIER DE	TYPE	DET_PRE
LEXENTRY:	SENTIER DE L'	SENTIER DE L'	TYPE	ATT_PRE
LEXENTRY:	SENTIER DE LA	SENTIER DE LA	TYPE	DET_PRE
LEXENTRY:	SENTIER DES	SENTIER DES	TYPE	DET_PRE
LEXENTRY:	SENTIER DU	SENTIER DU	TYPE	DET_PRE
LEXENTRY:	SENTIERO	SENTIERO	TYPE	DET_PRE
LEXENTRY:	SENTIERO DEL	SENTIERO DEL	TYPE	DET_PRE
LEXENTRY:	SENTIERS DES	SENTIERS DES	TYPE	DET_PRE
LEXENTRY:	SG	SG	PROV	DETACH
LEXENTRY:	SH	SH	PROV	DETACH
LEXENTRY:	SO	SO	PROV	DETACH
LEXENTRY:	SOLOTHURN	SO	PROV	DETACH
LEXENTRY:	SOTTOPASSAGGIO	SOTTOPASSAGGIO	TYPE	DET_PRE
LEXENTRY:	SQ	SQUARE	TYPE	DET_PRE
LEXENTRY:	SQ DE	SQUARE DE	TYPE	DET_PRE
LEXENTRY:	SQ DE LA	SQUARE DE LA	TYPE	DET_PRE
LEXENTRY:	SQ DES	SQUARE DES	TYPE	DET_PRE
LEXENTRY:	SQ DU	SQUARE DU	TYPE	DET_PRE
LEXENTRY:	SQ.	SQUARE	TYPE	DET_PRE
LEXENTRY:	SQ. DE	SQUARE DE	TYPE	DET_PRE
LEXENTRY:	SQ. DE LA	SQUARE DE LA	TYPE	DET_PRE
LEXENTRY:	SQ. DES	SQUARE DES	TYPE	DET_PRE
LEXENTRY:	SQ. DU	SQUARE DU	TYPE	DET_PRE
LEXENTRY:	SQUARE	SQUARE	TYPE	DET_PRE
LEXENTRY:	SQUARE DE	SQUARE DE	TYPE	DET_PRE
LEXENTRY:	SQUARE DE L'	SQUARE DE L'	TYPE	ATT_PRE
LEXENTRY:	SQUARE DE LA	SQUARE DE LA	TYPE	DET_PRE
LEXENTRY:	SQUARE DES	SQUARE DES	TYPE	DET_PRE
LEXENTRY:	SQUARE DU	SQUARE DU	TYPE	DET_PRE
LEXENTRY:	STAFFEL	STAFFEL	TYPE	ATT_SUF,DET_SUF
LEXENTRY:	STEG	STEG	TYPE	ATT_SUF,DET_SUF
LEXENTRY:	STEIG	STEIG	TYPE	ATT_SUF,DET_SUF
LEXENTRY:	STEIN	STEIN	TYPE	ATT_SUF,DET_SUF
LEXENTRY:	STIEG	STIEG	TYPE	ATT_SUF,DET_SUF
LEXENTRY:	STIEGE	STIEGE	TYPE	ATT_SUF,DET_SUF
LEXENTRY:	STIFTUNG	STIFTUNG	PLACEN	DETACH
LEXENTRY:	STR	STRASSE	TYPE	ATT_SUF,DET_PRE,DET_SUF
LEXENTRY:	STR.	STRASSE	TYPE	ATT_SUF,DET_PRE,DET_SUF
LEXENTRY:	STRADA	STRADA	TYPE	DET_PRE
LEXENTRY:	STRADA AI	STRADA AI	TYPE	DET_PRE
LEXENTRY:	STRADA ANTICA	STRADA ANTICA	TYPE	DET_PRE
LEXENTRY:	STRADA DA	STRADA DA	TYPE	DET_PRE
LEXENTRY:	STRADA DAL	STRADA DAL	TYPE	DET_PRE
LEXENTRY:	STRADA DEGLI	STRADA DEGLI	TYPE	DET_PRE
LEXENTRY:	STRADA DEI	STRADA DEI	TYPE	DET_PRE
LEXENTRY:	STRADA DEL	STRADA DEL	TYPE	DET_PRE
LEXENTRY:	STRADA DELL'	STRADA DELL'	TYPE	ATT_PRE
LEXENTRY:	STRADA DELLA	STRADA DELLA	TYPE	DET_PRE
LEXENTRY:	STRADA DELLE	STRADA DELLE	TYPE	DET_PRE
LEXENTRY:	STRADA DI	STRADA DI	TYPE	DET_PRE
LEXENTRY:	STRADA PER	STRADA PER	TYPE	DET_PRE
LEXENTRY:	STRADELLA	STRADELLA	TYPE	DET_PRE
LEXENTRY:	STRADONE	STRADONE	TYPE	DET_PRE
LEXENTRY:	STRASSE	STRASSE	TYPE	ATT_SUF,DET_PRE,DET_SUF
LEXENTRY:	SUISSE	SWITZERLAND	NATION	DETACH
LEXENTRY:	SUIZA	SWITZERLAND	NATION	DETACH
";
"LEXENTRY:	SUÍÇA	SWITZERLAND	NATION	DETACH
LEXENTRY:	SVEITS	SWITZERLAND	NATION	DETACH
LEXENTRY:	SVEITSI	SWITZERLAND	NATION	DETACH
LEXENTRY:	SVIZZERA	SWITZERLAND	NATION	DETACH
LEXENTRY:	SVYCARSKO	SWITZERLAND	NATION	DETACH
LEXENTRY:	SWITZERLAND	SWITZERLAND	NATION	DETACH
LEXENTRY:	SZ	SZ	PROV	DETACH
LEXENTRY:	TAL	TAL	TYPE	ATT_SUF
LEXENTRY:	TERRASSE DE	TERRASSE DE	TYPE	DET_PRE
LEXENTRY:	TG	TG	PROV	DETACH
LEXENTRY:	THURGAU	TG	PROV	DETACH
LEXENTRY:	TI	TI	PROV	DETACH
LEXENTRY:	TICINO	TI	PROV	DETACH
LEXENTRY:	TOR	TOR	TYPE	ATT_SUF
LEXENTRY:	TRAVERSA	TRAVERSA	TYPE	DET_PRE
LEXENTRY:	TREPPE	TREPPE	TYPE	ATT_SUF
LEXENTRY:	TUNNEL	TUNNEL	TYPE	ATT_SUF,DET_SUF
LEXENTRY:	TUNNEL D'	TUNNEL D'	TYPE	ATT_PRE
LEXENTRY:	TUNNEL DE	TUNNEL DE	TYPE	DET_PRE
LEXENTRY:	TUNNEL DE LA	TUNNEL DE LA	TYPE	DET_PRE
LEXENTRY:	TUNNEL DES	TUNNEL DES	TYPE	DET_PRE
LEXENTRY:	TUNNEL DU	TUNNEL DU	TYPE	DET_PRE
LEXENTRY:	UR	UR	PROV	DETACH
LEXENTRY:	URI	UR	PROV	DETACH
LEXENTRY:	V	VIA	TYPE	DET_PRE
LEXENTRY:	V AI	VIA AI	TYPE	DET_PRE
LEXENTRY:	V AL	VIA AL	TYPE	DET_PRE
LEXENTRY:	V ALLA	VIA ALLA	TYPE	DET_PRE
LEXENTRY:	V ALLE	VIA ALLE	TYPE	DET_PRE
LEXENTRY:	V DA	VIA DA	TYPE	DET_PRE
LEXENTRY:	V DAL	VIA DAL	TYPE	DET_PRE
LEXENTRY:	V DEGLI	VIA DEGLI	TYPE	DET_PRE
LEXENTRY:	V DEI	VIA DEI	TYPE	DET_PRE
LEXENTRY:	V DEL	VIA DEL	TYPE	DET_PRE
LEXENTRY:	V DELLA	VIA DELLA	TYPE	DET_PRE
LEXENTRY:	V DELLE	VIA DELLE	TYPE	DET_PRE
LEXENTRY:	V DI	VIA DI	TYPE	DET_PRE
LEXENTRY:	V IN	VIA IN	TYPE	DET_PRE
LEXENTRY:	V PONTE	VIA PONTE	TYPE	DET_PRE
LEXENTRY:	V PRIVATA	VIA PRIVATA	TYPE	DET_PRE
LEXENTRY:	V SOTTO	VIA SOTTO	TYPE	DET_PRE
LEXENTRY:	V SOTTO I	VIA SOTTO I	TYPE	DET_PRE
LEXENTRY:	V.	VIA	TYPE	DET_PRE
LEXENTRY:	V. AI	VIA AI	TYPE	DET_PRE
LEXENTRY:	V. AL	VIA AL	TYPE	DET_PRE
LEXENTRY:	V. ALLA	VIA ALLA	TYPE	DET_PRE
LEXENTRY:	V. ALLE	VIA ALLE	TYPE	DET_PRE
LEXENTRY:	V. DA	VIA DA	TYPE	DET_PRE
LEXENTRY:	V. DAL	VIA DAL	TYPE	DET_PRE
LEXENTRY:	V. DEGLI	VIA DEGLI	TYPE	DET_PRE
LEXENTRY:	V. DEI	VIA DEI	TYPE	DET_PRE
LEXENTRY:	V. DEL	VIA DEL	TYPE	DET_PRE
LEXENTRY:	V. DELLA	VIA DELLA	TYPE	DET_PRE
LEXENTRY:	V. DELLE	VIA DELLE	TYPE	DET_PRE
LEXENTRY:	V. DI	VIA DI	TYPE	DET_PRE
LEXENTRY:	V. IN	VIA IN	TYPE	DET_PRE
LEXENTRY:	V. PONTE	VIA PONTE	TYPE	DET_PRE
LEXENTRY:	V. PRIVATA	VIA PRIVATA	TYPE	DET_PRE
LEXENTRY:	V. SOTTO	VIA SOTTO	TYPE	DET_PRE
LEXENTRY:	V. SOTTO I	VIA SOTTO I	TYPE	DET_PRE
LEXENTRY:	V.LE	VIALE	TYPE	DET_PRE
LEXENTRY:	V.LE AL	VIALE AL	TYPE	DET_PRE
LEXENTRY:	V.LE DEI	VIALE DEI	TYPE	DET_PRE
LEXENTRY:	V.LE.	VIALE	TYPE	DET_PRE
";
"LEXENTRY:	V.LE. AL	VIALE AL	TYPE	DET_PRE
LEXENTRY:	V.LE. DEI	VIALE DEI	TYPE	DET_PRE
LEXENTRY:	VALAIS	VS	PROV	DETACH
LEXENTRY:	VALLETTA	VALLETTA	TYPE	DET_PRE
LEXENTRY:	VALLON DE	VALLON DE	TYPE	DET_PRE
LEXENTRY:	VAUD	VD	PROV	DETACH
LEXENTRY:	VD	VD	PROV	DETACH
LEXENTRY:	VEB	VEB	PLACEN	DETACH
LEXENTRY:	VENELLE	VENELLE	TYPE	DET_PRE
LEXENTRY:	VENELLE DES	VENELLE DES	TYPE	DET_PRE
LEXENTRY:	VENELLE DU	VENELLE DU	TYPE	DET_PRE
LEXENTRY:	VEREIN	VEREIN	PLACEN	DETACH
LEXENTRY:	VIA	VIA	TYPE	DET_PRE
LEXENTRY:	VIA AI	VIA AI	TYPE	DET_PRE
LEXENTRY:	VIA AL	VIA AL	TYPE	DET_PRE
LEXENTRY:	VIA ALL'	VIA ALL'	TYPE	ATT_PRE
LEXENTRY:	VIA ALLA	VIA ALLA	TYPE	DET_PRE
LEXENTRY:	VIA ALLE	VIA ALLE	TYPE	DET_PRE
LEXENTRY:	VIA D'	VIA D'	TYPE	ATT_PRE
LEXENTRY:	VIA DA	VIA DA	TYPE	DET_PRE
LEXENTRY:	VIA DAL	VIA DAL	TYPE	DET_PRE
LEXENTRY:	VIA DEGLI	VIA DEGLI	TYPE	DET_PRE
LEXENTRY:	VIA DEI	VIA DEI	TYPE	DET_PRE
LEXENTRY:	VIA DEL	VIA DEL	TYPE	DET_PRE
LEXENTRY:	VIA DELL'	VIA DELL'	TYPE	ATT_PRE
LEXENTRY:	VIA DELLA	VIA DELLA	TYPE	DET_PRE
LEXENTRY:	VIA DELLE	VIA DELLE	TYPE	DET_PRE
LEXENTRY:	VIA DI	VIA DI	TYPE	DET_PRE
LEXENTRY:	VIA IN	VIA IN	TYPE	DET_PRE
LEXENTRY:	VIA PONTE	VIA PONTE	TYPE	DET_PRE
LEXENTRY:	VIA PRIVATA	VIA PRIVATA	TYPE	DET_PRE
LEXENTRY:	VIA SOTTO	VIA SOTTO	TYPE	DET_PRE
LEXENTRY:	VIA SOTTO I	VIA SOTTO I	TYPE	DET_PRE
LEXENTRY:	VIALE	VIALE	TYPE	DET_PRE
LEXENTRY:	VIALE AL	VIALE AL	TYPE	DET_PRE
LEXENTRY:	VIALE DEI	VIALE DEI	TYPE	DET_PRE
LEXENTRY:	VIALE DELL'	VIALE DELL'	TYPE	ATT_PRE
LEXENTRY:	VICOLO	VICOLO	TYPE	DET_PRE
LEXENTRY:	VICOLO AL	VICOLO AL	TYPE	DET_PRE
LEXENTRY:	VICOLO DEGLI	VICOLO DEGLI	TYPE	DET_PRE
LEXENTRY:	VICOLO DEI	VICOLO DEI	TYPE	DET_PRE
LEXENTRY:	VICOLO DEL	VICOLO DEL	TYPE	DET_PRE
LEXENTRY:	VICOLO DELL'	VICOLO DELL'	TYPE	ATT_PRE
LEXENTRY:	VICOLO DELLA	VICOLO DELLA	TYPE	DET_PRE
LEXENTRY:	VICOLO DELLE	VICOLO DELLE	TYPE	DET_PRE
LEXENTRY:	VICOLO DI	VICOLO DI	TYPE	DET_PRE
LEXENTRY:	VIEUX CHEMIN	VIEUX CHEMIN	TYPE	DET_PRE
LEXENTRY:	VILLAGE	VILLAGE	TYPE	DET_PRE
LEXENTRY:	VILLAGGIO	VILLAGGIO	TYPE	DET_PRE
LEXENTRY:	VILLAS	VILLAS	TYPE	DET_PRE
LEXENTRY:	VIOTTOLO	VIOTTOLO	TYPE	DET_PRE
LEXENTRY:	VL	VIALE	TYPE	DET_PRE
LEXENTRY:	VL AL	VIALE AL	TYPE	DET_PRE
LEXENTRY:	VL DEI	VIALE DEI	TYPE	DET_PRE
LEXENTRY:	VL.	VIALE	TYPE	DET_PRE
LEXENTRY:	VL. AL	VIALE AL	TYPE	DET_PRE
LEXENTRY:	VL. DEI	VIALE DEI	TYPE	DET_PRE
LEXENTRY:	VOIE	VOIE	TYPE	DET_PRE
LEXENTRY:	VOLKSEIGNER	VOLKSEIGNER	PLACEN	DETACH
LEXENTRY:	VOLTA	VOLTA	TYPE	DET_PRE
LEXENTRY:	VS	VS	PROV	DETACH
";
"LEXENTRY:	WEG	WEG	TYPE	ATT_PRE,ATT_SUF,DET_PRE,DET_SUF
LEXENTRY:	WIESE	WIESE	TYPE	ATT_SUF
LEXENTRY:	WIESEN	WIESEN	TYPE	ATT_SUF
LEXENTRY:	WINKEL	WINKEL	TYPE	ATT_SUF,DET_SUF
LEXENTRY:	ZG	ZG	PROV	DETACH
LEXENTRY:	ZH	ZH	PROV	DETACH
LEXENTRY:	ZUG	ZG	PROV	DETACH
LEXENTRY:	ZWITSERLAND	SWITZERLAND	NATION	DETACH
LEXENTRY:	ZÜRICH	ZH	PROV	DETACH
LEXENTRY:	ÉCHANGEUR D'	ÉCHANGEUR D'	TYPE	ATT_PRE
LEXENTRY:	ÉCHANGEUR DE LA	ÉCHANGEUR DE LA	TYPE	DET_PRE
"].
(** data/sample/usa.lex *)
Definition slex_usa : list string :=
[
"LEXICON:	lex-usa-txt	USA	en_US	
LEXENTRY:	#	#	UNITH,STOPWORD	
LEXENTRY:	&	AND	AMPERS,WORD,STOPWORD	
LEXENTRY:	-	-	DASH	
LEXENTRY:	1 / 2	1/2	FRACT	
LEXENTRY:	1 / 2 MILE	1/2 MI	WORD	
LEXENTRY:	1 / 3	1/3	FRACT	
LEXENTRY:	1 / 4	1/4	FRACT	
LEXENTRY:	1 MI	ONE MILE	WORD	
LEXENTRY:	1 MILE	ONE MILE	WORD	
LEXENTRY:	1/2	1/2	FRACT	
LEXENTRY:	1/2 MILE	1/2 MI	WORD	
LEXENTRY:	1/3	1/3	FRACT	
LEXENTRY:	1/4	1/4	FRACT	
LEXENTRY:	10 MI	TEN MILE	WORD	
LEXENTRY:	10 MILE	TEN MILE	WORD	
LEXENTRY:	100 MILE	ONE HUNDRED MILE	WORD	
LEXENTRY:	10MI	TEN MILE	WORD	
LEXENTRY:	11 MI	ELEVEN MILE	WORD	
LEXENTRY:	11 MILE	ELEVEN MILE	WORD	
LEXENTRY:	11MI	ELEVEN MILE	WORD	
LEXENTRY:	12 MI	TWELVE MILE	WORD	
LEXENTRY:	12 MILE	TWELVE MILE	WORD	
LEXENTRY:	12MI	TWELVE MILE	WORD	
LEXENTRY:	13 MI	THIRTEEN MILE	WORD	
LEXENTRY:	13 MILE	THIRTEEN MILE	WORD	
LEXENTRY:	13MI	THIRTEEN MILE	WORD	
LEXENTRY:	14 MI	FOURTEEN MILE	WORD	
LEXENTRY:	14 MILE	FOURTEEN MILE	WORD	
LEXENTRY:	14MI	FOURTEEN MILE	WORD	
LEXENTRY:	15 MI	FIFTEEN MI	WORD	
LEXENTRY:	15 MILE	FIFTEEN MI	WORD	
LEXENTRY:	15MI	FIFTEEN MI	WORD	
LEXENTRY:	16 MI	SIXTEEN MILE	WORD	
LEXENTRY:	16 MILE	SIXTEEN MILE	WORD	
LEXENTRY:	16MI	SIXTEEN MILE	WORD	
LEXENTRY:	17 MI	SEVENTEEN MILE	WORD	
LEXENTRY:	17 MILE	SEVENTEEN MILE	WORD	
LEXENTRY:	17MI	SEVENTEEN MILE	WORD	
LEXENTRY:	18 MI	EIGHTEEEN MILE	WORD	
LEXENTRY:	18 MILE	EIGHTEEEN MILE	WORD	
LEXENTRY:	18MI	EIGHTEEEN MILE	WORD	
LEXENTRY:	19 MI	NINETEEN MILE	WORD	
LEXENTRY:	19 MILE	NINETEEN MILE	WORD	
LEXENTRY:	19MI	NINETEEN MILE	WORD	
LEXENTRY:	1ER	1	ORD	
LEXENTRY:	1ER	PREMIERE	WORD	
LEXENTRY:	1MI	ONE MILE	WORD	
LEXENTRY:	1RE	1	ORD	
LEXENTRY:	1RE	PREMIERE	WORD	
LEXENTRY:	1ST	1	WORD,ORD	
LEXENTRY:	2 MI	TWO MILE	WORD	
LEXENTRY:	2 MILE	TWO MILE	WORD	
LEXENTRY:	20 MI	TWENTY MILE	WORD	
LEXENTRY:	20 MILE	TWENTY MILE	WORD	
LEXENTRY:	20MI	TWENTY MILE	WORD	
LEXENTRY:	21ST	21	WORD,ORD	
LEXENTRY:	22ND	22	WORD,ORD	
LEXENTRY:	23 MI	TWENTY THREE MILE	WORD	
LEXENTRY:	23 MILE	TWENTY THREE MILE	WORD	
LEXENTRY:	23MI	TWENTY THREE MILE	WORD	
LEXENTRY:	23RD	23	WORD,ORD	
LEXENTRY:	2MI	TWO MILE	WORD	
LEXENTRY:	3 / 4	3/4	FRACT	
LEXENTRY:	3 / 8	3/8	FRACT	
LEXENTRY:	3 MI	THREE MILE	WORD	
LEXENTRY:	3 MILE	THREE MILE	WORD	
LEXENTRY:	3/4	3/4	FRACT	
LEXENTRY:	3/8	3/8	FRACT	
LEXENTRY:	31ST	31	WORD,ORD	
LEXENTRY:	33RD	33	WORD,ORD	
LEXENTRY:	3MI	THREE MILE	WORD	
LEXENTRY:	3RD	3	WORD,ORD	
LEXENTRY:	4 CORNERS	FOUR CORNERS	WORD	
LEXENTRY:	4 FG	FOUR FLAGS	WORD	
LEXENTRY:	4 FLAGS	FOUR FLAGS	WORD	
LEXENTRY:	4 MI	FOUR MILE	WORD	
";
"LEXENTRY:	4 MILE	FOUR MILE	WORD	
LEXENTRY:	4 SEASONS	FOUR SEASONS	WORD	
LEXENTRY:	4 SN	FOUR SEASONS	WORD	
LEXENTRY:	41ST	41	WORD,ORD	
LEXENTRY:	43RD	43	WORD,ORD	
LEXENTRY:	4MI	FOUR MILE	WORD	
LEXENTRY:	4WD	FOUR WHEEL DRIVE TRAIL	TYPE	
LEXENTRY:	4WD TRAIL	FOUR WHEEL DRIVE TRAIL	TYPE	
LEXENTRY:	4WD TRL	FOUR WHEEL DRIVE TRAIL	TYPE	
LEXENTRY:	5 CEDARS	FIVE CEDARS	WORD	
LEXENTRY:	5 CORNERS	FIVE CORNERS	WORD	
LEXENTRY:	5 MI	FIVE MILE	WORD	
LEXENTRY:	5 MILE	FIVE MILE	WORD	
LEXENTRY:	5 POINTS	FIVE POINTS	WORD	
LEXENTRY:	5 PT	FIVE POINTS	WORD	
LEXENTRY:	5 TO	FIVE TOWN	WORD	
LEXENTRY:	51ST	51	WORD,ORD	
LEXENTRY:	53RD	53	WORD,ORD	
LEXENTRY:	5MI	FIVE MILE	WORD	
LEXENTRY:	6 FG	SIX FLAGS	WORD	
LEXENTRY:	6 FLAGS	SIX FLAGS	WORD	
LEXENTRY:	6 MI	SIX MILE	WORD	
LEXENTRY:	6 MILE	SIX MILE	WORD	
LEXENTRY:	61ST	61	WORD,ORD	
LEXENTRY:	63RD	63	WORD,ORD	
LEXENTRY:	6MI	SIX MILE	WORD	
LEXENTRY:	7 CORNERS	SEVEN CORNERS	WORD,BUILDT	
LEXENTRY:	7 MI	SEVEN MILE	WORD	
LEXENTRY:	7 MILE	SEVEN MILE	WORD	
LEXENTRY:	71ST	71	WORD,ORD	
LEXENTRY:	73RD	73	WORD,ORD	
LEXENTRY:	7MI	SEVEN MILE	WORD	
LEXENTRY:	8 MI	EIGHT MILE	WORD	
LEXENTRY:	8 MILE	EIGHT MILE	WORD	
LEXENTRY:	81ST	81	WORD,ORD	
LEXENTRY:	83RD	83	WORD,ORD	
LEXENTRY:	8MI	EIGHT MILE	WORD	
LEXENTRY:	9 MI	NINE MILE	WORD	
LEXENTRY:	9 MILE	NINE MILE	WORD	
LEXENTRY:	91ST	91	WORD,ORD	
LEXENTRY:	93RD	93	WORD,ORD	
LEXENTRY:	9MI	NINE MILE	WORD	
LEXENTRY:	A	A	SINGLE,STOPWORD	
LEXENTRY:	A	ALTERNATE	QUALIF	
LEXENTRY:	A F B	AIR FORCE BASE	WORD,BUILDT,WORD	
LEXENTRY:	A F S	AIR FORCE BASE	WORD,BUILDT	
LEXENTRY:	A LA DERECHA	A LA DERECHA	UNITH	
LEXENTRY:	AB	ABBEY	TYPE	
LEXENTRY:	AB	ALBERTA	PROV,WORD,ROAD	
LEXENTRY:	ABBEY	ABBEY	WORD,TYPE	
LEXENTRY:	AC	ACRES	TYPE	
LEXENTRY:	ACAD	ACADEMY	WORD	
LEXENTRY:	ACADE	ACADEMIA	WORD	
LEXENTRY:	ACADEMIA	ACADEMIA	WORD	
LEXENTRY:	ACADEMY	ACADEMY	WORD	
LEXENTRY:	ACCESS	ACCESS	TYPE	
LEXENTRY:	ACR	ACRES	WORD,TYPE,BUILDT	
LEXENTRY:	ACRES	ACRES	WORD,TYPE,BUILDT	
LEXENTRY:	ACRS	ACRES	WORD,TYPE,BUILDT	
LEXENTRY:	ACUE	ACUEDUCTO	TYPE,WORD	
LEXENTRY:	ACUED	ACUEDUCTO	TYPE,WORD	
LEXENTRY:	ACUEDUCTO	ACUEDUCTO	TYPE,WORD	
LEXENTRY:	AEROPUERTO	AEROPUERTO	WORD,BUILDT	
LEXENTRY:	AFB	AIR FORCE BASE	WORD,BUILDT,WORD	
LEXENTRY:	AFLD	AIRPORT	BUILDT	
LEXENTRY:	AFS	AIR FORCE BASE	WORD,BUILDT	
LEXENTRY:	AIR FORCE BASE	AIR FORCE BASE	WORD,BUILDT,WORD	
LEXENTRY:	AIR FORCE STATION	AIR FORCE BASE	WORD,BUILDT	
LEXENTRY:	AIRFIELD	AIRPORT	WORD,BUILDT	
LEXENTRY:	AIRPARK	AIRPORT	WORD,BUILDT	
LEXENTRY:	AIRPORT	AIRPORT	WORD,BUILDT	
";
"LEXENTRY:	AIRSTRIP	AIRPORT	WORD,BUILDT	
LEXENTRY:	AIRSTRP	AIRPORT	WORD,BUILDT	
LEXENTRY:	AK	ALASKA	PROV,WORD,ROAD	
LEXENTRY:	AL	ALABAMA	PROV,WORD,ROAD	
LEXENTRY:	AL	ALLEY	TYPE,PROV,ROAD	
LEXENTRY:	ALA	ALABAMA	PROV,WORD,ROAD	
LEXENTRY:	ALABAMA	ALABAMA	PROV,WORD	
LEXENTRY:	ALASKA	ALASKA	PROV,WORD	
LEXENTRY:	ALBERTA	ALBERTA	PROV,WORD	
LEXENTRY:	ALC	ALCOVE	TYPE	
LEXENTRY:	ALD	A LA DERECHA	UNITH	
LEXENTRY:	ALLEE	ALLEE	TYPE	
LEXENTRY:	ALLEY	ALLEY	TYPE,WORD	
LEXENTRY:	ALLY	ALLEY	TYPE	
LEXENTRY:	ALT	ALTERNATE	QUALIF	
LEXENTRY:	ALTERNATE	ALTERNATE	QUALIF	
LEXENTRY:	ALTO	ALTO	WORD	
LEXENTRY:	ALTO	ALTOS	UNITH	
LEXENTRY:	ALTOS	ALTOS	UNITH,WORD	
LEXENTRY:	ALY	ALLEY	TYPE	
LEXENTRY:	AND	AND	AMPERS,WORD	
LEXENTRY:	ANEX	ANNEX	WORD,BUILDT	
LEXENTRY:	ANNEX	ANNEX	WORD,BUILDT	
LEXENTRY:	ANNX	ANNEX	WORD,BUILDT	
LEXENTRY:	ANX	ANNEX	WORD,BUILDT	
LEXENTRY:	AP	APARTMENT	UNITH	
LEXENTRY:	APART	APARTMENT	UNITH	
LEXENTRY:	APARTADO	BOX	BOXH	
LEXENTRY:	APARTEMENT	APARTEMENT	UNITH	
LEXENTRY:	APARTMENT	APARTMENT	UNITH	
LEXENTRY:	APARTMENTS	APARTMENTS	BUILDT	
LEXENTRY:	APO	APO	BOXH	
LEXENTRY:	APP	APARTEMENT	UNITH	
LEXENTRY:	APPART	APARTEMENT	UNITH	
LEXENTRY:	APPT	APARTEMENT	UNITH	
LEXENTRY:	APRK	AIRPORT	BUILDT	
LEXENTRY:	APS	APARTMENTS	BUILDT	
LEXENTRY:	APT	APARTMENT	UNITH	
LEXENTRY:	APT NO	APARTMENT	UNITH	
LEXENTRY:	APTMT	APARTMENT	UNITH	
LEXENTRY:	APTS	APARTMENTS	BUILDT	
LEXENTRY:	AR	ARKANSAS	PROV,WORD,ROAD	
LEXENTRY:	AR	ARRIERE	UNITT	
LEXENTRY:	ARC	ARCADE	TYPE,BUILDT	
LEXENTRY:	ARCADE	ARCADE	TYPE,BUILDT	
LEXENTRY:	ARIZ	ARIZONA	PROV,WORD,ROAD	
LEXENTRY:	ARIZONA	ARIZONA	PROV,WORD	
LEXENTRY:	ARK	ARKANSAS	PROV,WORD,ROAD	
LEXENTRY:	ARKANSAS	ARKANSAS	PROV,WORD	
LEXENTRY:	ARPT	AIRPORT	WORD,BUILDT	
LEXENTRY:	ARPTO	AIRPORT	WORD,BUILDT	
LEXENTRY:	ARRIERE	ARRIERE	UNITT	
LEXENTRY:	ARROYO	ARROYO	TYPE	
LEXENTRY:	ARRYO	ARROYO	TYPE	
LEXENTRY:	AT	AT	STOPWORD	
LEXENTRY:	ATPS	AUTOPISTA	TYPE	
LEXENTRY:	ATPTA	AUTOPISTA	TYPE	
LEXENTRY:	ATTN	ATTENTION	WORD	
LEXENTRY:	AU	AU	STOPWORD	
LEXENTRY:	AU	AUTOROUTE	TYPE	
LEXENTRY:	AU GRES	AU GRES	CITY	
LEXENTRY:	AU SABLE FORKS	AU SABLE FORKS	CITY	
LEXENTRY:	AU SABLE FRKS	AU SABLE FORKS	CITY	
LEXENTRY:	AU TRAIN	AU TRAIN	CITY	
LEXENTRY:	AUT	AUTOROUTE	TYPE	
LEXENTRY:	AUTO	AUTO	WORD	
LEXENTRY:	AUTO	AUTOPISTA	TYPE	
LEXENTRY:	AUTOPISTA	AUTOPISTA	TYPE	
LEXENTRY:	AUTOROUTE	AUTOROUTE	TYPE	
LEXENTRY:	AV	AVANT	UNITT	
LEXENTRY:	AV	AVENUE	TYPE	
LEXENTRY:	AVA	AVENIDA	TYPE	
LEXENTRY:	AVANT	AVANT	UNITT,WORD	
LEXENTRY:	AVE	AVENUE	TYPE	
LEXENTRY:	AVEN	AVENUE	TYPE	
";
"LEXENTRY:	AVENIDA	AVENIDA	TYPE	
LEXENTRY:	AVENU	AVENUE	TYPE	
LEXENTRY:	AVENUE	AVENUE	TYPE	
LEXENTRY:	AVENUES	AVENUES	WORD	
LEXENTRY:	AVES	AVENUES	WORD	
LEXENTRY:	AVN	AVENUE	TYPE	
LEXENTRY:	AVNUE	AVENUE	TYPE	
LEXENTRY:	AVON BY SEA	AVON BY THE SEA	CITY	
LEXENTRY:	AVON BY THE SEA	AVON BY THE SEA	CITY	
LEXENTRY:	AVS	AVENUES	WORD	
LEXENTRY:	AZ	ARIZONA	PROV,WORD,ROAD	
LEXENTRY:	B C	BRITISH COLUMBIA	PROV,WORD,ROAD	
LEXENTRY:	BA	BAY	TYPE	
LEXENTRY:	BAJO	BAJOS	UNITH	
LEXENTRY:	BAJOS	BAJOS	UNITH	
LEXENTRY:	BANK	BANK	WORD	
LEXENTRY:	BARRIO	BOROUGH	WORD	
LEXENTRY:	BASEMENT	BASEMENT	UNITT	
LEXENTRY:	BASIN	BASIN	WORD	
LEXENTRY:	BASN	BASIN	WORD	
LEXENTRY:	BAY	BAY	UNITH,WORD,TYPE	
LEXENTRY:	BAY STATE	BAY STATE	WORD	
LEXENTRY:	BAYOU	BAYOU	WORD	
LEXENTRY:	BAYOU LA BATRE	BAYOU LA BATRE	CITY	
LEXENTRY:	BAZAAR	BAZAAR	BUILDT	
LEXENTRY:	BAZR	BAZAAR	BUILDT	
LEXENTRY:	BC	BRITISH COLUMBIA	PROV,WORD,ROAD	
LEXENTRY:	BCH	BEACH	WORD,TYPE	
LEXENTRY:	BD	BOULEVARD	TYPE	
LEXENTRY:	BDG	BUILDING	BUILDT,BUILDH	
LEXENTRY:	BDNG	BUILDING	BUILDT,BUILDH	
LEXENTRY:	BDWY	BROADWAY	WORD	
LEXENTRY:	BE	BEND	TYPE	
LEXENTRY:	BEACH	BEACH	WORD,TYPE	
LEXENTRY:	BEND	BEND	WORD,TYPE	
LEXENTRY:	BETWEEN	BETWEEN	WORD	
LEXENTRY:	BG	BURG	WORD	
LEXENTRY:	BH	BEACH	TYPE	
LEXENTRY:	BIRD IN HAND	BIRD IN HAND	CITY	
LEXENTRY:	BL	BOULEVARD	TYPE	
LEXENTRY:	BLD	BUILDING	BUILDT,BUILDH	
LEXENTRY:	BLDG	BUILDING	BUILDT,BUILDH	
LEXENTRY:	BLDING	BUILDING	BUILDT,BUILDH	
LEXENTRY:	BLDNG	BUILDING	BUILDT,BUILDH	
LEXENTRY:	BLF	BLUFF	WORD,TYPE	
LEXENTRY:	BLG	BUILDING	BUILDT,BUILDH	
LEXENTRY:	BLOQUE	BLQ	UNITH	
LEXENTRY:	BLQ	BLQ	UNITH	
LEXENTRY:	BLUF	BLUFF	WORD	
LEXENTRY:	BLUFF	BLUFF	WORD,TYPE	
LEXENTRY:	BLV	BOULEVARD	TYPE	
LEXENTRY:	BLVD	BOULEVARD	TYPE	
LEXENTRY:	BLVR	BULEVAR	TYPE	
LEXENTRY:	BND	BEND	WORD,TYPE	
LEXENTRY:	BNK	BANK	WORD	
LEXENTRY:	BO	BOROUGH	WORD	
LEXENTRY:	BO	BOURG	TYPE	
LEXENTRY:	BOIS D ARC	BOIS D ARC	CITY	
LEXENTRY:	BOIS D'ARC	BOIS D ARC	CITY	
LEXENTRY:	BOITE	BOITE	BOXH	
LEXENTRY:	BOITE POSTALE	BOITE POSTALE	BOXH	
LEXENTRY:	BORO	BOROUGH	WORD	
LEXENTRY:	BOROUGH	BOROUGH	WORD	
LEXENTRY:	BOT	BOTTOM	UNITT,WORD	
LEXENTRY:	BOTTM	BOTTOM	UNITT,WORD	
LEXENTRY:	BOTTOM	BOTTOM	UNITT,WORD	
LEXENTRY:	BOUL	BOULEVARD	TYPE	
LEXENTRY:	BOULEVARD	BOULEVARD	TYPE	
LEXENTRY:	BOULV	BOULEVARD	TYPE	
LEXENTRY:	BOURG	BOURG	TYPE	
LEXENTRY:	BOX	BOX	BOXH,WORD	
LEXENTRY:	BOX NO	BOX	BOXH	
LEXENTRY:	BP	BOITE POSTALE	BOXH	
LEXENTRY:	BP	BYPASS	TYPE,QUALIF	
LEXENTRY:	BR	BRANCH	WORD	
LEXENTRY:	BRANCH	BRANCH	WORD	
LEXENTRY:	BRDG	BRIDGE	WORD	
";
"LEXENTRY:	BRDGE	BRIDGE	WORD	
LEXENTRY:	BRDWY	BROADWAY	WORD	
LEXENTRY:	BRG	BRIDGE	WORD,TYPE	
LEXENTRY:	BRIDGE	BRIDGE	WORD	
LEXENTRY:	BRIDGES	BRIDGE	WORD	
LEXENTRY:	BRITISH COLUMBIA	BRITISH COLUMBIA	PROV,WORD	
LEXENTRY:	BRK	BROOK	WORD	
LEXENTRY:	BROADWAY	BROADWAY	WORD	
LEXENTRY:	BROOK	BROOK	WORD	
LEXENTRY:	BRWY	BROADWAY	WORD	
LEXENTRY:	BSMNT	BASEMENT	UNITT	
LEXENTRY:	BSMT	BASEMENT	UNITT	
LEXENTRY:	BSPK	BUSINESS PARK	BUILDT	
LEXENTRY:	BSRT	BUSINESS ROUTE	ROAD	
LEXENTRY:	BSRTE	BUSINESS ROUTE	ROAD	
LEXENTRY:	BST	BASEMENT	UNITT	
LEXENTRY:	BTM	BOTTOM	WORD	
LEXENTRY:	BTWN	BETWEEN	WORD	
LEXENTRY:	BUENA VISTA	BUENA VISTA	WORD	
LEXENTRY:	BUILD	BUILDING	BUILDT,BUILDH	
LEXENTRY:	BUILDING	BUILDING	BUILDT,BUILDH	
LEXENTRY:	BUILDING NUMBER	#	BUILDH	
LEXENTRY:	BUILDNG	BUILDING	BUILDT,BUILDH	
LEXENTRY:	BULDNG	BUILDING	BUILDT,BUILDH	
LEXENTRY:	BULEVAR	BULEVAR	TYPE	
LEXENTRY:	BUR	BUREAU	UNITT	
LEXENTRY:	BUREAU	BUREAU	UNITH,WORD,UNITT	
LEXENTRY:	BURG	BURG	WORD	
LEXENTRY:	BUS	BUSINESS	QUALIF	
LEXENTRY:	BUS CENTER	BUSINESS PARK	BUILDT	
LEXENTRY:	BUS CENTR	BUSINESS PARK	BUILDT	
LEXENTRY:	BUS CTR	BUSINESS PARK	BUILDT	
LEXENTRY:	BUS PARK	BUSINESS PARK	BUILDT	
LEXENTRY:	BUS PK	BUSINESS PARK	BUILDT	
LEXENTRY:	BUSCENTER	BUSINESS PARK	BUILDT	
LEXENTRY:	BUSCENTR	BUSINESS PARK	BUILDT	
LEXENTRY:	BUSCTR	BUSINESS PARK	BUILDT	
LEXENTRY:	BUSINESS	BUSINESS	QUALIF,WORD	
LEXENTRY:	BUSINESS CENTER	BUSINESS PARK	BUILDT	
LEXENTRY:	BUSINESS CENTR	BUSINESS PARK	BUILDT	
LEXENTRY:	BUSINESS CTR	BUSINESS PARK	BUILDT	
LEXENTRY:	BUSINESS PARK	BUSINESS PARK	BUILDT	
LEXENTRY:	BUSINESS PK	BUSINESS PARK	BUILDT	
LEXENTRY:	BUSPARK	BUSINESS PARK	BUILDT	
LEXENTRY:	BUSPK	BUSINESS PARK	BUILDT	
LEXENTRY:	BUSROUTE	BUSINESS ROUTE	ROAD	
LEXENTRY:	BUSRT	BUSINESS ROUTE	ROAD	
LEXENTRY:	BUSRTE	BUSINESS ROUTE	ROAD	
LEXENTRY:	BV	BOULEVARD	TYPE	
LEXENTRY:	BX	BOX	BOXH	
LEXENTRY:	BY	BY	WORD	
LEXENTRY:	BY	BYWAY	TYPE	
LEXENTRY:	BY PASS	BYPASS	QUALIF,TYPE	
LEXENTRY:	BY WAY	BYWAY	TYPE	
LEXENTRY:	BYP	BYPASS	QUALIF,TYPE	
LEXENTRY:	BYPA	BYPASS	QUALIF,TYPE	
LEXENTRY:	BYPAS	BYPASS	QUALIF,TYPE	
LEXENTRY:	BYPASS	BYPASS	QUALIF,TYPE	
LEXENTRY:	BYPS	BYPASS	QUALIF,TYPE	
LEXENTRY:	BYU	BAYOU	WORD	
LEXENTRY:	BYWAY	BYWAY	TYPE	
LEXENTRY:	C	C	SINGLE	
LEXENTRY:	C / O	CARE OF	DASH	
LEXENTRY:	C D O	COMMERCIAL DEALERSHIP	BUILDT	
LEXENTRY:	C F B	CANADIAN FORCES BASE	BUILDT	
LEXENTRY:	C M C	COMMUNITY MAIL CENTRE	BUILDT	
LEXENTRY:	C R	COUNTY ROAD	ROAD,TYPE	
LEXENTRY:	C/O	CARE OF	DASH	
LEXENTRY:	CA	CALIFORNIA	PROV,WORD,ROAD	
LEXENTRY:	CA	CANADA	NATION	
";
"LEXENTRY:	CA	CARRE	TYPE	
LEXENTRY:	CALIF	CALIFORNIA	PROV,WORD,ROAD	
LEXENTRY:	CALIFORNIA	CALIFORNIA	PROV,WORD	
LEXENTRY:	CALLE	CALLE	TYPE	
LEXENTRY:	CALLEJ	CALLEJON	TYPE	
LEXENTRY:	CALLEJA	CALLEJA	TYPE	
LEXENTRY:	CALLEJO	CALLEJON	TYPE	
LEXENTRY:	CALLEJON	CALLEJON	TYPE	
LEXENTRY:	CALLEJÓN	CALLEJON	TYPE	
LEXENTRY:	CALLER	POST OFFICE BOX	BOXH	
LEXENTRY:	CAM	CAMINO	TYPE	
LEXENTRY:	CAMPO	CAMPO	TYPE	
LEXENTRY:	CAMDEN ON GAULEY	CAMDEN ON GAULEY	CITY	
LEXENTRY:	CAMINITO	CAMINITO	TYPE	
LEXENTRY:	CAMINO	CAMINO	TYPE	
LEXENTRY:	CAMP	CAMP	WORD	
LEXENTRY:	CAMP H M SMITH	CAMP H M SMITH	CITY	
LEXENTRY:	CAMP HM SMITH	CAMP H M SMITH	CITY	
LEXENTRY:	CAMPER PARK	TRAILER PARK	BUILDT	
LEXENTRY:	CAMPER PK	TRAILER PARK	BUILDT	
LEXENTRY:	CAMPUS	CAMPUS	WORD,TYPE	
LEXENTRY:	CANADA	CANADA	NATION,WORD	
LEXENTRY:	CANADIAN FORCES BASE	CANADIAN FORCES BASE	BUILDT	
LEXENTRY:	CANYN	CANYON	WORD	
LEXENTRY:	CANYON	CANYON	WORD	
LEXENTRY:	CAPE	CAPE	WORD,TYPE	
LEXENTRY:	CARDIFF BY SEA	CARDIFF BY THE SEA	CITY	
LEXENTRY:	CARDIFF BY THE SEA	CARDIFF BY THE SEA	CITY	
LEXENTRY:	CARE OF	CARE OF	DASH	
LEXENTRY:	CARR	CARRETERA	TYPE	
LEXENTRY:	CARRE	CARRE	WORD,TYPE	
LEXENTRY:	CARREF	CARREFOUR	TYPE	
LEXENTRY:	CARREFOUR	CARREFOUR	TYPE	
LEXENTRY:	CARRETERA	CARRETERA	TYPE	
LEXENTRY:	CARRT	CARRETERA	TYPE	
LEXENTRY:	CASTLETON ON HUDSON	CASTLETON ON HUDSON	CITY	
LEXENTRY:	CAUSEWAY	CAUSEWAY	TYPE	
LEXENTRY:	CAVE IN ROCK	CAVE IN ROCK	CITY	
LEXENTRY:	CC	CIRCUIT	TYPE	
LEXENTRY:	CDN	CANADIAN	WORD	
LEXENTRY:	CDO	COMMERCIAL DEALERSHIP	BUILDT	
LEXENTRY:	CDS	CUL DE SAC	TYPE	
LEXENTRY:	CE	CENTRE	TYPE	
LEXENTRY:	CEN	CENTER	BUILDT,TYPE	
LEXENTRY:	CENT	CENTER	BUILDT,TYPE	
LEXENTRY:	CENTE	CENTER	BUILDT,TYPE	
LEXENTRY:	CENTER	CENTER	BUILDT,TYPE,WORD	
LEXENTRY:	CENTERS	CENTER	BUILDT	
LEXENTRY:	CENTR	CENTER	BUILDT,TYPE	
LEXENTRY:	CENTRAL	CENTRAL	WORD	
LEXENTRY:	CENTRE	CENTER	BUILDT,TYPE,WORD	
LEXENTRY:	CENTRES	CENTER	BUILDT	
LEXENTRY:	CENTRO	CENTER	BUILDT,TYPE	
LEXENTRY:	CERCLE	CERCLE	TYPE,WORD	
LEXENTRY:	CFB	CANADIAN FORCES BASE	BUILDT	
LEXENTRY:	CG	CROSSING	TYPE	
LEXENTRY:	CH	CHEMIN	TYPE	
LEXENTRY:	CH	CHURCH	BUILDT	
LEXENTRY:	CHASE	CHASE	TYPE,WORD	
LEXENTRY:	CHEMIN	CHEMIN	TYPE	
LEXENTRY:	CHURCH	CHURCH	WORD,BUILDT	
LEXENTRY:	CIR	CIRCLE	TYPE	
LEXENTRY:	CIRC	CIRCULO	TYPE	
LEXENTRY:	CIRCL	CIRCLE	TYPE	
LEXENTRY:	CIRCLE	CIRCLE	TYPE,WORD	
LEXENTRY:	CIRCT	CIRCUIT	TYPE,WORD	
LEXENTRY:	CIRCUIT	CIRCUIT	TYPE,WORD	
LEXENTRY:	CIRCULO	CIRCULO	TYPE	
LEXENTRY:	CJA	CALLEJA	TYPE	
LEXENTRY:	CJON	CALLEJON	TYPE	
LEXENTRY:	CK	CREEK	WORD	
";
"LEXENTRY:	CL	CIRCLE	TYPE,WORD	
LEXENTRY:	CLB	CLUB	TYPE,BUILDT,WORD	
LEXENTRY:	CLF	CLIFF	WORD	
LEXENTRY:	CLFS	CLIFFS	WORD	
LEXENTRY:	CLG	COLLEGE	BUILDT	
LEXENTRY:	CLIFF	CLIFF	WORD	
LEXENTRY:	CLIFFS	CLIFFS	WORD	
LEXENTRY:	CLLE	CALLE	TYPE	
LEXENTRY:	CLLJ	CALLEJON	TYPE	
LEXENTRY:	CLOS	CLOSE	TYPE,WORD	
LEXENTRY:	CLOSE	CLOSE	TYPE,WORD	
LEXENTRY:	CLTN	COLLECTION	BUILDT	
LEXENTRY:	CLUB	CLUB	TYPE,BUILDT,WORD	
LEXENTRY:	CMC	COMMUNITY MAIL CENTRE	BUILDT	
LEXENTRY:	CMNS	COMMONS	TYPE,BUILDT	
LEXENTRY:	CMP	CAMP	WORD	
LEXENTRY:	CN	CONCESSION	TYPE,WORD	
LEXENTRY:	CNCN	CONNECTION	BUILDT	
LEXENTRY:	CNR	CORNER	BUILDT,TYPE	
LEXENTRY:	CNT	CENTER	BUILDT,TYPE	
LEXENTRY:	CNTER	CENTER	BUILDT,TYPE	
LEXENTRY:	CNTR	CENTER	BUILDT,TYPE	
LEXENTRY:	CNTRE	CENTER	BUILDT,TYPE	
LEXENTRY:	CNTRL	CENTRAL	WORD	
LEXENTRY:	CNTY HIGHWAY	COUNTY HIGHWAY	ROAD	
LEXENTRY:	CNTY HIWAY	COUNTY HIGHWAY	ROAD	
LEXENTRY:	CNTY HWY	COUNTY HIGHWAY	ROAD	
LEXENTRY:	CNTY RD	COUNTY ROAD	ROAD,TYPE	
LEXENTRY:	CNTY ROAD	COUNTY ROAD	ROAD,TYPE	
LEXENTRY:	CNTY ROUTE	COUNTY ROUTE	ROAD	
LEXENTRY:	CNTY RT	COUNTY ROUTE	ROAD	
LEXENTRY:	CNTY RTE	COUNTY ROUTE	ROAD	
LEXENTRY:	CNYN	CANYON	WORD	
LEXENTRY:	CO	COLORADO	PROV,WORD,ROAD	
LEXENTRY:	CO	COTE	TYPE	
LEXENTRY:	CO HIGHWAY	COUNTY HIGHWAY	ROAD	
LEXENTRY:	CO HIWAY	COUNTY HIGHWAY	ROAD	
LEXENTRY:	CO HWY	COUNTY HIGHWAY	ROAD	
LEXENTRY:	CO RD	COUNTY ROAD	ROAD,TYPE	
LEXENTRY:	CO ROAD	COUNTY ROAD	ROAD,TYPE	
LEXENTRY:	CO ROUTE	COUNTY ROUTE	ROAD	
LEXENTRY:	CO RT	COUNTY ROUTE	ROAD	
LEXENTRY:	CO RTE	COUNTY ROUTE	ROAD	
LEXENTRY:	COEUR D ALENE	COEUR D ALENE	CITY	
LEXENTRY:	COEUR D'ALENE	COEUR D ALENE	CITY	
LEXENTRY:	COHWY	COUNTY HIGHWAY	ROAD	
LEXENTRY:	COL	COLONEL	WORD	
LEXENTRY:	COLL	COLLEGE	BUILDT,WORD	
LEXENTRY:	COLLECTION	COLLECTION	BUILDT	
LEXENTRY:	COLLEGE	COLLEGE	BUILDT,BUILDH,WORD	
LEXENTRY:	COLOMBIE BRITANNIQUE	BRITISH COLUMBIA	PROV,WORD	
LEXENTRY:	COLONEL	COLONEL	WORD	
LEXENTRY:	COLONIA	COLONIA	TYPE,WORD	
LEXENTRY:	COLORADO	COLORADO	PROV,WORD	
LEXENTRY:	COMMERCIAL DEALERSHIP OU	COMMERCIAL DEALERSHIP	BUILDT	
LEXENTRY:	COMMON	COMMON	TYPE	
LEXENTRY:	COMMON	COMMONS	BUILDT	
LEXENTRY:	COMMONS	COMMONS	TYPE,BUILDT	
LEXENTRY:	COMMUNITY MAIL CENTRE	COMMUNITY MAIL CENTRE	BUILDT	
LEXENTRY:	COMN	COMMON	TYPE	
LEXENTRY:	COMN	COMMONS	BUILDT	
LEXENTRY:	COMP	COMPLEX	BUILDT	
LEXENTRY:	COMPLEX	COMPLEX	BUILDT	
LEXENTRY:	CONC	CONCESSION	TYPE,WORD	
LEXENTRY:	CONCESSION	CONCESSION	TYPE,WORD	
LEXENTRY:	COND	CONDOMINIUMS	BUILDT	
LEXENTRY:	CONDO	CONDOMINIUMS	BUILDT	
LEXENTRY:	CONDOMINIO	CONDOMINIUMS	BUILDT	
";
"LEXENTRY:	CONDOMINIUM	CONDOMINIUMS	BUILDT	
LEXENTRY:	CONDOMINIUMS	CONDOMINIUMS	BUILDT	
LEXENTRY:	CONDOS	CONDOMINIUMS	BUILDT	
LEXENTRY:	CONN	CONNECTICUT	PROV,WORD,ROAD	
LEXENTRY:	CONN	CONNECTOR	TYPE,QUALIF	
LEXENTRY:	CONNECTICUT	CONNECTICUT	PROV,WORD	
LEXENTRY:	CONNECTION	CONNECTION	BUILDT	
LEXENTRY:	CONNECTOR	CONNECTOR	TYPE,QUALIF,WORD	
LEXENTRY:	CONTRACT	CONTRACT	WORD	
LEXENTRY:	CONTRACT	HIGHWAY CONTRACT ROUTE	RR	
LEXENTRY:	COOP	COOPERATIVE	BUILDT,WORD	
LEXENTRY:	COOPERATIVE	COOPERATIVE	BUILDT,WORD	
LEXENTRY:	COR	CORNER	WORD	
LEXENTRY:	COR	CORNERS	BUILDT	
LEXENTRY:	CORD	COUNTY ROAD	TYPE	
LEXENTRY:	CORD	COUNTY ROUTE	ROAD	
LEXENTRY:	CORNER	CORNER	BUILDT,WORD,TYPE	
LEXENTRY:	CORNERS	CORNERS	TYPE,BUILDT,WORD	
LEXENTRY:	CORNWALL ON HUDSON	CORNWALL ON HUDSON	CITY	
LEXENTRY:	CORS	CORNERS	TYPE,BUILDT,WORD	
LEXENTRY:	CORSO	CORSO	TYPE,WORD	
LEXENTRY:	CORT	COUNTY ROUTE	ROAD	
LEXENTRY:	CORTE	COUNTY ROUTE	ROAD	
LEXENTRY:	CORTE	COURT	TYPE	
LEXENTRY:	COTE	COTE	TYPE,WORD	
LEXENTRY:	COTTAGE	COTTAGE	BUILDT,BUILDH,WORD	
LEXENTRY:	COUNTY	COUNTY	WORD	
LEXENTRY:	COUNTY	COUNTY ROAD	ROAD	
LEXENTRY:	COUNTY HIGHWAY	COUNTY HIGHWAY	ROAD	
LEXENTRY:	COUNTY HIWAY	COUNTY HIGHWAY	ROAD	
LEXENTRY:	COUNTY HWY	COUNTY HIGHWAY	ROAD	
LEXENTRY:	COUNTY RD	COUNTY ROAD	ROAD,TYPE	
LEXENTRY:	COUNTY ROAD	COUNTY ROAD	ROAD,TYPE	
LEXENTRY:	COUNTY ROUTE	COUNTY ROUTE	ROAD	
LEXENTRY:	COUNTY RT	COUNTY ROUTE	ROAD	
LEXENTRY:	COUNTY RTE	COUNTY ROUTE	ROAD	
LEXENTRY:	COUNTY TRUNK	COUNTY ROAD	ROAD	
LEXENTRY:	COUR	COUR	TYPE	
LEXENTRY:	COURSE	COURSE	WORD	
LEXENTRY:	COURT	COURT	TYPE,WORD	
LEXENTRY:	COURT HOUSE	COURTHOUSE	BUILDT	
LEXENTRY:	COURT HSE	COURTHOUSE	BUILDT	
LEXENTRY:	COURT YARD	COURTYARD	BUILDT	
LEXENTRY:	COURTHOUSE	COURTHOUSE	BUILDT,WORD	
LEXENTRY:	COURTHSE	COURTHOUSE	BUILDT	
LEXENTRY:	COURTS	COURTS	TYPE,BUILDT,WORD	
LEXENTRY:	COURTYARD	COURTYARD	BUILDT	
LEXENTRY:	COURTYARDS	COURTYARD	BUILDT	
LEXENTRY:	COV	COVE	TYPE	
LEXENTRY:	COVE	COVE	TYPE	
LEXENTRY:	CP	CAMP	WORD	
LEXENTRY:	CPE	CAPE	WORD	
LEXENTRY:	CPLX	COMPLEX	BUILDT	
LEXENTRY:	CPO	POST OFFICE BOX	BOXH	
LEXENTRY:	CPO BOX	POST OFFICE BOX	BOXH	
LEXENTRY:	CR	COUNTY ROAD	ROAD	
LEXENTRY:	CR	CRESCENT	TYPE	
LEXENTRY:	CRCL	CIRCLE	TYPE	
LEXENTRY:	CRCLE	CIRCLE	TYPE	
LEXENTRY:	CRDS	CROSSROADS	BUILDT	
LEXENTRY:	CREEK	CREEK	WORD	
LEXENTRY:	CRES	CRESCENT	TYPE	
LEXENTRY:	CRESCENT	CRESCENT	TYPE,WORD	
LEXENTRY:	CRESENT	CRESCENT	TYPE	
LEXENTRY:	CRK	CREEK	WORD,TYPE	
LEXENTRY:	CRNR	CORNER	BUILDT,TYPE	
LEXENTRY:	CRNRS	CORNERS	TYPE	
LEXENTRY:	CROISSANT	CROISSANT	TYPE,WORD	
";
"LEXENTRY:	CROSS	CROSS	TYPE,BUILDT	
LEXENTRY:	CROSS ROAD	CROSSROAD	BUILDT	
LEXENTRY:	CROSS ROADS	CROSSROADS	BUILDT	
LEXENTRY:	CROSSING	CROSSING	TYPE,BUILDT	
LEXENTRY:	CROSSINGS	CROSSING	BUILDT	
LEXENTRY:	CROSSROAD	CROSSROAD	TYPE,WORD	
LEXENTRY:	CROSSROADS	CROSSROADS	BUILDT	
LEXENTRY:	CROTON ON HUDSON	CROTON ON HUDSON	CITY	
LEXENTRY:	CRSCNT	CRESCENT	TYPE	
LEXENTRY:	CRSE	COURSE	WORD	
LEXENTRY:	CRSENT	CRESCENT	TYPE	
LEXENTRY:	CRSG	CROSSING	TYPE,BUILDT	
LEXENTRY:	CRSGS	CROSSING	BUILDT	
LEXENTRY:	CRSNT	CRESCENT	TYPE	
LEXENTRY:	CRSSNG	CROSSING	TYPE,BUILDT	
LEXENTRY:	CRST	CRESCENT	TYPE	
LEXENTRY:	CRT	COURT	TYPE	
LEXENTRY:	CRT HSE	COURTHOUSE	BUILDT	
LEXENTRY:	CRTHSE	COURTHOUSE	BUILDT	
LEXENTRY:	CRU	CRUCE	TYPE	
LEXENTRY:	CRUC	CRUCE	TYPE	
LEXENTRY:	CRUCE	CRUCE	TYPE	
LEXENTRY:	CRV	CURVE	TYPE	
LEXENTRY:	CS	CLOSE	TYPE	
LEXENTRY:	CSWY	CAUSEWAY	TYPE	
LEXENTRY:	CT	CONNECTICUT	PROV,PROV,WORD,ROAD	
LEXENTRY:	CT	COURT	TYPE	
LEXENTRY:	CT HSE	COURTHOUSE	BUILDT	
LEXENTRY:	CT YARD	COURTYARD	BUILDT	
LEXENTRY:	CT YD	COURTYARD	BUILDT	
LEXENTRY:	CTER	CENTER	BUILDT,TYPE	
LEXENTRY:	CTHS	COURTHOUSE	BUILDT	
LEXENTRY:	CTHSE	COURTHOUSE	BUILDT	
LEXENTRY:	CTR	CENTER	BUILDT,TYPE	
LEXENTRY:	CTRO	CENTER	BUILDT	
LEXENTRY:	CTS	COURTS	TYPE,BUILDT,WORD	
LEXENTRY:	CTY HIGHWAY	COUNTY HIGHWAY	ROAD	
LEXENTRY:	CTY HIWAY	COUNTY HIGHWAY	ROAD	
LEXENTRY:	CTY HWY	COUNTY HIGHWAY	ROAD	
LEXENTRY:	CTY RD	COUNTY ROAD	ROAD,TYPE	
LEXENTRY:	CTY ROAD	COUNTY ROAD	ROAD,TYPE	
LEXENTRY:	CTY ROUTE	COUNTY ROUTE	ROAD	
LEXENTRY:	CTY RT	COUNTY ROUTE	ROAD	
LEXENTRY:	CTY RTE	COUNTY ROUTE	ROAD	
LEXENTRY:	CTYD	COURTYARD	BUILDT	
LEXENTRY:	CU	COUR	TYPE	
LEXENTRY:	CUESTA	CUESTA	TYPE	
LEXENTRY:	CUL DE SAC	CUL DE SAC	TYPE	
LEXENTRY:	CULDESAC	CUL DE SAC	TYPE	
LEXENTRY:	CURRY RD	CURRY ROAD	ROAD	
LEXENTRY:	CURRY ROAD	CURRY ROAD	ROAD	
LEXENTRY:	CURV	CURVE	WORD,TYPE	
LEXENTRY:	CURVE	CURVE	WORD,TYPE	
LEXENTRY:	CUSHING	HARVEY L CUSHING	WORD	
LEXENTRY:	CV	COVE	TYPE	
LEXENTRY:	CX	CHASE	TYPE	
LEXENTRY:	CYN	CANYON	WORD	
LEXENTRY:	CZ	CORNERS	TYPE	
LEXENTRY:	D	D	SINGLE,STOPWORD	
LEXENTRY:	D B A	DBA	WORD	
LEXENTRY:	D HANIS	D HANIS	CITY	
LEXENTRY:	D OR	D OR	WORD	
LEXENTRY:	D'HANIS	D HANIS	CITY	
LEXENTRY:	DALE	DALE	WORD,TYPE	
LEXENTRY:	DAM	DAM	WORD	
LEXENTRY:	DBA	DBA	WORD	
LEXENTRY:	DC	DISTRICT OF COLUMBIA	PROV,WORD,ROAD	
LEXENTRY:	DE	DE	STOPWORD,ROAD	
LEXENTRY:	DE	DELAWARE	PROV,WORD	
LEXENTRY:	DE BEQUE	DE BEQUE	CITY	
LEXENTRY:	DE BERRY	DE BERRY	CITY	
LEXENTRY:	DE FOREST	DE FOREST	CITY	
LEXENTRY:	DE GRAFF	DE GRAFF	CITY	
";
"LEXENTRY:	DE KALB	DE KALB	CITY	
LEXENTRY:	DE KALB JUNCTION	DE KALB JUNCTION	CITY	
LEXENTRY:	DE LA	DE LA	STOPWORD	
LEXENTRY:	DE LAND	DE LAND	CITY	
LEXENTRY:	DE LAS	DE LAS	STOPWORD	
LEXENTRY:	DE LEON	DE LEON	CITY	
LEXENTRY:	DE LEON SPRINGS	DE LEON SPRINGS	CITY	
LEXENTRY:	DE LOS	DE LOS	STOPWORD	
LEXENTRY:	DE MOSSVILLE	DE MOSSVILLE	CITY	
LEXENTRY:	DE PERE	DE PERE	CITY	
LEXENTRY:	DE PEYSTER	DE PEYSTER	CITY	
LEXENTRY:	DE QUEEN	DE QUEEN	CITY	
LEXENTRY:	DE RUYTER	DE RUYTER	CITY	
LEXENTRY:	DE SMET	DE SMET	CITY	
LEXENTRY:	DE SOTO	DE SOTO	CITY	
LEXENTRY:	DE TOUR VILLAGE	DE TOUR VILLAGE	CITY	
LEXENTRY:	DE VALLS BLUFF	DE VALLS BLUFF	CITY	
LEXENTRY:	DE WITT	DE WITT	CITY	
LEXENTRY:	DE YOUNG	DE YOUNG	CITY	
LEXENTRY:	DEL	DE	STOPWORD	
LEXENTRY:	DEL	DELAWARE	PROV,WORD,ROAD	
LEXENTRY:	DELAWARE	DELAWARE	PROV,WORD	
LEXENTRY:	DELL	DELL	WORD,TYPE	
LEXENTRY:	DEPARTMENT	DEPARTMENT	UNITH,WORD	
LEXENTRY:	DEPT	DEPARTMENT	UNITH,WORD	
LEXENTRY:	DERE	DERECHO	UNITH	
LEXENTRY:	DERECHO	DERECHO	UNITH	
LEXENTRY:	DES	DES	STOPWORD	
LEXENTRY:	DEUX	2	WORD,NUMBER	
LEXENTRY:	DEUXIEME	DEUXIEME	WORD	
LEXENTRY:	DI	DI	STOPWORD	
LEXENTRY:	DI	DIVERSION	TYPE,WORD	
LEXENTRY:	DISTRICT OF COLUMBIA	DISTRICT OF COLUMBIA	PROV,WORD	
LEXENTRY:	DIV	DIVIDE	WORD	
LEXENTRY:	DIVERS	DIVERSION	TYPE,WORD	
LEXENTRY:	DIVERSION	DIVERSION	TYPE,WORD	
LEXENTRY:	DIVIDE	DIVIDE	WORD	
LEXENTRY:	DL	DALE	WORD	
LEXENTRY:	DL	DELL	TYPE	
LEXENTRY:	DM	DAM	WORD	
LEXENTRY:	DNS	DOWNS	TYPE,WORD	
LEXENTRY:	DO	DOWNS	TYPE	
LEXENTRY:	DORM	DORMITORY	BUILDT	
LEXENTRY:	DORMITORY	DORMITORY	BUILDT	
LEXENTRY:	DOWN	DOWN	UNITT,WORD	
LEXENTRY:	DOWNS	DOWNS	TYPE,WORD	
LEXENTRY:	DOWNSTAIRS	DOWNSTAIRS	UNITT	
LEXENTRY:	DR	DOCTOR	WORD	
LEXENTRY:	DR	DRIVE	TYPE	
LEXENTRY:	DRAW	DRAW	WORD,TYPE	
LEXENTRY:	DRAWER	POST OFFICE BOX	BOXH	
LEXENTRY:	DRI	DRIVE	TYPE	
LEXENTRY:	DRIVE	DRIVE	TYPE	
LEXENTRY:	DRIVEWAY	DRIVEWAY	TYPE	
LEXENTRY:	DRV	DRIVE	TYPE	
LEXENTRY:	DRWY	DRIVEWAY	TYPE	
LEXENTRY:	DU	DU	STOPWORD	
LEXENTRY:	DU BOIS	DU BOIS	CITY	
LEXENTRY:	DU PONT	DU PONT	CITY	
LEXENTRY:	DU QUOIN	DU QUOIN	CITY	
LEXENTRY:	DV	DIVIDE	WORD	
LEXENTRY:	E	E	SINGLE	
LEXENTRY:	E	EAST	DIRECT	
LEXENTRY:	E MC KEESPORT	EAST MC KEESPORT	CITY	
LEXENTRY:	E MCKEESPORT	EAST MC KEESPORT	CITY	
LEXENTRY:	EAST	EAST	DIRECT	
LEXENTRY:	EAST & WEST	EAST & WEST	WORD	
LEXENTRY:	EAST MC KEESPORT	EAST MC KEESPORT	CITY	
LEXENTRY:	EAST MCKEESPORT	EAST MC KEESPORT	CITY	
LEXENTRY:	EAST WEST	EAST WEST	WORD	
LEXENTRY:	EASTBOUND	EASTBOUND	WORD,QUALIF	
LEXENTRY:	ECH	ECHANGEUR	TYPE	
";
"LEXENTRY:	ECHANGEUR	ECHANGEUR	TYPE	
LEXENTRY:	ECHO	ECHO	TYPE,WORD	
LEXENTRY:	EDF	EDIFICIO	BUILDT	
LEXENTRY:	EDIF	EDIFICIO	BUILDT	
LEXENTRY:	EDIFICIO	EDIFICIO	BUILDT	
LEXENTRY:	EIGHT	8	WORD,NUMBER	
LEXENTRY:	EIGHT MILE	EIGHT MILE	WORD	
LEXENTRY:	EIGHTEEEN MILE	EIGHTEEEN MILE	WORD	
LEXENTRY:	EIGHTEEN	18	NUMBER,WORD	
LEXENTRY:	EIGHTEENTH	18	WORD,ORD	
LEXENTRY:	EIGHTH	8	WORD,ORD	
LEXENTRY:	EIGHTIETH	80	WORD,ORD	
LEXENTRY:	EIGHTY	80	NUMBER,WORD	
LEXENTRY:	EIGHTY EIGHT	88	NUMBER,WORD	
LEXENTRY:	EIGHTY EIGHTH	88	WORD,ORD	
LEXENTRY:	EIGHTY FIFTH	85	WORD,ORD	
LEXENTRY:	EIGHTY FIRST	81	WORD,ORD	
LEXENTRY:	EIGHTY FIVE	85	NUMBER,WORD	
LEXENTRY:	EIGHTY FOUR	84	NUMBER,WORD	
LEXENTRY:	EIGHTY FOURTH	84	WORD,ORD	
LEXENTRY:	EIGHTY NINE	89	NUMBER,WORD	
LEXENTRY:	EIGHTY NINTH	89	WORD,ORD	
LEXENTRY:	EIGHTY ONE	81	NUMBER,WORD	
LEXENTRY:	EIGHTY SECOND	82	WORD,ORD	
LEXENTRY:	EIGHTY SEVEN	87	NUMBER,WORD	
LEXENTRY:	EIGHTY SEVENTH	87	WORD,ORD	
LEXENTRY:	EIGHTY SIX	86	NUMBER,WORD	
LEXENTRY:	EIGHTY SIXTH	86	WORD,ORD	
LEXENTRY:	EIGHTY THIRD	83	WORD,ORD	
LEXENTRY:	EIGHTY THREE	83	NUMBER,WORD	
LEXENTRY:	EIGHTY TWO	82	NUMBER,WORD	
LEXENTRY:	EL	EL	STOPWORD	
LEXENTRY:	EL CAJON	EL CAJON	CITY	
LEXENTRY:	EL CAMINO	CAMINO	TYPE	
LEXENTRY:	EL CAMPO	EL CAMPO	CITY	
LEXENTRY:	EL CENTRO	EL CENTRO	CITY	
LEXENTRY:	EL CERRITO	EL CERRITO	CITY	
LEXENTRY:	EL DORADO	EL DORADO	CITY	
LEXENTRY:	EL DORADO HILLS	EL DORADO HILLS	CITY	
LEXENTRY:	EL DORADO SPRINGS	EL DORADO SPRINGS	CITY	
LEXENTRY:	EL MIRAGE	EL MIRAGE	CITY	
LEXENTRY:	EL MONTE	EL MONTE	CITY	
LEXENTRY:	EL NIDO	EL NIDO	CITY	
LEXENTRY:	EL PASO	EL PASO	CITY,WORD	
LEXENTRY:	EL PRADO	EL PRADO	CITY	
LEXENTRY:	EL RENO	EL RENO	CITY	
LEXENTRY:	EL RITO	EL RITO	CITY	
LEXENTRY:	EL SEGUNDO	EL SEGUNDO	CITY	
LEXENTRY:	EL SOBRANTE	EL SOBRANTE	CITY	
LEXENTRY:	ELEVEN	11	NUMBER,WORD	
LEXENTRY:	ELEVEN MILE	ELEVEN MILE	WORD	
LEXENTRY:	ELEVENTH	11	WORD,ORD	
LEXENTRY:	EMS	EMS	ROAD	
LEXENTRY:	EN	END	TYPE	
LEXENTRY:	END	END	WORD,TYPE	
LEXENTRY:	ENT	ENTRY	UNITT,TYPE	
LEXENTRY:	ENTREE	ENTREE	UNITT,WORD	
LEXENTRY:	ENTRY	ENTRY	UNITT,WORD	
LEXENTRY:	ES	ESPLANADE	TYPE	
LEXENTRY:	ESP	ESPLANADE	BUILDT	
LEXENTRY:	ESPL	ESPLANADE	BUILDT,TYPE,WORD	
LEXENTRY:	ESPLANADE	ESPLANADE	BUILDT,WORD,TYPE	
LEXENTRY:	EST	EST	DIRECT	
LEXENTRY:	EST	ESTATES	WORD,BUILDT,TYPE	
LEXENTRY:	ESTATE	ESTATES	WORD,BUILDT,TYPE	
LEXENTRY:	ESTATES	ESTATES	WORD,BUILDT,TYPE	
LEXENTRY:	ESTE	ESTE	DIRECT,WORD	
LEXENTRY:	ESTS	ESTATES	WORD,BUILDT,TYPE	
LEXENTRY:	ET	ESTATES	TYPE	
LEXENTRY:	ET	ET	STOPWORD	
";
"LEXENTRY:	ET	ETAGE	UNITT	
LEXENTRY:	ETAGE	ETAGE	WORD,UNITT	
LEXENTRY:	EX	EXTENDED	QUALIF	
LEXENTRY:	EX	EXTENSION	TYPE	
LEXENTRY:	EXCH	EXCHANGE	BUILDT,TYPE	
LEXENTRY:	EXCHANGE	EXCHANGE	BUILDT,TYPE,WORD	
LEXENTRY:	EXEC	EXECUTIVE	WORD	
LEXENTRY:	EXECUTIVE	EXECUTIVE	WORD	
LEXENTRY:	EXP	EXPRESSWAY	TYPE	
LEXENTRY:	EXPR	EXPRESSWAY	TYPE	
LEXENTRY:	EXPRESO	EXPRESO	TYPE	
LEXENTRY:	EXPRESS	EXPRESSWAY	TYPE	
LEXENTRY:	EXPRESSWAY	EXPRESSWAY	TYPE	
LEXENTRY:	EXPW	EXPRESSWAY	TYPE	
LEXENTRY:	EXPWAY	EXPRESSWAY	TYPE	
LEXENTRY:	EXPWY	EXPRESSWAY	TYPE	
LEXENTRY:	EXPY	EXPRESSWAY	TYPE	
LEXENTRY:	EXT	EXTENSION	QUALIF,TYPE	
LEXENTRY:	EXTD	EXTENDED	QUALIF	
LEXENTRY:	EXTEN	EXTENSION	QUALIF,TYPE	
LEXENTRY:	EXTENDED	EXTENDED	QUALIF	
LEXENTRY:	EXTENSION	EXTENSION	QUALIF,TYPE	
LEXENTRY:	EXTN	EXTENSION	QUALIF,TYPE	
LEXENTRY:	EXTSN	EXTENSION	QUALIF,TYPE	
LEXENTRY:	EXWY	EXPRESSWAY	TYPE	
LEXENTRY:	F M	FARM TO MARKET ROAD	ROAD	
LEXENTRY:	F M RD	FARM TO MARKET ROAD	ROAD,TYPE	
LEXENTRY:	F M ROAD	FARM TO MARKET ROAD	ROAD,TYPE	
LEXENTRY:	FACTORY OUTLET	OUTLET	BUILDT	
LEXENTRY:	FALL	FALL	WORD	
LEXENTRY:	FALLS	FALLS	WORD	
LEXENTRY:	FALLS OF ROUGH	FALLS OF ROUGH	CITY	
LEXENTRY:	FARM	FARM	WORD,TYPE	
LEXENTRY:	FARM MAINTENANCE RD	FARM MAINTENANCE ROAD	ROAD,TYPE	
LEXENTRY:	FARM MARKET ROAD	FARM TO MARKET ROAD	ROAD,TYPE	
LEXENTRY:	FARM TO MARKET ROAD	FARM TO MARKET ROAD	ROAD,TYPE	
LEXENTRY:	FEDERATED STATES OF MICRONESIA	FM	PROV	
LEXENTRY:	FERRY	FERRY	WORD	
LEXENTRY:	FERRY CROSSING	FERRY	WORD	
LEXENTRY:	FEST	FESTIVAL	BUILDT	
LEXENTRY:	FESTIVAL	FESTIVAL	BUILDT	
LEXENTRY:	FIELD	FIELD	WORD,TYPE	
LEXENTRY:	FIELDS	FIELDS	WORD	
LEXENTRY:	FIFTEEN	15	NUMBER,WORD	
LEXENTRY:	FIFTEEN MILE	FIFTEEN MI	WORD	
LEXENTRY:	FIFTEENTH	15	WORD,ORD	
LEXENTRY:	FIFTH	5	WORD,ORD	
LEXENTRY:	FIFTIETH	50	WORD,ORD	
LEXENTRY:	FIFTY	50	NUMBER,WORD	
LEXENTRY:	FIFTY EIGHT	58	NUMBER,WORD	
LEXENTRY:	FIFTY EIGHTH	58	WORD,ORD	
LEXENTRY:	FIFTY FIFTH	55	WORD,ORD	
LEXENTRY:	FIFTY FIRST	51	WORD,ORD	
LEXENTRY:	FIFTY FIVE	55	NUMBER,WORD	
LEXENTRY:	FIFTY FOUR	54	NUMBER,WORD	
LEXENTRY:	FIFTY FOURTH	54	WORD,ORD	
LEXENTRY:	FIFTY NINE	59	NUMBER,WORD	
LEXENTRY:	FIFTY NINTH	59	WORD,ORD	
LEXENTRY:	FIFTY ONE	51	NUMBER,WORD	
LEXENTRY:	FIFTY SECOND	52	WORD,ORD	
LEXENTRY:	FIFTY SEVEN	57	NUMBER,WORD	
LEXENTRY:	FIFTY SEVENTH	57	WORD,ORD	
LEXENTRY:	FIFTY SIX	56	NUMBER,WORD	
LEXENTRY:	FIFTY SIXTH	56	WORD,ORD	
LEXENTRY:	FIFTY THIRD	53	WORD,ORD	
LEXENTRY:	FIFTY THREE	53	NUMBER,WORD	
LEXENTRY:	FIFTY TWO	52	NUMBER,WORD	
LEXENTRY:	FIRST	1	WORD,ORD	
";
"LEXENTRY:	FITCHBURG STATE	FITCHBURG STATE	WORD	
LEXENTRY:	FIVE	5	NUMBER,WORD	
LEXENTRY:	FIVE CEDARS	FIVE CEDARS	WORD	
LEXENTRY:	FIVE CORNERS	FIVE CORNERS	WORD	
LEXENTRY:	FIVE MILE	FIVE MILE	WORD	
LEXENTRY:	FIVE POINTS	FIVE POINTS	WORD	
LEXENTRY:	FIVE TOWN	FIVE TOWN	WORD	
LEXENTRY:	FL	FLOOR	UNITT	
LEXENTRY:	FL	FLORIDA	PROV,WORD,ROAD	
LEXENTRY:	FLA	FLORIDA	PROV,WORD,ROAD	
LEXENTRY:	FLAT	FLAT	WORD	
LEXENTRY:	FLD	FIELD	WORD	
LEXENTRY:	FLDS	FIELDS	WORD	
LEXENTRY:	FLLS	FALLS	WORD	
LEXENTRY:	FLOOR	FLOOR	UNITT,WORD	
LEXENTRY:	FLORIDA	FLORIDA	PROV,WORD	
LEXENTRY:	FLR	FLOOR	UNITT	
LEXENTRY:	FLS	FALLS	WORD	
LEXENTRY:	FLT	FLAT	WORD	
LEXENTRY:	FLTS	FLATS	WORD	
LEXENTRY:	FM	FARM TO MARKET ROAD	ROAD	
LEXENTRY:	FM	FM	PROV	
LEXENTRY:	FM RD	FARM TO MARKET ROAD	ROAD,TYPE	
LEXENTRY:	FM ROAD	FARM TO MARKET ROAD	ROAD,TYPE	
LEXENTRY:	FMRD	FARM TO MARKET ROAD	ROAD,TYPE	
LEXENTRY:	FOND DU LAC	FOND DU LAC	CITY	
LEXENTRY:	FORD	FORD	WORD	
LEXENTRY:	FOREST	FOREST	WORD	
LEXENTRY:	FORGE	FORGE	WORD	
LEXENTRY:	FORK	FORK	WORD	
LEXENTRY:	FORKS	FORKS	WORD	
LEXENTRY:	FORKS OF SALMON	FORKS OF SALMON	CITY	
LEXENTRY:	FORT	FORT	WORD	
LEXENTRY:	FORT GEORGE G MEADE	FORT GEORGE G MEADE	CITY	
LEXENTRY:	FORT GEORGE MEADE	FORT GEORGE G MEADE	CITY	
LEXENTRY:	FORT MC COY	FORT MC COY	CITY	
LEXENTRY:	FORT MC KAVETT	FORT MC KAVETT	CITY	
LEXENTRY:	FORT MCCOY	FORT MC COY	CITY	
LEXENTRY:	FORT MCKAVETT	FORT MC KAVETT	CITY	
LEXENTRY:	FORT MEADE	FORT GEORGE G MEADE	CITY	
LEXENTRY:	FORT MITCHELL	FORT MITCHELL	CITY	
LEXENTRY:	FORT MYER	FORT MYER	CITY	
LEXENTRY:	FORT WARREN AFB	FORT WARREN AFB	CITY	
LEXENTRY:	FORTIETH	40	WORD,ORD	
LEXENTRY:	FORTS	FORT	WORD	
LEXENTRY:	FORTY	40	NUMBER,WORD	
LEXENTRY:	FORTY EIGHT	48	NUMBER,WORD	
LEXENTRY:	FORTY EIGHTH	48	WORD,ORD	
LEXENTRY:	FORTY FIFTH	45	WORD,ORD	
LEXENTRY:	FORTY FIRST	41	WORD,ORD	
LEXENTRY:	FORTY FIVE	45	NUMBER,WORD	
LEXENTRY:	FORTY FOUR	44	NUMBER,WORD	
LEXENTRY:	FORTY FOURTH	44	WORD,ORD	
LEXENTRY:	FORTY NINE	49	NUMBER,WORD	
LEXENTRY:	FORTY NINTH	49	WORD,ORD	
LEXENTRY:	FORTY ONE	41	NUMBER,WORD	
LEXENTRY:	FORTY SECOND	42	WORD,ORD	
LEXENTRY:	FORTY SEVEN	47	NUMBER,WORD	
LEXENTRY:	FORTY SEVENTH	47	WORD,ORD	
LEXENTRY:	FORTY SIX	46	NUMBER,WORD	
LEXENTRY:	FORTY SIXTH	46	WORD,ORD	
LEXENTRY:	FORTY THIRD	43	WORD,ORD	
LEXENTRY:	FORTY THREE	43	NUMBER,WORD	
LEXENTRY:	FORTY TWO	42	NUMBER,WORD	
LEXENTRY:	FOUR	4	NUMBER,WORD	
LEXENTRY:	FOUR CORNERS	FOUR CORNERS	WORD	
LEXENTRY:	FOUR FLAGS	FOUR FLAGS	WORD	
LEXENTRY:	FOUR MILE	FOUR MILE	WORD	
LEXENTRY:	FOURTEEN	14	NUMBER,WORD	
";
"LEXENTRY:	FOURTEEN MILE	FOURTEEN MILE	WORD	
LEXENTRY:	FOURTEENTH	14	WORD,ORD	
LEXENTRY:	FOURTH	4	WORD,ORD	
LEXENTRY:	FPO	FPO	BOXH	
LEXENTRY:	FRD	FORD	WORD	
LEXENTRY:	FREEWAY	FREEWAY	TYPE	
LEXENTRY:	FREEWY	FREEWAY	TYPE	
LEXENTRY:	FRG	FORGE	WORD	
LEXENTRY:	FRK	FORK	WORD	
LEXENTRY:	FRKS	FORKS	WORD,WORD	
LEXENTRY:	FRNT	FRONT	WORD,UNITT	
LEXENTRY:	FROM	FROM	WORD	
LEXENTRY:	FRONT	FRONT	WORD,UNITT,TYPE	
LEXENTRY:	FRONTAGE	FRONT	WORD	
LEXENTRY:	FRST	FOREST	WORD,TYPE	
LEXENTRY:	FRT	FORT	WORD	
LEXENTRY:	FRWAY	FREEWAY	TYPE	
LEXENTRY:	FRWY	FREEWAY	TYPE	
LEXENTRY:	FRY	FERRY	WORD	
LEXENTRY:	FS RD	FOREST SERVICE ROAD	TYPE	
LEXENTRY:	FT	FORT	WORD	
LEXENTRY:	FT MITCHELL	FORT MITCHELL	CITY	
LEXENTRY:	FT MYER	FORT MYER	CITY	
LEXENTRY:	FT WARREN AFB	FORT WARREN AFB	CITY	
LEXENTRY:	FWD	FOUR WHEEL DRIVE TRAIL	TYPE	
LEXENTRY:	FWY	FREEWAY	TYPE	
LEXENTRY:	FX	FOX	WORD	
LEXENTRY:	G DEL	GENERAL DELIVERY	BOXH	
LEXENTRY:	G DELIVERY	GENERAL DELIVERY	BOXH	
LEXENTRY:	GA	GARDENS	TYPE	
LEXENTRY:	GA	GEORGIA	PROV,WORD,ROAD	
LEXENTRY:	GALLERIA	GALLERIA	WORD,BUILDT	
LEXENTRY:	GALLERIE	GALLERIA	WORD,BUILDT	
LEXENTRY:	GALR	GALLERIA	BUILDT	
LEXENTRY:	GARDEN	GARDEN	WORD	
LEXENTRY:	GARDENS	GARDENS	WORD,TYPE,BUILDT	
LEXENTRY:	GATE	GATE	WORD,TYPE	
LEXENTRY:	GATEWAY	GATEWAY	WORD,BUILDT	
LEXENTRY:	GD	GENERAL DELIVERY	BOXH	
LEXENTRY:	GD	GROUNDS	TYPE	
LEXENTRY:	GDN	GARDEN	WORD,BUILDT	
LEXENTRY:	GDNS	GARDEN	WORD	
LEXENTRY:	GDNS	GARDENS	TYPE,BUILDT	
LEXENTRY:	GDS	GARDEN	WORD	
LEXENTRY:	GDS	GARDENS	TYPE	
LEXENTRY:	GEN D	GENERAL DELIVERY	BOXH	
LEXENTRY:	GEN DEL	GENERAL DELIVERY	BOXH	
LEXENTRY:	GEN DELIVERY	GENERAL DELIVERY	BOXH	
LEXENTRY:	GENDEL	GENERAL DELIVERY	BOXH	
LEXENTRY:	GENERAL D	GENERAL DELIVERY	BOXH	
LEXENTRY:	GENERAL DEL	GENERAL DELIVERY	BOXH	
LEXENTRY:	GENERAL DELIVERY	GENERAL DELIVERY	BOXH	
LEXENTRY:	GEORGIA	GEORGIA	PROV,WORD	
LEXENTRY:	GL	GLEN	TYPE	
LEXENTRY:	GLADE	GLADE	WORD,TYPE	
LEXENTRY:	GLEN	GLEN	WORD,TYPE	
LEXENTRY:	GLN	GLEN	WORD,TYPE	
LEXENTRY:	GNDL	GENERAL DELIVERY	BOXH	
LEXENTRY:	GOV	GOVERNOR	WORD	
LEXENTRY:	GOVERNOR	GOVERNOR	WORD	
LEXENTRY:	GPO	GPO	BOXH	
LEXENTRY:	GR	GREEN	TYPE	
LEXENTRY:	GR	GROUND	WORD	
LEXENTRY:	GREEN	GREEN	WORD,TYPE	
LEXENTRY:	GREENE RD	GREENE ROAD	ROAD	
LEXENTRY:	GREENE ROAD	GREENE ROAD	ROAD	
LEXENTRY:	GRN	GREEN	WORD,TYPE	
LEXENTRY:	GRNDS	GROUNDS	WORD,TYPE	
LEXENTRY:	GROUND	GROUND	WORD	
LEXENTRY:	GROUNDS	GROUNDS	WORD,TYPE	
LEXENTRY:	GROVE	GROVE	WORD,TYPE	
LEXENTRY:	GRV	GROVE	WORD,TYPE	
LEXENTRY:	GT	GATE	TYPE	
LEXENTRY:	GTWAY	GATEWAY	WORD,BUILDT	
";
"LEXENTRY:	GTWY	GATEWAY	WORD,BUILDT	
LEXENTRY:	GU	GU	PROV	
LEXENTRY:	GUAM	GU	PROV	
LEXENTRY:	GV	GROVE	TYPE	
LEXENTRY:	H C	HIGHWAY CONTRACT ROUTE	RR	
LEXENTRY:	H C R	HIGHWAY CONTRACT ROUTE	RR	
LEXENTRY:	H CONT	HIGHWAY CONTRACT ROUTE	RR	
LEXENTRY:	H CONTRACT	HIGHWAY CONTRACT ROUTE	RR	
LEXENTRY:	H0	HOLLOW	WORD	
LEXENTRY:	H0LL0W	HOLLOW	TYPE	
LEXENTRY:	HALF	HALF	WORD	
LEXENTRY:	HALL	HALL	BUILDT,WORD	
LEXENTRY:	HANGER	HANGER	UNITH,WORD	
LEXENTRY:	HARBOR	HARBOR	WORD	
LEXENTRY:	HARBOUR	HARBOR	WORD,TYPE,BUILDT	
LEXENTRY:	HARBR	HARBOR	WORD,TYPE,BUILDT	
LEXENTRY:	HARVEY CUSHING	HARVEY L CUSHING	WORD	
LEXENTRY:	HARVEY L CUSHING	HARVEY L CUSHING	WORD	
LEXENTRY:	HASTINGS ON HUDSON	HASTINGS ON HUDSON	CITY	
LEXENTRY:	HAVEN	HAVEN	WORD	
LEXENTRY:	HAVRE DE GRACE	HAVRE DE GRACE	CITY	
LEXENTRY:	HAWAII	HAWAII	PROV,WORD	
LEXENTRY:	HBR	HARBOR	WORD,TYPE,BUILDT	
LEXENTRY:	HC	HIGHWAY CONTRACT ROUTE	RR	
LEXENTRY:	HC RT	HIGHWAY CONTRACT ROUTE	RR	
LEXENTRY:	HC RTE	HIGHWAY CONTRACT ROUTE	RR	
LEXENTRY:	HCO	HIGHWAY CONTRACT ROUTE	RR	
LEXENTRY:	HCR	HIGHWAY CONTRACT ROUTE	RR	
LEXENTRY:	HCRT	HIGHWAY CONTRACT ROUTE	RR	
LEXENTRY:	HEIGHT	HEIGHTS	WORD	
LEXENTRY:	HEIGHTS	HEIGHTS	WORD,TYPE,BUILDT	
LEXENTRY:	HGHLDS	HIGHLANDS	WORD,TYPE	
LEXENTRY:	HGT	HEIGHTS	WORD,TYPE,BUILDT	
LEXENTRY:	HGTS	HEIGHTS	WORD,TYPE,BUILDT	
LEXENTRY:	HGWY	HIGHWAY	ROAD,TYPE	
LEXENTRY:	HGWY CONTRACT	HIGHWAY CONTRACT ROUTE	RR	
LEXENTRY:	HGWY FM	FARM TO MARKET ROAD	ROAD	
LEXENTRY:	HGY	HIGHWAY	ROAD,TYPE	
LEXENTRY:	HGY FM	FARM TO MARKET ROAD	ROAD	
LEXENTRY:	HI	HAWAII	PROV,WORD,ROAD	
LEXENTRY:	HI	HIGHWAY	ROAD,TYPE	
LEXENTRY:	HI HAT	HI HAT	CITY	
LEXENTRY:	HIGH CONT	HIGHWAY CONTRACT ROUTE	RR	
LEXENTRY:	HIGH CONTRACT	HIGHWAY CONTRACT ROUTE	RR	
LEXENTRY:	HIGHLANDS	HIGHLANDS	WORD,TYPE	
LEXENTRY:	HIGHWAY	HIGHWAY	ROAD,TYPE	
LEXENTRY:	HIGHWAY CONT	HIGHWAY CONTRACT ROUTE	RR	
LEXENTRY:	HIGHWAY CONTRACT	HIGHWAY CONTRACT ROUTE	RR	
LEXENTRY:	HIGHWAY CONTRACT ROUTE	HIGHWAY CONTRACT ROUTE	RR	
LEXENTRY:	HIGHWAY FM	FARM TO MARKET ROAD	ROAD	
LEXENTRY:	HIGHWY	HIGHWAY	ROAD,TYPE	
LEXENTRY:	HIGHWY FM	FARM TO MARKET ROAD	ROAD	
LEXENTRY:	HILL	HILL	WORD,TYPE	
LEXENTRY:	HILLS	HILLS	WORD	
LEXENTRY:	HIWAY	HIGHWAY	ROAD,TYPE	
LEXENTRY:	HIWAY CONTRACT	HIGHWAY CONTRACT ROUTE	RR	
LEXENTRY:	HIWAY FM	FARM TO MARKET ROAD	ROAD	
LEXENTRY:	HIWY	HIGHWAY	ROAD,TYPE	
LEXENTRY:	HIWY FM	FARM TO MARKET ROAD	ROAD	
LEXENTRY:	HL	HILL	WORD,TYPE	
LEXENTRY:	HLLW	HOLLOW	WORD,TYPE	
LEXENTRY:	HLS	HILLS	WORD	
LEXENTRY:	HNGR	HANGER	UNITH,WORD	
LEXENTRY:	HO	HOLLOW	TYPE	
";
"LEXENTRY:	HO HO KUS	HO HO KUS	CITY	
LEXENTRY:	HOL	HOLLOW	WORD,TYPE	
LEXENTRY:	HOLLOW	HOLLOW	WORD	
LEXENTRY:	HOLW	HOLLOW	WORD,TYPE	
LEXENTRY:	HOME	HOME	BUILDT,WORD	
LEXENTRY:	HOMES	HOME	BUILDT	
LEXENTRY:	HOSP	HOSPITAL	BUILDT	
LEXENTRY:	HOSPITAL	HOSPITAL	BUILDT	
LEXENTRY:	HOTEL	HOTEL	BUILDT,BUILDH	
LEXENTRY:	HOUS	HOUSE	BUILDT,BUILDH	
LEXENTRY:	HOUSE	HOUSE	BUILDT,BUILDH,WORD	
LEXENTRY:	HOUSING PROJ	PROJECTS	BUILDT	
LEXENTRY:	HOUSING PROJECTS	PROJECTS	BUILDT	
LEXENTRY:	HOWEY IN HILLS	HOWEY IN THE HILLS	CITY	
LEXENTRY:	HOWEY IN THE HILLS	HOWEY IN THE HILLS	CITY	
LEXENTRY:	HRBOR	HARBOR	WORD,TYPE,BUILDT	
LEXENTRY:	HRBR	HARBOR	WORD,TYPE,BUILDT	
LEXENTRY:	HSE	HOUSE	BUILDT,BUILDH	
LEXENTRY:	HSE PROJ	PROJECTS	BUILDT	
LEXENTRY:	HSE PROJECTS	PROJECTS	BUILDT	
LEXENTRY:	HT	HEIGHTS	WORD,TYPE,BUILDT	
LEXENTRY:	HTL	HOTEL	BUILDT,BUILDH	
LEXENTRY:	HTS	HEIGHTS	WORD,TYPE,BUILDT	
LEXENTRY:	HUI RD	HUI ROAD	ROAD	
LEXENTRY:	HUI ROAD	HUI ROAD	ROAD	
LEXENTRY:	HVN	HAVEN	WORD	
LEXENTRY:	HW	HIGHWAY	ROAD,TYPE	
LEXENTRY:	HWAY	HIGHWAY	ROAD,TYPE	
LEXENTRY:	HWC	HIGHWAY CONTRACT ROUTE	RR	
LEXENTRY:	HWY	HIGHWAY	ROAD,TYPE	
LEXENTRY:	HWY CONT	HIGHWAY CONTRACT ROUTE	RR	
LEXENTRY:	HWY CONTRACT	HIGHWAY CONTRACT ROUTE	RR	
LEXENTRY:	HWY FM	FARM TO MARKET ROAD	ROAD	
LEXENTRY:	HWYS	HIGHWAYS	WORD	
LEXENTRY:	HY	HIGHWAY	ROAD,TYPE	
LEXENTRY:	HY CONT	HIGHWAY CONTRACT ROUTE	RR	
LEXENTRY:	HY CONTRACT	HIGHWAY CONTRACT ROUTE	RR	
LEXENTRY:	HYWY	HIGHWAY	ROAD,TYPE	
LEXENTRY:	I	I	SINGLE	
LEXENTRY:	I	INTERSTATE HIGHWAY	ROAD	
LEXENTRY:	I H	INTERSTATE HIGHWAY	ROAD	
LEXENTRY:	IA	IOWA	PROV,WORD,ROAD	
LEXENTRY:	IC	INDUSTRIAL PARK	BUILDT	
LEXENTRY:	ICHG	INTERCHANGE	WORD	
LEXENTRY:	ID	IDAHO	PROV,WORD,ROAD	
LEXENTRY:	IDAHO	IDAHO	PROV,WORD	
LEXENTRY:	IH	INTERSTATE HIGHWAY	ROAD	
LEXENTRY:	IL	ILLINOIS	PROV,WORD,ROAD	
LEXENTRY:	ILE	ILE	WORD,TYPE	
LEXENTRY:	ILE DU PRINCE EDOUARD	PRINCE EDWARD ISLAND	PROV,WORD	
LEXENTRY:	ILL	ILLINOIS	PROV,WORD,ROAD	
LEXENTRY:	ILLINOIS	ILLINOIS	PROV,WORD	
LEXENTRY:	IM	IMPASSE	TYPE	
LEXENTRY:	IMM	IMMEUBLE	BUILDT,BUILDH	
LEXENTRY:	IMMEUBLE	IMMEUBLE	BUILDT,BUILDH	
LEXENTRY:	IMP	IMPASSE	TYPE	
LEXENTRY:	IMPASSE	IMPASSE	TYPE	
LEXENTRY:	IN	INDIANA	PROV,WORD,ROAD	
LEXENTRY:	IN CARE OF	CARE OF	DASH	
LEXENTRY:	INCTR	INDUSTRIAL PARK	BUILDT	
LEXENTRY:	IND	INDIANA	PROV,WORD,ROAD	
LEXENTRY:	IND PARK	INDUSTRIAL PARK	BUILDT	
LEXENTRY:	IND PK	INDUSTRIAL PARK	BUILDT	
LEXENTRY:	INDC	INDUSTRIAL PARK	BUILDT	
LEXENTRY:	INDIANA	INDIANA	PROV,WORD	
LEXENTRY:	INDL	INDUSTRIAL	WORD	
";
"LEXENTRY:	INDL CTR	INDUSTRIAL PARK	BUILDT	
LEXENTRY:	INDL PARK	INDUSTRIAL PARK	BUILDT	
LEXENTRY:	INDL PK	INDUSTRIAL PARK	BUILDT	
LEXENTRY:	INDUSTRIAL	INDUSTRIAL	WORD	
LEXENTRY:	INDUSTRIAL CENTER	INDUSTRIAL PARK	BUILDT	
LEXENTRY:	INDUSTRIAL CTR	INDUSTRIAL PARK	BUILDT	
LEXENTRY:	INDUSTRIAL PARK	INDUSTRIAL PARK	BUILDT	
LEXENTRY:	INDUSTRIAL PK	INDUSTRIAL PARK	BUILDT	
LEXENTRY:	INLET	INLET	WORD	
LEXENTRY:	INLT	INLET	WORD	
LEXENTRY:	INN	INN	BUILDT,WORD	
LEXENTRY:	INPK	INDUSTRIAL PARK	BUILDT	
LEXENTRY:	INSTITUTE	INSTITUTE	WORD,BUILDH,BUILDT	
LEXENTRY:	INT L	INTERNATIONAL	WORD	
LEXENTRY:	INTE	INTERIOR	UNITT	
LEXENTRY:	INTERCHANGE	INTERCHANGE	WORD	
LEXENTRY:	INTERIOR	INTERIOR	WORD,UNITT	
LEXENTRY:	INTERNATIONAL	INTERNATIONAL	WORD	
LEXENTRY:	INTERSECTION	INTERSECTION	WORD	
LEXENTRY:	INTERSTATE	INTERSTATE HIGHWAY	ROAD,WORD	
LEXENTRY:	INTERSTATE HIGHWAY	INTERSTATE HIGHWAY	ROAD,WORD	
LEXENTRY:	INTERSTATE HWY	INTERSTATE HIGHWAY	ROAD,WORD	
LEXENTRY:	INTL	INTERNATIONAL	WORD	
LEXENTRY:	INTR	INTERSECTION	WORD	
LEXENTRY:	IOWA	IOWA	PROV,WORD	
LEXENTRY:	IP	INDUSTRIAL PARK	BUILDT	
LEXENTRY:	IPRK	INDUSTRIAL PARK	BUILDT	
LEXENTRY:	IS	INTERSTATE HIGHWAY	ROAD	
LEXENTRY:	IS	ISLAND	TYPE	
LEXENTRY:	IS	ISLE	WORD	
LEXENTRY:	ISLAND	ISLAND	WORD,TYPE	
LEXENTRY:	ISLANDS	ISLANDS	WORD	
LEXENTRY:	ISLE	ISLE	WORD	
LEXENTRY:	ISLE LA MOTTE	ISLE LA MOTTE	CITY	
LEXENTRY:	ISLE OF PALMS	ISLE OF PALMS	CITY	
LEXENTRY:	ISLE OF SPRINGS	ISLE OF SPRINGS	CITY	
LEXENTRY:	ISLES	ISLES	WORD	
LEXENTRY:	IZQU	IZQUIERDO	UNITH	
LEXENTRY:	IZQUIERDO	IZQUIERDO	UNITH	
LEXENTRY:	J F K	JOHN F KENNEDY	WORD	
LEXENTRY:	J F KENNEDY	JOHN F KENNEDY	WORD	
LEXENTRY:	JA	JARDIN	TYPE	
LEXENTRY:	JAF	JAF	BUILDT	
LEXENTRY:	JAF BOX	JAF BOX	BOXH	
LEXENTRY:	JAF STATION	JAF STATION	BUILDT	
LEXENTRY:	JARDIN	JARDIN	TYPE,WORD	
LEXENTRY:	JAY EM	JAY EM	CITY	
LEXENTRY:	JCT	JUNCTION	TYPE,BUILDT,WORD	
LEXENTRY:	JCTION	JUNCTION	TYPE,BUILDT,WORD	
LEXENTRY:	JCTN	JUNCTION	TYPE,BUILDT,WORD	
LEXENTRY:	JEEP TRAIL	JEEP TRAIL	TYPE	
LEXENTRY:	JEEP TRL	JEEP TRAIL	TYPE	
LEXENTRY:	JFK	JOHN F KENNEDY	WORD	
LEXENTRY:	JNCT	JUNCTION	TYPE,BUILDT,WORD	
LEXENTRY:	JOHN F KENNEDY	JOHN F KENNEDY	WORD	
LEXENTRY:	JUNC	JUNCTION	TYPE,BUILDT,WORD	
LEXENTRY:	JUNCT	JUNCTION	TYPE,BUILDT,WORD	
LEXENTRY:	JUNCTION	JUNCTION	TYPE,BUILDT,WORD	
LEXENTRY:	JUNCTN	JUNCTION	TYPE,BUILDT,WORD	
LEXENTRY:	JUNCTON	JUNCTION	TYPE,BUILDT,WORD	
LEXENTRY:	K MART	K MART	WORD	
LEXENTRY:	KANSAS	KANSAS	PROV,WORD	
LEXENTRY:	KENT	KENTUCKY	PROV,WORD,ROAD	
LEXENTRY:	KENTUCKY	KENTUCKY	PROV,WORD	
";
"LEXENTRY:	KEY	KEY	WORD,TYPE	
LEXENTRY:	KEYSTONE ROUTE	RURAL ROUTE	RR	
LEXENTRY:	KEYSTONE RT	RURAL ROUTE	RR	
LEXENTRY:	KEYSTONE RTE	RURAL ROUTE	RR	
LEXENTRY:	KING OF PRUSSIA	KING OF PRUSSIA	CITY	
LEXENTRY:	KMART	K MART	WORD	
LEXENTRY:	KNL	KNOLL	WORD,TYPE	
LEXENTRY:	KNLS	KNOLLS	WORD,TYPE	
LEXENTRY:	KNOLL	KNOLL	TYPE	
LEXENTRY:	KNOLLS	KNOLLS	WORD	
LEXENTRY:	KS	KANSAS	PROV,WORD,ROAD	
LEXENTRY:	KY	KENTUCKY	PROV,WORD,ROAD	
LEXENTRY:	KY	KEY	TYPE	
LEXENTRY:	L B J	LYNDON B JOHNSON	WORD	
LEXENTRY:	L B JOHNSON	LYNDON B JOHNSON	WORD	
LEXENTRY:	L C D	LETTER CARRIER DEPOT	BUILDT	
LEXENTRY:	L'	L'	STOPWORD	
LEXENTRY:	LA	LA	STOPWORD	
LEXENTRY:	LA	LANE	TYPE	
LEXENTRY:	LA	LOUISIANA	PROV,WORD,ROAD	
LEXENTRY:	LA BARGE	LA BARGE	CITY	
LEXENTRY:	LA BELLE	LA BELLE	CITY	
LEXENTRY:	LA CANADA FLINTRIDGE	LA CANADA FLINTRIDGE	CITY	
LEXENTRY:	LA CENTER	LA CENTER	CITY	
LEXENTRY:	LA CONNER	LA CONNER	CITY	
LEXENTRY:	LA COSTE	LA COSTE	CITY	
LEXENTRY:	LA CRESCENT	LA CRESCENT	CITY	
LEXENTRY:	LA CRESCENTA	LA CRESCENTA	CITY	
LEXENTRY:	LA CROSSE	LA CROSSE	CITY	
LEXENTRY:	LA FARGE	LA FARGE	CITY	
LEXENTRY:	LA FARGEVILLE	LA FARGEVILLE	CITY	
LEXENTRY:	LA FAYETTE	LA FAYETTE	CITY	
LEXENTRY:	LA FERIA	LA FERIA	CITY	
LEXENTRY:	LA FOLLETTE	LA FOLLETTE	CITY	
LEXENTRY:	LA FONTAINE	LA FONTAINE	CITY	
LEXENTRY:	LA GRANDE	LA GRANDE	CITY	
LEXENTRY:	LA GRANGE	LA GRANGE	CITY	
LEXENTRY:	LA GRANGE PARK	LA GRANGE PARK	CITY	
LEXENTRY:	LA HABRA	LA HABRA	CITY	
LEXENTRY:	LA HARPE	LA HARPE	CITY	
LEXENTRY:	LA HONDA	LA HONDA	CITY	
LEXENTRY:	LA JARA	LA JARA	CITY	
LEXENTRY:	LA JOLLA	LA JOLLA	CITY	
LEXENTRY:	LA JOSE	LA JOSE	CITY	
LEXENTRY:	LA JOYA	LA JOYA	CITY	
LEXENTRY:	LA JUNTA	LA JUNTA	CITY	
LEXENTRY:	LA LOMA	LA LOMA	CITY	
LEXENTRY:	LA LUZ	LA LUZ	CITY	
LEXENTRY:	LA MADERA	LA MADERA	CITY	
LEXENTRY:	LA MARQUE	LA MARQUE	CITY	
LEXENTRY:	LA MESA	LA MESA	CITY	
LEXENTRY:	LA MIRADA	LA MIRADA	CITY	
LEXENTRY:	LA MOILLE	LA MOILLE	CITY	
LEXENTRY:	LA MONTE	LA MONTE	CITY	
LEXENTRY:	LA MOTTE	LA MOTTE	CITY	
LEXENTRY:	LA PALMA	LA PALMA	CITY	
LEXENTRY:	LA PINE	LA PINE	CITY	
LEXENTRY:	LA PLACE	LA PLACE	CITY	
LEXENTRY:	LA PLATA	LA PLATA	CITY	
LEXENTRY:	LA PORTE	LA PORTE	CITY	
LEXENTRY:	LA PORTE CITY	LA PORTE CITY	CITY	
LEXENTRY:	LA PRAIRIE	LA PRAIRIE	CITY	
LEXENTRY:	LA PUENTE	LA PUENTE	CITY	
LEXENTRY:	LA QUINTA	LA QUINTA	CITY	
LEXENTRY:	LA RUE	LA RUE	CITY	
LEXENTRY:	LA RUSSELL	LA RUSSELL	CITY	
LEXENTRY:	LA SALLE	LA SALLE	CITY	
LEXENTRY:	LA VALLE	LA VALLE	CITY	
LEXENTRY:	LA VERGNE	LA VERGNE	CITY	
LEXENTRY:	LA VERKIN	LA VERKIN	CITY	
";
"LEXENTRY:	LA VERNE	LA VERNE	CITY	
LEXENTRY:	LA VERNIA	LA VERNIA	CITY	
LEXENTRY:	LA VETA	LA VETA	CITY	
LEXENTRY:	LA VISTA	LA VISTA	CITY	
LEXENTRY:	LABRADOR	NEWFOUNDLAND AND LABRADOR	PROV,WORD	
LEXENTRY:	LAC DU FLAMBEAU	LAC DU FLAMBEAU	CITY	
LEXENTRY:	LAKE	LAKE	WORD	
LEXENTRY:	LAKE IN HILLS	LAKE IN THE HILLS	CITY	
LEXENTRY:	LAKE IN THE HILLS	LAKE IN THE HILLS	CITY	
LEXENTRY:	LAKES	LAKE	WORD	
LEXENTRY:	LAND	LANDING	TYPE,BUILDT,WORD	
LEXENTRY:	LAND O LAKES	LAND O LAKES	CITY	
LEXENTRY:	LAND O'LAKES	LAND O LAKES	CITY	
LEXENTRY:	LANDING	LANDING	TYPE,BUILDT,WORD	
LEXENTRY:	LANDINGS	LANDING	TYPE,BUILDT,WORD	
LEXENTRY:	LANDNG	LANDING	TYPE	
LEXENTRY:	LANE	LANE	TYPE	
LEXENTRY:	LAS	LAS	STOPWORD	
LEXENTRY:	LBBY	LOBBY	UNITT	
LEXENTRY:	LBJ	LYNDON B JOHNSON	WORD	
LEXENTRY:	LCD	LETTER CARRIER DEPOT	BUILDT	
LEXENTRY:	LCKS	LOCKS	WORD	
LEXENTRY:	LDG	LODGE	TYPE,BUILDT,WORD	
LEXENTRY:	LDGE	LODGE	TYPE,BUILDT,WORD	
LEXENTRY:	LE	LANE	TYPE	
LEXENTRY:	LE	LE	WORD,STOPWORD	
LEXENTRY:	LE CENTER	LE CENTER	CITY	
LEXENTRY:	LE CLAIRE	LE CLAIRE	CITY	
LEXENTRY:	LE GRAND	LE GRAND	CITY	
LEXENTRY:	LE MARS	LE MARS	CITY	
LEXENTRY:	LE RAYSVILLE	LE RAYSVILLE	CITY	
LEXENTRY:	LE ROY	LE ROY	CITY	
LEXENTRY:	LE SUEUR	LE SUEUR	CITY	
LEXENTRY:	LE VERNE	LU VERNE	CITY	
LEXENTRY:	LEFT	LEFT	UNITT,WORD	
LEXENTRY:	LES	LES	STOPWORD	
LEXENTRY:	LETTER CARRIER DEPOT	LETTER CARRIER DEPOT	BUILDT	
LEXENTRY:	LEVEL	LEVEL	UNITT,WORD	
LEXENTRY:	LF	LOAF	WORD	
LEXENTRY:	LGT	LIGHT	WORD	
LEXENTRY:	LI	LINE	TYPE	
LEXENTRY:	LIGHT	LIGHT	WORD	
LEXENTRY:	LIMITS	LIMITS	TYPE,WORD	
LEXENTRY:	LINE	LINE	TYPE,WORD	
LEXENTRY:	LINK	LINK	TYPE,WORD	
LEXENTRY:	LK	LAKE	WORD	
LEXENTRY:	LK	LINK	TYPE	
LEXENTRY:	LKOUT	LOOKOUT	TYPE	
LEXENTRY:	LKS	LAKE	WORD	
LEXENTRY:	LMTS	LIMITS	TYPE,WORD	
LEXENTRY:	LN	LANE	TYPE	
LEXENTRY:	LNDG	LANDING	TYPE,BUILDT,WORD	
LEXENTRY:	LNDNG	LANDING	TYPE,BUILDT,WORD	
LEXENTRY:	LO	LOOP	TYPE	
LEXENTRY:	LOAF	LOAF	WORD	
LEXENTRY:	LOBBY	LOBBY	UNITT,WORD	
LEXENTRY:	LOCAL	BOX	BOXH	
LEXENTRY:	LOCAL BOX	BOX	BOXH	
LEXENTRY:	LOCAL HCR	HIGHWAY CONTRACT ROUTE	RR	
LEXENTRY:	LOCAL PO BOX	POST OFFICE BOX	BOXH	
LEXENTRY:	LOCKBOX	POST OFFICE BOX	BOXH	
LEXENTRY:	LOCKS	LOCKS	WORD	
LEXENTRY:	LODGE	LODGE	TYPE,BUILDT,WORD	
LEXENTRY:	LOOKOUT	LOOKOUT	TYPE,WORD	
LEXENTRY:	LOOP	LOOP	QUALIF,TYPE	
LEXENTRY:	LOS	LOS	STOPWORD	
LEXENTRY:	LOT	LOT	UNITH,UNITT,WORD	
LEXENTRY:	LOUISIANA	LOUISIANA	PROV,WORD	
LEXENTRY:	LOWER	LOWER	WORD,UNITT	
LEXENTRY:	LOWR	LOWER	WORD,UNITT	
LEXENTRY:	LP	LOOP	QUALIF,TYPE	
LEXENTRY:	LT	LOOKOUT	TYPE	
";
"LEXENTRY:	LT	LOT	UNITH,WORD	
LEXENTRY:	LU VERNE	LU VERNE	CITY	
LEXENTRY:	LVL	LEVEL	UNITT	
LEXENTRY:	LWR	LOWER	WORD,UNITT	
LEXENTRY:	LYNDON B JOHNSON	LYNDON B JOHNSON	WORD	
LEXENTRY:	M C B H KANEOHE BAY	M C B H KANEOHE BAY	CITY	
LEXENTRY:	M H P	TRAILER PARK	BUILDT	
LEXENTRY:	M L K	MARTIN LUTHER KING	WORD	
LEXENTRY:	M L KING	MARTIN LUTHER KING	WORD	
LEXENTRY:	MA	MANOR	TYPE	
LEXENTRY:	MA	MASSACHUSETTS	PROV,WORD,ROAD	
LEXENTRY:	MAINE	MAINE	PROV,WORD	
LEXENTRY:	MAISON	MAISON	BUILDT,BUILDH,WORD	
LEXENTRY:	MAL	MALL	TYPE	
LEXENTRY:	MALL	MALL	TYPE,BUILDT,WORD	
LEXENTRY:	MALL IN	MALL	BUILDT	
LEXENTRY:	MANITOBA	MANITOBA	PROV,WORD	
LEXENTRY:	MANOR	MANOR	TYPE,BUILDT,WORD	
LEXENTRY:	MANORS	MANOR	BUILDT,WORD	
LEXENTRY:	MARG	MARGINAL	TYPE	
LEXENTRY:	MARGINAL	MARGINAL	TYPE	
LEXENTRY:	MARINE ON SAINT CROIX	MARINE ON SAINT CROIX	CITY	
LEXENTRY:	MARKET	MARKET	BUILDT,WORD	
LEXENTRY:	MARKET PL	MARKET	BUILDT	
LEXENTRY:	MARKET PLACE	MARKET	BUILDT	
LEXENTRY:	MARKETPLACE	MARKET	BUILDT	
LEXENTRY:	MARSHALL ISLANDS	MH	PROV	
LEXENTRY:	MART	MARKET	BUILDT	
LEXENTRY:	MARTIN KING	MARTIN LUTHER KING	WORD	
LEXENTRY:	MARTIN L KING	MARTIN LUTHER KING	WORD	
LEXENTRY:	MARTIN LUTHER	MARTIN LUTHER KING	WORD	
LEXENTRY:	MARTIN LUTHER KING	MARTIN LUTHER KING	WORD	
LEXENTRY:	MARTIN LUTHER KING JR	MARTIN LUTHER KING	WORD	
LEXENTRY:	MARYLAND	MARYLAND	PROV,WORD	
LEXENTRY:	MASS	MASSACHUSETTS	PROV,WORD,ROAD	
LEXENTRY:	MASSACHUSETTS	MASSACHUSETTS	PROV,WORD	
LEXENTRY:	MAZE	MAZE	TYPE	
LEXENTRY:	MB	MANITOBA	PROV,WORD,ROAD	
LEXENTRY:	MC	MC	WORD	
LEXENTRY:	MC ADENVILLE	MC ADENVILLE	CITY	
LEXENTRY:	MC ALISTER	MC ALISTER	CITY	
LEXENTRY:	MC ALISTERVILLE	MC ALISTERVILLE	CITY	
LEXENTRY:	MC ALPIN	MC ALPIN	CITY	
LEXENTRY:	MC ANDREWS	MC ANDREWS	CITY	
LEXENTRY:	MC ARTHUR	MC ARTHUR	CITY	
LEXENTRY:	MC BAIN	MC BAIN	CITY	
LEXENTRY:	MC BEE	MC BEE	CITY	
LEXENTRY:	MC CALL CREEK	MC CALL CREEK	CITY	
LEXENTRY:	MC CALLA	MC CALLA	CITY	
LEXENTRY:	MC CALLSBURG	MC CALLSBURG	CITY	
LEXENTRY:	MC CAMEY	MC CAMEY	CITY	
LEXENTRY:	MC CARLEY	MC CARLEY	CITY	
LEXENTRY:	MC CARR	MC CARR	CITY	
LEXENTRY:	MC CASKILL	MC CASKILL	CITY	
LEXENTRY:	MC CAULLEY	MC CAULLEY	CITY	
LEXENTRY:	MC CAYSVILLE	MC CAYSVILLE	CITY	
LEXENTRY:	MC CLAVE	MC CLAVE	CITY	
LEXENTRY:	MC CLELLAND	MC CLELLAND	CITY	
LEXENTRY:	MC CLELLANDTOWN	MC CLELLANDTOWN	CITY	
LEXENTRY:	MC CLELLANVILLE	MC CLELLANVILLE	CITY	
LEXENTRY:	MC CLURE	MC CLURE	CITY	
LEXENTRY:	MC CLURG	MC CLURG	CITY	
LEXENTRY:	MC COLL	MC COLL	CITY	
LEXENTRY:	MC COMB	MC COMB	CITY	
LEXENTRY:	MC CONNELL	MC CONNELL	CITY	
";
"LEXENTRY:	MC CONNELLS	MC CONNELLS	CITY	
LEXENTRY:	MC CONNELLSBURG	MC CONNELLSBURG	CITY	
LEXENTRY:	MC COOK	MC COOK	CITY	
LEXENTRY:	MC COOL	MC COOL	CITY	
LEXENTRY:	MC COOL JUNCTION	MC COOL JUNCTION	CITY	
LEXENTRY:	MC CORDSVILLE	MC CORDSVILLE	CITY	
LEXENTRY:	MC CORMICK	MC CORMICK	CITY	
LEXENTRY:	MC COY	MC COY	CITY	
LEXENTRY:	MC CRACKEN	MC CRACKEN	CITY	
LEXENTRY:	MC CRORY	MC CRORY	CITY	
LEXENTRY:	MC CUNE	MC CUNE	CITY	
LEXENTRY:	MC CUTCHENVILLE	MC CUTCHENVILLE	CITY	
LEXENTRY:	MC DADE	MC DADE	CITY	
LEXENTRY:	MC DANIELS	MC DANIELS	CITY	
LEXENTRY:	MC DAVID	MC DAVID	CITY	
LEXENTRY:	MC DERMOTT	MC DERMOTT	CITY	
LEXENTRY:	MC DONALD	MC DONALD	CITY	
LEXENTRY:	MC DONOUGH	MC DONOUGH	CITY	
LEXENTRY:	MC DOWELL	MC DOWELL	CITY	
LEXENTRY:	MC EWEN	MC EWEN	CITY	
LEXENTRY:	MC FALL	MC FALL	CITY	
LEXENTRY:	MC FARLAND	MC FARLAND	CITY	
LEXENTRY:	MC GAHEYSVILLE	MC GAHEYSVILLE	CITY	
LEXENTRY:	MC GEE	MC GEE	CITY	
LEXENTRY:	MC GEHEE	MC GEHEE	CITY	
LEXENTRY:	MC GRADY	MC GRADY	CITY	
LEXENTRY:	MC GRATH	MC GRATH	CITY	
LEXENTRY:	MC GRAW	MC GRAW	CITY	
LEXENTRY:	MC GREGOR	MC GREGOR	CITY	
LEXENTRY:	MC HENRY	MC HENRY	CITY	
LEXENTRY:	MC INTIRE	MC INTIRE	CITY	
LEXENTRY:	MC INTOSH	MC INTOSH	CITY	
LEXENTRY:	MC INTYRE	MC INTYRE	CITY	
LEXENTRY:	MC KEAN	MC KEAN	CITY	
LEXENTRY:	MC KEE	MC KEE	CITY	
LEXENTRY:	MC KEES ROCKS	MC KEES ROCKS	CITY	
LEXENTRY:	MC KENNEY	MC KENNEY	CITY	
LEXENTRY:	MC KENZIE	MC KENZIE	CITY	
LEXENTRY:	MC KITTRICK	MC KITTRICK	CITY	
LEXENTRY:	MC LAIN	MC LAIN	CITY	
LEXENTRY:	MC LAUGHLIN	MC LAUGHLIN	CITY	
LEXENTRY:	MC LEAN	MC LEAN	CITY	
LEXENTRY:	MC LEANSBORO	MC LEANSBORO	CITY	
LEXENTRY:	MC LEANSVILLE	MC LEANSVILLE	CITY	
LEXENTRY:	MC LEOD	MC LEOD	CITY	
LEXENTRY:	MC LOUTH	MC LOUTH	CITY	
LEXENTRY:	MC MILLAN	MC MILLAN	CITY	
LEXENTRY:	MC MINNVILLE	MC MINNVILLE	CITY	
LEXENTRY:	MC NABB	MC NABB	CITY	
LEXENTRY:	MC NEAL	MC NEAL	CITY	
LEXENTRY:	MC NEIL	MC NEIL	CITY	
LEXENTRY:	MC QUEENEY	MC QUEENEY	CITY	
LEXENTRY:	MC RAE	MC RAE	CITY	
LEXENTRY:	MC ROBERTS	MC ROBERTS	CITY	
LEXENTRY:	MC SHERRYSTOWN	MC SHERRYSTOWN	CITY	
LEXENTRY:	MC VEYTOWN	MC VEYTOWN	CITY	
LEXENTRY:	MCADENVILLE	MC ADENVILLE	CITY	
LEXENTRY:	MCALISTER	MC ALISTER	CITY	
LEXENTRY:	MCALISTERVILLE	MC ALISTERVILLE	CITY	
LEXENTRY:	MCALPIN	MC ALPIN	CITY	
LEXENTRY:	MCANDREWS	MC ANDREWS	CITY	
LEXENTRY:	MCARTHUR	MC ARTHUR	CITY	
LEXENTRY:	MCBAIN	MC BAIN	CITY	
LEXENTRY:	MCBEE	MC BEE	CITY	
LEXENTRY:	MCBH KANEOHE BAY	M C B H KANEOHE BAY	CITY	
LEXENTRY:	MCCALL CREEK	MC CALL CREEK	CITY	
LEXENTRY:	MCCALLA	MC CALLA	CITY	
";
"LEXENTRY:	MCCALLSBURG	MC CALLSBURG	CITY	
LEXENTRY:	MCCAMEY	MC CAMEY	CITY	
LEXENTRY:	MCCARLEY	MC CARLEY	CITY	
LEXENTRY:	MCCARR	MC CARR	CITY	
LEXENTRY:	MCCASKILL	MC CASKILL	CITY	
LEXENTRY:	MCCAULLEY	MC CAULLEY	CITY	
LEXENTRY:	MCCAYSVILLE	MC CAYSVILLE	CITY	
LEXENTRY:	MCCLAVE	MC CLAVE	CITY	
LEXENTRY:	MCCLELLAND	MC CLELLAND	CITY	
LEXENTRY:	MCCLELLANDTOWN	MC CLELLANDTOWN	CITY	
LEXENTRY:	MCCLELLANVILLE	MC CLELLANVILLE	CITY	
LEXENTRY:	MCCLURE	MC CLURE	CITY	
LEXENTRY:	MCCLURG	MC CLURG	CITY	
LEXENTRY:	MCCOLL	MC COLL	CITY	
LEXENTRY:	MCCOMB	MC COMB	CITY	
LEXENTRY:	MCCONNELL	MC CONNELL	CITY	
LEXENTRY:	MCCONNELLS	MC CONNELLS	CITY	
LEXENTRY:	MCCONNELLSBURG	MC CONNELLSBURG	CITY	
LEXENTRY:	MCCOOK	MC COOK	CITY	
LEXENTRY:	MCCOOL	MC COOL	CITY	
LEXENTRY:	MCCOOL JUNCTION	MC COOL JUNCTION	CITY	
LEXENTRY:	MCCORDSVILLE	MC CORDSVILLE	CITY	
LEXENTRY:	MCCORMICK	MC CORMICK	CITY	
LEXENTRY:	MCCOY	MC COY	CITY	
LEXENTRY:	MCCRACKEN	MC CRACKEN	CITY	
LEXENTRY:	MCCRORY	MC CRORY	CITY	
LEXENTRY:	MCCUNE	MC CUNE	CITY	
LEXENTRY:	MCCUTCHENVILLE	MC CUTCHENVILLE	CITY	
LEXENTRY:	MCDADE	MC DADE	CITY	
LEXENTRY:	MCDANIELS	MC DANIELS	CITY	
LEXENTRY:	MCDAVID	MC DAVID	CITY	
LEXENTRY:	MCDERMOTT	MC DERMOTT	CITY	
LEXENTRY:	MCDONALD	MC DONALD	CITY	
LEXENTRY:	MCDONOUGH	MC DONOUGH	CITY	
LEXENTRY:	MCDOWELL	MC DOWELL	CITY	
LEXENTRY:	MCEWEN	MC EWEN	CITY	
LEXENTRY:	MCFALL	MC FALL	CITY	
LEXENTRY:	MCFARLAND	MC FARLAND	CITY	
LEXENTRY:	MCGAHEYSVILLE	MC GAHEYSVILLE	CITY	
LEXENTRY:	MCGEE	MC GEE	CITY	
LEXENTRY:	MCGEHEE	MC GEHEE	CITY	
LEXENTRY:	MCGRADY	MC GRADY	CITY	
LEXENTRY:	MCGRATH	MC GRATH	CITY	
LEXENTRY:	MCGRAW	MC GRAW	CITY	
LEXENTRY:	MCGREGOR	MC GREGOR	CITY	
LEXENTRY:	MCHENRY	MC HENRY	CITY	
LEXENTRY:	MCINTIRE	MC INTIRE	CITY	
LEXENTRY:	MCINTOSH	MC INTOSH	CITY	
LEXENTRY:	MCINTYRE	MC INTYRE	CITY	
LEXENTRY:	MCKEAN	MC KEAN	CITY	
LEXENTRY:	MCKEE	MC KEE	CITY	
LEXENTRY:	MCKEES ROCKS	MC KEES ROCKS	CITY	
LEXENTRY:	MCKENNEY	MC KENNEY	CITY	
LEXENTRY:	MCKENZIE	MC KENZIE	CITY	
LEXENTRY:	MCKITTRICK	MC KITTRICK	CITY	
LEXENTRY:	MCLAIN	MC LAIN	CITY	
LEXENTRY:	MCLAUGHLIN	MC LAUGHLIN	CITY	
LEXENTRY:	MCLEAN	MC LEAN	CITY	
LEXENTRY:	MCLEANSBORO	MC LEANSBORO	CITY	
LEXENTRY:	MCLEANSVILLE	MC LEANSVILLE	CITY	
LEXENTRY:	MCLEOD	MC LEOD	CITY	
LEXENTRY:	MCLOUTH	MC LOUTH	CITY	
LEXENTRY:	MCMILLAN	MC MILLAN	CITY	
LEXENTRY:	MCMINNVILLE	MC MINNVILLE	CITY	
LEXENTRY:	MCNABB	MC NABB	CITY	
LEXENTRY:	MCNEAL	MC NEAL	CITY	
LEXENTRY:	MCNEIL	MC NEIL	CITY	
LEXENTRY:	MCQUEENEY	MC QUEENEY	CITY	
LEXENTRY:	MCRAE	MC RAE	CITY	
LEXENTRY:	MCROBERTS	MC ROBERTS	CITY	
";
"LEXENTRY:	MCSHERRYSTOWN	MC SHERRYSTOWN	CITY	
LEXENTRY:	MCVEYTOWN	MC VEYTOWN	CITY	
LEXENTRY:	MD	MARYLAND	PROV,WORD,ROAD	
LEXENTRY:	MDWS	MEADOWS	WORD,BUILDT	
LEXENTRY:	ME	MAINE	PROV,WORD,ROAD	
LEXENTRY:	ME	MEWS	TYPE	
LEXENTRY:	MEADOW	MEADOW	WORD,TYPE	
LEXENTRY:	MEADOWS	MEADOWS	WORD,BUILDT	
LEXENTRY:	MEADOWS OF DAN	MEADOWS OF DAN	CITY	
LEXENTRY:	MED	MEDICAL	WORD	
LEXENTRY:	MEDICAL	MEDICAL	WORD	
LEXENTRY:	MEM	MEMORIAL	WORD	
LEXENTRY:	MEMORIAL	MEMORIAL	WORD	
LEXENTRY:	MERC	MERCADO	BUILDT	
LEXENTRY:	MERCADO	MERCADO	BUILDT	
LEXENTRY:	MEWS	MEWS	TYPE,WORD,BUILDT	
LEXENTRY:	MH	MH	PROV	
LEXENTRY:	MH	MOBILE HOME	UNITH	
LEXENTRY:	MH CT	TRAILER PARK	BUILDT	
LEXENTRY:	MH PARK	TRAILER PARK	BUILDT	
LEXENTRY:	MHP	TRAILER PARK	BUILDT	
LEXENTRY:	MI	MICHIGAN	PROV,WORD,ROAD	
LEXENTRY:	MI	MILE POST	MILE	
LEXENTRY:	MI POST	MILE	WORD	
LEXENTRY:	MI WUK VILLAGE	MI WUK VILLAGE	CITY	
LEXENTRY:	MICH	MICHIGAN	PROV,WORD,ROAD	
LEXENTRY:	MICHIGAN	MICHIGAN	PROV,WORD	
LEXENTRY:	MICRONESIA	FM	PROV	
LEXENTRY:	MIDDLE	MIDDLE	UNITT,WORD	
LEXENTRY:	MILE	MILE	WORD	
LEXENTRY:	MILE	MILE POST	MILE	
LEXENTRY:	MILE POST	MILE	WORD	
LEXENTRY:	MILE POST	MILE POST	MILE	
LEXENTRY:	MILES	MILE	WORD	
LEXENTRY:	MILL	MILL	WORD	
LEXENTRY:	MILLS	MILLS	WORD	
LEXENTRY:	MINN	MINNESOTA	PROV,WORD,ROAD	
LEXENTRY:	MINNESOTA	MINNESOTA	PROV,WORD	
LEXENTRY:	MISSION	MISSION	WORD	
LEXENTRY:	MISSISSIPPI	MISSISSIPPI	PROV,WORD	
LEXENTRY:	MISSOURI	MISSOURI	PROV,WORD	
LEXENTRY:	MKT	MARKET	BUILDT	
LEXENTRY:	MKT PL	MARKET	BUILDT	
LEXENTRY:	MKT PLACE	MARKET	BUILDT	
LEXENTRY:	MKTPL	MARKET	BUILDT	
LEXENTRY:	ML	MALL	TYPE,BUILDT,WORD	
LEXENTRY:	ML KING	MARTIN LUTHER KING	WORD	
LEXENTRY:	MLK	MARTIN LUTHER KING	WORD	
LEXENTRY:	MLS	MILLS	WORD	
LEXENTRY:	MN	MINNESOTA	PROV,WORD,ROAD	
LEXENTRY:	MNR	MANOR	TYPE,BUILDT,WORD	
LEXENTRY:	MNRS	MANOR	BUILDT,WORD	
LEXENTRY:	MNT	MOUNT	WORD	
LEXENTRY:	MO	MISSOURI	PROV,WORD,ROAD	
LEXENTRY:	MO	MONTEE	TYPE	
LEXENTRY:	MOB HM PK	TRAILER PARK	BUILDT	
LEXENTRY:	MOB HOME PARK	TRAILER PARK	BUILDT	
LEXENTRY:	MOBIL HOME PARK	TRAILER PARK	BUILDT	
LEXENTRY:	MOBIL HOME TRPK	TRAILER PARK	BUILDT	
LEXENTRY:	MOBILE COURT	TRAILER PARK	BUILDT	
LEXENTRY:	MOBILE CT	TRAILER PARK	BUILDT	
LEXENTRY:	MOBILE EST	TRAILER PARK	BUILDT	
LEXENTRY:	MOBILE ESTATE	TRAILER PARK	BUILDT	
LEXENTRY:	MOBILE HM PK	TRAILER PARK	BUILDT	
LEXENTRY:	MOBILE HOME	MOBILE HOME	UNITH	
LEXENTRY:	MOBILE HOME	TRAILER PARK	BUILDT	
LEXENTRY:	MOBILE HOME PARK	TRAILER PARK	BUILDT	
LEXENTRY:	MOBILE HOME PK	TRAILER PARK	BUILDT	
";
"LEXENTRY:	MOBILE HOME TRPK	TRAILER PARK	BUILDT	
LEXENTRY:	MOBILE HOMES	TRAILER PARK	BUILDT	
LEXENTRY:	MOBILE PARK	TRAILER PARK	BUILDT	
LEXENTRY:	MOBILE ROUTE	MOBILE ROUTE	RR	
LEXENTRY:	MONT	MONTANA	PROV,WORD,ROAD	
LEXENTRY:	MONTANA	MONTANA	PROV,WORD	
LEXENTRY:	MONTEE	MONTEE	TYPE,WORD	
LEXENTRY:	MOOR	MOOR	WORD,TYPE	
LEXENTRY:	MOTEL	MOTEL	BUILDT	
LEXENTRY:	MOTORWAY	MOTORWAY	TYPE	
LEXENTRY:	MOUNT	MOUNT	WORD,TYPE	
LEXENTRY:	MOUNT ZION	MOUNT ZION	CITY	
LEXENTRY:	MOUNTAIN	MOUNTAIN	WORD,TYPE	
LEXENTRY:	MOUNTAINS	MOUNTAIN	WORD	
LEXENTRY:	MOUTH OF WILSON	MOUTH OF WILSON	CITY	
LEXENTRY:	MP	MILE	WORD	
LEXENTRY:	MP	MILE POST	MILE	
LEXENTRY:	MP	MP	PROV	
LEXENTRY:	MR	MOBILE ROUTE	RR	
LEXENTRY:	MS	MISSISSIPPI	PROV,WORD,ROAD	
LEXENTRY:	MS	MS	UNITT	
LEXENTRY:	MSN	MISSION	WORD	
LEXENTRY:	MT	MONTANA	PROV,WORD,ROAD	
LEXENTRY:	MT	MOUNT	WORD	
LEXENTRY:	MT ZION	MOUNT ZION	CITY	
LEXENTRY:	MTD ROUTE	RURAL ROUTE	RR	
LEXENTRY:	MTD RT	RURAL ROUTE	RR	
LEXENTRY:	MTD RTE	RURAL ROUTE	RR	
LEXENTRY:	MTL	MOTEL	BUILDT	
LEXENTRY:	MTN	MOUNTAIN	WORD	
LEXENTRY:	MTNS	MOUNTAIN	WORD	
LEXENTRY:	MTWY	MOTORWAY	TYPE	
LEXENTRY:	MU	MOUNT	TYPE	
LEXENTRY:	MURO	MURO	TYPE	
LEXENTRY:	MW	MEADOW	TYPE	
LEXENTRY:	N	N	SINGLE	
LEXENTRY:	N	NORTH	DIRECT	
LEXENTRY:	N A B	NAVAL AIR STATION	WORD,BUILDT	
LEXENTRY:	N A S	NAVAL AIR STATION	WORD,BUILDT	
LEXENTRY:	N CAROLINA	NORTH CAROLINA	PROV,WORD	
LEXENTRY:	N DAKOTA	NORTH DAKOTA	PROV,WORD	
LEXENTRY:	N E	NORTHEAST	DIRECT	
LEXENTRY:	N F D	NATL FOREST DEVELOP ROAD	TYPE	
LEXENTRY:	N VAN	NORTH VANCOUVER	CITY	
LEXENTRY:	N VANCOUVER	NORTH VANCOUVER	CITY	
LEXENTRY:	N W	NORTHWEST	DIRECT	
LEXENTRY:	NAB	NAVAL AIR STATION	WORD,BUILDT	
LEXENTRY:	NAS	NAVAL AIR STATION	WORD,BUILDT	
LEXENTRY:	NATIONAL	NATIONAL	WORD	
LEXENTRY:	NATL	NATIONAL	WORD	
LEXENTRY:	NATL FOREST	NATL FOREST	WORD	
LEXENTRY:	NATL FOREST DEVELOP ROAD	NATL FOREST DEVELOP ROAD	TYPE	
LEXENTRY:	NATL FOREST HIGHWAY	NATL FOREST HIGHWAY	ROAD	
LEXENTRY:	NAVAL AIR BASE	NAVAL AIR STATION	WORD,BUILDT	
LEXENTRY:	NAVAL AIR STATION	NAVAL AIR STATION	WORD,BUILDT	
LEXENTRY:	NAVAL BASE	NAVAL AIR STATION	WORD,BUILDT	
LEXENTRY:	NB	NEW BRUNSWICK	PROV,WORD,ROAD	
LEXENTRY:	NC	NORTH CAROLINA	PROV,WORD,ROAD	
LEXENTRY:	NCK	NECK	WORD	
LEXENTRY:	ND	NORTH DAKOTA	PROV,WORD,ROAD	
LEXENTRY:	NE	NEBRASKA	PROV,WORD,ROAD	
LEXENTRY:	NE	NORTHEAST	DIRECT	
LEXENTRY:	NEAR	NEAR	WORD	
LEXENTRY:	NEB	NEBRASKA	PROV,WORD,ROAD	
LEXENTRY:	NEBRASKA	NEBRASKA	PROV,WORD	
LEXENTRY:	NECK	NECK	WORD	
LEXENTRY:	NEV	NEVADA	PROV,WORD,ROAD	
LEXENTRY:	NEVADA	NEVADA	PROV,WORD	
";
"LEXENTRY:	NEW BRUNSWICK	NEW BRUNSWICK	PROV,WORD	
LEXENTRY:	NEW HAMPSHIRE	NEW HAMPSHIRE	PROV,WORD	
LEXENTRY:	NEW JERSEY	NEW JERSEY	PROV,WORD	
LEXENTRY:	NEW MEXICO	NEW MEXICO	PROV,WORD	
LEXENTRY:	NEW YORK	NEW YORK	PROV,WORD	
LEXENTRY:	NEWFOUNDLAND	NEWFOUNDLAND AND LABRADOR	PROV,WORD	
LEXENTRY:	NF	NEWFOUNDLAND AND LABRADOR	PROV,WORD,ROAD	
LEXENTRY:	NF HWY	NATL FOREST HIGHWAY	ROAD	
LEXENTRY:	NFD	NATL FOREST DEVELOP ROAD	TYPE,ROAD	
LEXENTRY:	NFHWY	NATL FOREST HIGHWAY	ROAD	
LEXENTRY:	NH	NEW HAMPSHIRE	PROV,WORD,ROAD	
LEXENTRY:	NINE	9	WORD,NUMBER	
LEXENTRY:	NINE MILE	NINE MILE	WORD	
LEXENTRY:	NINETEEN	19	NUMBER,WORD	
LEXENTRY:	NINETEEN MILE	NINETEEN MILE	WORD	
LEXENTRY:	NINETEENTH	19	WORD,ORD	
LEXENTRY:	NINETIETH	90	WORD,ORD	
LEXENTRY:	NINETY	90	NUMBER,WORD	
LEXENTRY:	NINETY EIGHT	98	NUMBER,WORD	
LEXENTRY:	NINETY EIGHTH	98	WORD,ORD	
LEXENTRY:	NINETY FIFTH	95	WORD,ORD	
LEXENTRY:	NINETY FIRST	91	WORD,ORD	
LEXENTRY:	NINETY FIVE	95	NUMBER,WORD	
LEXENTRY:	NINETY FOUR	94	NUMBER,WORD	
LEXENTRY:	NINETY FOURTH	94	WORD,ORD	
LEXENTRY:	NINETY NINE	99	NUMBER,WORD	
LEXENTRY:	NINETY NINTH	99	WORD,ORD	
LEXENTRY:	NINETY ONE	91	NUMBER,WORD	
LEXENTRY:	NINETY SECOND	92	WORD,ORD	
LEXENTRY:	NINETY SEVEN	97	NUMBER,WORD	
LEXENTRY:	NINETY SEVENTH	97	WORD,ORD	
LEXENTRY:	NINETY SIX	96	NUMBER,WORD	
LEXENTRY:	NINETY SIXTH	96	WORD,ORD	
LEXENTRY:	NINETY THIRD	93	WORD,ORD	
LEXENTRY:	NINETY THREE	93	NUMBER,WORD	
LEXENTRY:	NINETY TWO	92	NUMBER,WORD	
LEXENTRY:	NINTH	9	WORD,ORD	
LEXENTRY:	NJ	NEW JERSEY	PROV,WORD,ROAD	
LEXENTRY:	NL	NEWFOUNDLAND AND LABRADOR	PROV,WORD,ROAD	
LEXENTRY:	NM	NEW MEXICO	PROV,WORD,ROAD	
LEXENTRY:	NO	#	UNITH,STOPWORD	
LEXENTRY:	NO	NORTH	DIRECT	
LEXENTRY:	NO VANCOUVER	NORTH VANCOUVER	CITY	
LEXENTRY:	NOR	NORTH	DIRECT	
LEXENTRY:	NORD	NORD	DIRECT	
LEXENTRY:	NORD EST	NORD EST	DIRECT	
LEXENTRY:	NORD OUEST	NORD OUEST	DIRECT	
LEXENTRY:	NORDEST	NORD EST	DIRECT	
LEXENTRY:	NORDOUEST	NORD OUEST	DIRECT	
LEXENTRY:	NORTE	NORTH	DIRECT	
LEXENTRY:	NORTH	NORTH	DIRECT	
LEXENTRY:	NORTH & SOUTH	NORTH & SOUTH	WORD	
LEXENTRY:	NORTH CAROLINA	NORTH CAROLINA	PROV,WORD	
LEXENTRY:	NORTH DAKOTA	NORTH DAKOTA	PROV,WORD	
LEXENTRY:	NORTH EAST	NORTHEAST	DIRECT	
LEXENTRY:	NORTH SOUTH	NORTH SOUTH	WORD	
LEXENTRY:	NORTH VANCOUVER	NORTH VANCOUVER	CITY	
LEXENTRY:	NORTH WEST	NORTHWEST	DIRECT	
LEXENTRY:	NORTHBOUND	NORTHBOUND	WORD,QUALIF	
LEXENTRY:	NORTHEAST	NORTHEAST	DIRECT	
LEXENTRY:	NORTHERN MARIANA ISLANDS	MP	PROV	
LEXENTRY:	NORTHWEST	NORTHWEST	DIRECT	
";
"LEXENTRY:	NORTHWEST TERRITORIES	NORTHWEST TERRITORIES	PROV,WORD	
LEXENTRY:	NOUVEAU BRUNSWICK	NEW BRUNSWICK	PROV,WORD	
LEXENTRY:	NOUVELLE ECOSSE	NOVA SCOTIA	PROV,WORD	
LEXENTRY:	NOVA SCOTIA	NOVA SCOTIA	PROV,WORD	
LEXENTRY:	NR	NEAR	WORD	
LEXENTRY:	NS	NOVA SCOTIA	PROV,WORD,ROAD	
LEXENTRY:	NT	NORTHWEST TERRITORIES	PROV,WORD,ROAD	
LEXENTRY:	NTH	NORTH	DIRECT	
LEXENTRY:	NU	NUNAVUT	PROV,WORD,ROAD	
LEXENTRY:	NUMBER	#	UNITH,STOPWORD	
LEXENTRY:	NUNAVUT	NUNAVUT	PROV,WORD	
LEXENTRY:	NV	NEVADA	PROV,WORD,ROAD	
LEXENTRY:	NW	NORTHWEST	DIRECT	
LEXENTRY:	NY	NEW YORK	PROV,WORD,ROAD	
LEXENTRY:	O	0	SINGLE	
LEXENTRY:	O	O	STOPWORD	
LEXENTRY:	O BRIEN	O BRIEN	CITY	
LEXENTRY:	O FALLON	O FALLON	CITY	
LEXENTRY:	O NEALS	O NEALS	CITY	
LEXENTRY:	O'BRIEN	O BRIEN	CITY	
LEXENTRY:	O'FALLON	O FALLON	CITY	
LEXENTRY:	O'NEALS	O NEALS	CITY	
LEXENTRY:	OESTE	OESTE	DIRECT	
LEXENTRY:	OF	OF	STOPWORD	
LEXENTRY:	OF PK	OFFICE PARK	BUILDT	
LEXENTRY:	OF PRK	OFFICE PARK	BUILDT	
LEXENTRY:	OFC	OFFICE	UNITT	
LEXENTRY:	OFC CENTER	OFFICE PARK	BUILDT	
LEXENTRY:	OFC COMPLEX	OFFICE PARK	BUILDT	
LEXENTRY:	OFC CTR	OFFICE PARK	BUILDT	
LEXENTRY:	OFC PARK	OFFICE PARK	BUILDT	
LEXENTRY:	OFC PRK	OFFICE PARK	BUILDT	
LEXENTRY:	OFFICE	OFFICE	UNITT	
LEXENTRY:	OFFICE	OFFICE PARK	BUILDT	
LEXENTRY:	OFFICE CENTER	OFFICE PARK	BUILDT	
LEXENTRY:	OFFICE COMPLEX	OFFICE PARK	BUILDT	
LEXENTRY:	OFFICE CTR	OFFICE PARK	BUILDT	
LEXENTRY:	OFFICE PARK	OFFICE PARK	BUILDT	
LEXENTRY:	OFFICE PRK	OFFICE PARK	BUILDT	
LEXENTRY:	OFFICES	OFFICE PARK	BUILDT	
LEXENTRY:	OFPK	OFFICE PARK	BUILDT	
LEXENTRY:	OFPRK	OFFICE PARK	BUILDT	
LEXENTRY:	OH	OHIO	PROV,WORD,ROAD	
LEXENTRY:	OHIO	OHIO	PROV,WORD	
LEXENTRY:	OK	OKLAHOMA	PROV,WORD,ROAD	
LEXENTRY:	OKLA	OKLAHOMA	PROV,WORD,ROAD	
LEXENTRY:	OKLAHOMA	OKLAHOMA	PROV,WORD	
LEXENTRY:	OLD	OLD	QUALIF,WORD	
LEXENTRY:	ON	ON	STOPWORD	
LEXENTRY:	ON	ONTARIO	PROV,WORD,ROAD	
LEXENTRY:	ONE	1	WORD,NUMBER	
LEXENTRY:	ONE HUNDRED	100	NUMBER	
LEXENTRY:	ONE HUNDRED	ONE HUNDRED	WORD	
LEXENTRY:	ONE MILE	ONE MILE	WORD	
LEXENTRY:	ONT	ONTARIO	PROV,WORD,ROAD	
LEXENTRY:	ONTARIO	ONTARIO	PROV,WORD	
LEXENTRY:	OR	OREGON	PROV,WORD,ROAD	
LEXENTRY:	ORCH	ORCHARD	WORD	
LEXENTRY:	ORCHARD	ORCHARD	WORD,TYPE	
LEXENTRY:	ORE	OREGON	PROV,WORD,ROAD	
LEXENTRY:	OREGON	OREGON	PROV,WORD	
LEXENTRY:	OTLT	OUTLET	BUILDT	
LEXENTRY:	OUEST	OUEST	DIRECT	
LEXENTRY:	OUTLET	OUTLET	BUILDT	
LEXENTRY:	OUTLETS	OUTLET	BUILDT	
LEXENTRY:	OUTS	OUTSIDE OF	WORD	
LEXENTRY:	OUTSIDE	OUTSIDE OF	WORD	
LEXENTRY:	OVAL	OVAL	TYPE	
LEXENTRY:	OVERPASS	OVERPASS	TYPE	
";
"LEXENTRY:	OVPS	OVERPASS	TYPE	
LEXENTRY:	P BOX	POST OFFICE BOX	BOXH	
LEXENTRY:	P BX	POST OFFICE BOX	BOXH	
LEXENTRY:	P H	PENTHOUSE	UNITT	
LEXENTRY:	P O	POST OFFICE BOX	BOXH	
LEXENTRY:	P O B	POST OFFICE BOX	BOXH	
LEXENTRY:	P O B X	POST OFFICE BOX	BOXH	
LEXENTRY:	P O BOX	POST OFFICE BOX	BOXH	
LEXENTRY:	P O BX	POST OFFICE BOX	BOXH	
LEXENTRY:	P O DRAWER	POST OFFICE BOX	BOXH	
LEXENTRY:	PA	PARADE	TYPE	
LEXENTRY:	PA	PENNSYLVANIA	PROV,WORD,ROAD	
LEXENTRY:	PALAU	PW	PROV	
LEXENTRY:	PAR	PARCELAS	UNITH,WORD,ROAD	
LEXENTRY:	PAR RD	PARISH ROAD	ROAD	
LEXENTRY:	PAR ROAD	PARISH ROAD	ROAD	
LEXENTRY:	PARADE	PARADE	TYPE,WORD	
LEXENTRY:	PARADERO	PARADERO	WORD	
LEXENTRY:	PARC	PARC	WORD,BUILDT,TYPE	
LEXENTRY:	PARCELAS	PARCELAS	UNITH	
LEXENTRY:	PARISH RD	PARISH ROAD	ROAD	
LEXENTRY:	PARISH ROAD	PARISH ROAD	ROAD	
LEXENTRY:	PARK	PARK	WORD,BUILDT,TYPE	
LEXENTRY:	PARK & SHOP	SHOPPING CENTER	BUILDT	
LEXENTRY:	PARK N SHOP	SHOPPING CENTER	BUILDT	
LEXENTRY:	PARKWAY	PARKWAY	TYPE	
LEXENTRY:	PARKWY	PARKWAY	TYPE	
LEXENTRY:	PARQUE	PARQUE	TYPE	
LEXENTRY:	PARRD	PARISH ROAD	ROAD	
LEXENTRY:	PASAJE	PASAJE	TYPE	
LEXENTRY:	PASEO	PASEO	TYPE	
LEXENTRY:	PASO	PASO	WORD,TYPE	
LEXENTRY:	PASS	PASS	TYPE	
LEXENTRY:	PASSAGE	PASSAGE	TYPE	
LEXENTRY:	PATH	PATH	TYPE	
LEXENTRY:	PATHWAY	PATHWAY	TYPE	
LEXENTRY:	PAVILION	PAVILLION	BUILDT,WORD	
LEXENTRY:	PAVILIONS	PAVILLION	BUILDT,WORD	
LEXENTRY:	PAVILLION	PAVILLION	BUILDT,WORD	
LEXENTRY:	PAVILLIONS	PAVILLION	BUILDT,WORD	
LEXENTRY:	PAVL	PAVILLION	BUILDT,WORD	
LEXENTRY:	PD	POND	WORD	
LEXENTRY:	PDA	PARADERO	WORD	
LEXENTRY:	PE	PRINCE EDWARD ISLAND	PROV,WORD,ROAD	
LEXENTRY:	PE ELL	PE ELL	CITY	
LEXENTRY:	PEI	PRINCE EDWARD ISLAND	PROV,WORD,ROAD	
LEXENTRY:	PENN	PENNSYLVANIA	PROV,WORD,ROAD	
LEXENTRY:	PENNA	PENNSYLVANIA	PROV,WORD,ROAD	
LEXENTRY:	PENNSYLVANIA	PENNSYLVANIA	PROV,WORD	
LEXENTRY:	PENTHOUSE	PENTHOUSE	UNITT	
LEXENTRY:	PH	PATH	TYPE	
LEXENTRY:	PH	PENTHOUSE	UNITT	
LEXENTRY:	PIECE	PIECE	UNITH,UNITT	
LEXENTRY:	PIER	PIER	UNITH,WORD,BUILDT	
LEXENTRY:	PIKE	PIKE	TYPE	
LEXENTRY:	PINES	PINES	WORD,TYPE	
LEXENTRY:	PISO	PISO	UNITH	
LEXENTRY:	PISTA	PISTA	TYPE	
LEXENTRY:	PK	PARK	WORD,BUILDT,TYPE	
LEXENTRY:	PKE	PIKE	TYPE	
LEXENTRY:	PKW	PARKWAY	TYPE	
LEXENTRY:	PKWAY	PARKWAY	TYPE	
LEXENTRY:	PKWY	PARKWAY	TYPE	
LEXENTRY:	PKY	PARKWAY	TYPE	
LEXENTRY:	PL	PLACE	TYPE	
LEXENTRY:	PLACE	PLACE	TYPE	
LEXENTRY:	PLAIN	PLAINS	WORD	
LEXENTRY:	PLAINS	PLAINS	WORD	
LEXENTRY:	PLANTATION	PLANTATION	BUILDT,WORD	
LEXENTRY:	PLATEAU	PLATEAU	WORD,TYPE	
LEXENTRY:	PLAZA	PLAZA	TYPE,BUILDT	
LEXENTRY:	PLC	PLACE	TYPE	
";
"LEXENTRY:	PLN	PLAINS	WORD	
LEXENTRY:	PLNS	PLAINS	WORD	
LEXENTRY:	PLNT	PLANTATION	BUILDT	
LEXENTRY:	PLZ	PLAZA	TYPE,BUILDT	
LEXENTRY:	PLZA	PLAZA	TYPE,BUILDT	
LEXENTRY:	PM	PROMENADE	TYPE	
LEXENTRY:	PNES	PINES	WORD	
LEXENTRY:	PO	POST OFFICE BOX	BOXH	
LEXENTRY:	PO B	POST OFFICE BOX	BOXH	
LEXENTRY:	PO B OX	POST OFFICE BOX	BOXH	
LEXENTRY:	PO B X	POST OFFICE BOX	BOXH	
LEXENTRY:	PO BOX	POST OFFICE BOX	BOXH	
LEXENTRY:	PO BX	POST OFFICE BOX	BOXH	
LEXENTRY:	PO DRAWER	POST OFFICE BOX	BOXH	
LEXENTRY:	POB	POST OFFICE BOX	BOXH	
LEXENTRY:	POBOX	POST OFFICE BOX	BOXH	
LEXENTRY:	POINT	POINT	WORD	
LEXENTRY:	POINT OF ROCKS	POINT OF ROCKS	CITY	
LEXENTRY:	PONCE DE LEON	PONCE DE LEON	CITY	
LEXENTRY:	PORT	PORT	WORD,TYPE	
LEXENTRY:	POST BOX	POST OFFICE BOX	BOXH	
LEXENTRY:	POST BX	POST OFFICE BOX	BOXH	
LEXENTRY:	POST OFFICE BOX	POST OFFICE BOX	BOXH	
LEXENTRY:	POSTAL BOX	POST OFFICE BOX	BOXH	
LEXENTRY:	POSTAL BX	POST OFFICE BOX	BOXH	
LEXENTRY:	POSTAL OUTLET	POSTAL OUTLET	BOXH,BUILDT	
LEXENTRY:	POSTOFFICE BOX	POST OFFICE BOX	BOXH	
LEXENTRY:	POSTOFFICE BX	POST OFFICE BOX	BOXH	
LEXENTRY:	POUCH	POST OFFICE BOX	BOXH	
LEXENTRY:	PQ	QUEBEC	PROV,WORD,ROAD	
LEXENTRY:	PR	PARK	TYPE	
LEXENTRY:	PR	PUERTO RICO	PROV,WORD,ROAD	
LEXENTRY:	PR HI	PROVINCIAL HIGHWAY	ROAD	
LEXENTRY:	PR HIGHWAY	PROVINCIAL HIGHWAY	ROAD	
LEXENTRY:	PR HWY	PROVINCIAL HIGHWAY	ROAD	
LEXENTRY:	PR ROUTE	STATE ROUTE	ROAD	
LEXENTRY:	PR RT	PROVINCIAL ROUTE	ROAD	
LEXENTRY:	PR RTE	PROVINCIAL ROUTE	ROAD	
LEXENTRY:	PRAIRIE	PRAIRIE	WORD	
LEXENTRY:	PRAIRIE DU CHIEN	PRAIRIE DU CHIEN	CITY	
LEXENTRY:	PRAIRIE DU ROCHER	PRAIRIE DU ROCHER	CITY	
LEXENTRY:	PRAIRIE DU SAC	PRAIRIE DU SAC	CITY	
LEXENTRY:	PREMIERE	1	WORD,ORD	
LEXENTRY:	PRINCE EDWARD ISLAND	PRINCE EDWARD ISLAND	PROV,WORD	
LEXENTRY:	PRIVATE	PRIVATE	WORD,TYPE	
LEXENTRY:	PRK	PARK	WORD,BUILDT,TYPE	
LEXENTRY:	PRO	PROFESSIONAL	WORD	
LEXENTRY:	PROF	PROFESSIONAL	WORD	
LEXENTRY:	PROFESSIONAL	PROFESSIONAL	WORD	
LEXENTRY:	PROJ	PROJECTS	BUILDT	
LEXENTRY:	PROJECTS	PROJECTS	BUILDT	
LEXENTRY:	PROM	PROMENADE	BUILDT,TYPE	
LEXENTRY:	PROMENADE	PROMENADE	BUILDT,TYPE	
LEXENTRY:	PROVINCIAL HI	PROVINCIAL HIGHWAY	ROAD	
LEXENTRY:	PROVINCIAL HIGHWAY	PROVINCIAL HIGHWAY	ROAD	
LEXENTRY:	PROVINCIAL HWY	PROVINCIAL HIGHWAY	ROAD	
LEXENTRY:	PROVINCIAL HY	PROVINCIAL HIGHWAY	ROAD	
LEXENTRY:	PROVINCIAL ROUTE	PROVINCIAL ROUTE	ROAD	
LEXENTRY:	PROVINCIAL RT	PROVINCIAL ROUTE	ROAD	
LEXENTRY:	PROVINCIAL RTE	PROVINCIAL ROUTE	ROAD	
LEXENTRY:	PRQE	PARQUE	TYPE	
LEXENTRY:	PRRD	PARISH ROAD	ROAD	
LEXENTRY:	PRT	PORT	WORD,TYPE	
";
"LEXENTRY:	PSC	PSC	RR	
LEXENTRY:	PSO	PASEO	TYPE	
LEXENTRY:	PSTA	PISTA	TYPE	
LEXENTRY:	PT	POINT	WORD,TYPE	
LEXENTRY:	PTE	PUENTE	TYPE	
LEXENTRY:	PU	PLATEAU	TYPE	
LEXENTRY:	PUENTE	PUENTE	TYPE	
LEXENTRY:	PUERTO RICO	PUERTO RICO	PROV,WORD	
LEXENTRY:	PV	PRIVATE	TYPE	
LEXENTRY:	PVT	PRIVATE	WORD,TYPE	
LEXENTRY:	PW	PATHWAY	TYPE	
LEXENTRY:	PW	PW	PROV	
LEXENTRY:	PWKY	PARKWAY	TYPE	
LEXENTRY:	PWY	PARKWAY	TYPE	
LEXENTRY:	PY	PARKWAY	TYPE	
LEXENTRY:	QC	QUEBEC	PROV,WORD,ROAD	
LEXENTRY:	QTRS	QUARTERS	BUILDT	
LEXENTRY:	QU	QUAY	TYPE	
LEXENTRY:	QUAI	QUAI	TYPE,WORD	
LEXENTRY:	QUARTERS	QUARTERS	BUILDT	
LEXENTRY:	QUATRE	3	NUMBER	
LEXENTRY:	QUATRE	4	WORD	
LEXENTRY:	QUATRIEME	QUATRIEME	WORD	
LEXENTRY:	QUAY	QUAY	TYPE,WORD	
LEXENTRY:	QUAY RD	QUAY ROAD	ROAD	
LEXENTRY:	QUAY ROAD	QUAY ROAD	ROAD	
LEXENTRY:	QUEBEC	QUEBEC	PROV,WORD	
LEXENTRY:	R	R	SINGLE	
LEXENTRY:	R	RURAL ROUTE	RR	
LEXENTRY:	R D	RURAL ROUTE	RR	
LEXENTRY:	R D NO	RURAL ROUTE	RR	
LEXENTRY:	R F D	RURAL ROUTE	RR	
LEXENTRY:	R NO	RURAL ROUTE	RR	
LEXENTRY:	R P O	POSTAL OUTLET	BOXH,BUILDT	
LEXENTRY:	R R	RURAL ROUTE	RR	
LEXENTRY:	R R NO	RURAL ROUTE	RR	
LEXENTRY:	R RT	RURAL ROUTE	RR	
LEXENTRY:	R RTE	RURAL ROUTE	RR	
LEXENTRY:	R T	ROUTE	ROAD,RR	
LEXENTRY:	RA	RANGE	TYPE	
LEXENTRY:	RADIAL	RADIAL	WORD	
LEXENTRY:	RADL	RADIAL	WORD	
LEXENTRY:	RAMAL	RAMAL	TYPE	
LEXENTRY:	RAMP	RAMP	TYPE	
LEXENTRY:	RAMPA	RAMPA	TYPE	
LEXENTRY:	RANCH	RANCH	WORD	
LEXENTRY:	RANCH RD	RANCH ROAD	ROAD,TYPE	
LEXENTRY:	RANCH ROAD	RANCH ROAD	ROAD,TYPE	
LEXENTRY:	RANCH TO MARKET ROAD	RANCH TO MARKET ROAD	ROAD,TYPE	
LEXENTRY:	RANCHO SANTA FE	RANCHO SANTA FE	CITY	
LEXENTRY:	RANCHOS DE TAOS	RANCHOS DE TAOS	CITY	
LEXENTRY:	RANG	RANG	TYPE,WORD	
LEXENTRY:	RANGE	RANGE	TYPE,WORD	
LEXENTRY:	RANGE ROAD	RANGE ROAD	ROAD,TYPE	
LEXENTRY:	RAPIDS	RAPIDS	WORD	
LEXENTRY:	RD	ROAD	TYPE	
LEXENTRY:	RDG	RIDGE	WORD,TYPE	
LEXENTRY:	RDPT	ROND POINT	TYPE	
LEXENTRY:	RDS	ROADS	WORD	
LEXENTRY:	RDWY	ROADWAY	TYPE	
LEXENTRY:	RE	RIDGE	TYPE	
LEXENTRY:	REAR	REAR	UNITT,WORD	
LEXENTRY:	RES	RESIDENCIA	BUILDT	
LEXENTRY:	RES HWY	RESERVATION HIGHWAY	ROAD	
LEXENTRY:	RESERVATION HIGHWAY	RESERVATION HIGHWAY	ROAD	
LEXENTRY:	RESHY	RESERVATION HIGHWAY	ROAD	
LEXENTRY:	RESIDENCIA	RESIDENCIA	BUILDT	
LEXENTRY:	RESORT	RESORT	WORD,BUILDT	
LEXENTRY:	REST	REST	WORD	
LEXENTRY:	REZ DE CHAUSEE	REZ DE CHAUSEE	UNITT	
LEXENTRY:	RFD	RURAL ROUTE	RR	
LEXENTRY:	RFD ROUTE	RURAL ROUTE	RR	
LEXENTRY:	RG	RANGE	TYPE,WORD	
LEXENTRY:	RGHT	RIGHT	UNITT	
LEXENTRY:	RHODE ISLAND	RHODE ISLAND	PROV,WORD	
LEXENTRY:	RI	RHODE ISLAND	PROV,WORD,ROAD	
";
"LEXENTRY:	RI	RISE	TYPE	
LEXENTRY:	RIDGE	RIDGE	WORD,TYPE	
LEXENTRY:	RIGHT	RIGHT	UNITT	
LEXENTRY:	RISE	RISE	TYPE	
LEXENTRY:	RIV	RIVER	WORD	
LEXENTRY:	RIVER	RIVER	WORD	
LEXENTRY:	RL	RUELLE	TYPE	
LEXENTRY:	RLE	RUELLE	TYPE	
LEXENTRY:	RM	RANCH TO MARKET ROAD	ROAD,TYPE	
LEXENTRY:	RM	ROOM	UNITH,UNITT	
LEXENTRY:	RM RD	RANCH TO MARKET ROAD	ROAD,TYPE	
LEXENTRY:	RML	RAMAL	TYPE	
LEXENTRY:	RMP	RAMP	TYPE	
LEXENTRY:	RN	RUN	TYPE	
LEXENTRY:	RNCH	RANCH	WORD	
LEXENTRY:	RNG ROAD	RANGE ROAD	ROAD,TYPE	
LEXENTRY:	RO	ROUTE	TYPE	
LEXENTRY:	ROAD	ROAD	TYPE	
LEXENTRY:	ROADS	ROADS	WORD	
LEXENTRY:	ROADWAY	ROADWAY	TYPE	
LEXENTRY:	ROND POINT	ROND POINT	TYPE	
LEXENTRY:	ROOM	ROOM	UNITH	
LEXENTRY:	ROUND O	ROUND O	CITY	
LEXENTRY:	ROUTE	ROUTE	ROAD,RR,TYPE	
LEXENTRY:	ROUTE NO	ROUTE	ROAD,RR	
LEXENTRY:	ROUTE NUMBER	ROUTE	ROAD,RR	
LEXENTRY:	ROUTES	ROUTES	ROAD	
LEXENTRY:	ROW	ROW	TYPE	
LEXENTRY:	RP	RAMP	TYPE	
LEXENTRY:	RPDS	RAPIDS	WORD	
LEXENTRY:	RPO	POSTAL OUTLET	BOXH,BUILDT	
LEXENTRY:	RR	RURAL ROUTE	RR	
LEXENTRY:	RR NO	RURAL ROUTE	RR	
LEXENTRY:	RRT	RURAL ROUTE	RR	
LEXENTRY:	RRTE	RURAL ROUTE	RR	
LEXENTRY:	RSRT	RESORT	WORD,BUILDT	
LEXENTRY:	RT	ROUTE	ROAD,RR	
LEXENTRY:	RT NO	ROUTE	ROAD,RR	
LEXENTRY:	RTE	ROUTE	ROAD,RR,TYPE	
LEXENTRY:	RTE ROUTE CORD	COUNTY ROAD	ROAD	
LEXENTRY:	RTE ROUTE COUNTY ROAD	COUNTY ROAD	TYPE	
LEXENTRY:	RU	RUE	TYPE	
LEXENTRY:	RUE	RUE	TYPE	
LEXENTRY:	RUELLE	RUELLE	TYPE	
LEXENTRY:	RUN	RUN	TYPE,WORD	
LEXENTRY:	RURAL	RURAL	WORD	
LEXENTRY:	RURAL	RURAL ROUTE	RR	
LEXENTRY:	RURAL ROUTE	RURAL ROUTE	RR	
LEXENTRY:	RURAL ROUTE NO	RURAL ROUTE	RR	
LEXENTRY:	RURAL RT	RURAL ROUTE	RR	
LEXENTRY:	RUTA	RUTA	TYPE	
LEXENTRY:	RW	ROW	TYPE	
LEXENTRY:	S	S	SINGLE	
LEXENTRY:	S	SOUTH	DIRECT	
LEXENTRY:	S / C	SHOPPING CENTER	BUILDT	
LEXENTRY:	S C	SHOPPING CENTER	BUILDT	
LEXENTRY:	S CAROLINA	SOUTH CAROLINA	PROV,WORD	
LEXENTRY:	S COFFEYVILLE	SOUTH COFFEYVILLE	CITY	
LEXENTRY:	S DAKOTA	SOUTH DAKOTA	PROV,WORD	
LEXENTRY:	S E	SOUTH EAST	DIRECT	
LEXENTRY:	S EL MONTE	SOUTH EL MONTE	CITY	
LEXENTRY:	S R	STAR ROUTE	ROAD,RR	
LEXENTRY:	S RT	STAR ROUTE	ROAD,RR	
LEXENTRY:	S W	SOUTHWEST	DIRECT	
LEXENTRY:	S/C	SHOPPING CENTER	BUILDT	
LEXENTRY:	SAINT	SAINT	WORD	
LEXENTRY:	SAINT AGATHA	SAINT AGATHA	CITY	
LEXENTRY:	SAINT ALBANS	SAINT ALBANS	CITY	
LEXENTRY:	SAINT ANDREWS	SAINT ANDREWS	CITY	
LEXENTRY:	SAINT ANN	SAINT ANN	CITY	
LEXENTRY:	SAINT ANN HIGHLANDS	SAINT ANN HIGHLANDS	CITY	
LEXENTRY:	SAINT ANNA	SAINT ANNA	CITY	
LEXENTRY:	SAINT ANNE	SAINT ANNE	CITY	
LEXENTRY:	SAINT ANSGAR	SAINT ANSGAR	CITY	
";
"LEXENTRY:	SAINT ANTHONY	SAINT ANTHONY	CITY	
LEXENTRY:	SAINT ARMAND	SAINT ARMAND	CITY	
LEXENTRY:	SAINT AUBERT	SAINT AUBERT	CITY	
LEXENTRY:	SAINT AUGUSTA	SAINT AUGUSTA	CITY	
LEXENTRY:	SAINT AUGUSTINE	SAINT AUGUSTINE	CITY	
LEXENTRY:	SAINT AUGUSTINE BEACH	SAINT AUGUSTINE BEACH	CITY	
LEXENTRY:	SAINT AUGUSTINE SHORES	SAINT AUGUSTINE SHORES	CITY	
LEXENTRY:	SAINT AUGUSTINE SOUTH	SAINT AUGUSTINE SOUTH	CITY	
LEXENTRY:	SAINT BENEDICT	SAINT BENEDICT	CITY	
LEXENTRY:	SAINT BERNARD	SAINT BERNARD	CITY	
LEXENTRY:	SAINT BERNICE	SAINT BERNICE	CITY	
LEXENTRY:	SAINT BONAVENTURE	SAINT BONAVENTURE	CITY	
LEXENTRY:	SAINT BONIFACIUS	SAINT BONIFACIUS	CITY	
LEXENTRY:	SAINT BRIDGET	SAINT BRIDGET	CITY	
LEXENTRY:	SAINT CHARLES	SAINT CHARLES	CITY	
LEXENTRY:	SAINT CHARLES MESA	SAINT CHARLES MESA	CITY	
LEXENTRY:	SAINT CLAIR	SAINT CLAIR	CITY	
LEXENTRY:	SAINT CLAIR SHORES	SAINT CLAIR SHORES	CITY	
LEXENTRY:	SAINT CLAIRSVILLE	SAINT CLAIRSVILLE	CITY	
LEXENTRY:	SAINT CLEMENT	SAINT CLEMENT	CITY	
LEXENTRY:	SAINT CLERE	SAINT CLERE	CITY	
LEXENTRY:	SAINT CLOUD	SAINT CLOUD	CITY	
LEXENTRY:	SAINT COLUMBANS	SAINT COLUMBANS	CITY	
LEXENTRY:	SAINT CROIX	SAINT CROIX	CITY	
LEXENTRY:	SAINT CROIX FALLS	SAINT CROIX FALLS	CITY	
LEXENTRY:	SAINT DAVID	SAINT DAVID	CITY	
LEXENTRY:	SAINT DONATUS	SAINT DONATUS	CITY	
LEXENTRY:	SAINT EDWARD	SAINT EDWARD	CITY	
LEXENTRY:	SAINT ELIZABETH	SAINT ELIZABETH	CITY	
LEXENTRY:	SAINT ELMO	SAINT ELMO	CITY	
LEXENTRY:	SAINT FERDINAND	SAINT FERDINAND	CITY	
LEXENTRY:	SAINT FLORIAN	SAINT FLORIAN	CITY	
LEXENTRY:	SAINT FRANCIS	SAINT FRANCIS	CITY	
LEXENTRY:	SAINT FRANCISVILLE	SAINT FRANCISVILLE	CITY	
LEXENTRY:	SAINT FRANCOIS	SAINT FRANCOIS	CITY	
LEXENTRY:	SAINT GABRIEL	SAINT GABRIEL	CITY	
LEXENTRY:	SAINT GEORGE	SAINT GEORGE	CITY	
LEXENTRY:	SAINT GEORGE ISLAND	SAINT GEORGE ISLAND	CITY	
LEXENTRY:	SAINT GERMAIN	SAINT GERMAIN	CITY	
LEXENTRY:	SAINT HEDWIG	SAINT HEDWIG	CITY	
LEXENTRY:	SAINT HELEN	SAINT HELEN	CITY	
LEXENTRY:	SAINT HELENA	SAINT HELENA	CITY	
LEXENTRY:	SAINT HELENA ISLAND	SAINT HELENA ISLAND	CITY	
LEXENTRY:	SAINT HELENS	SAINT HELENS	CITY	
LEXENTRY:	SAINT HENRY	SAINT HENRY	CITY	
LEXENTRY:	SAINT HILAIRE	SAINT HILAIRE	CITY	
LEXENTRY:	SAINT IGNACE	SAINT IGNACE	CITY	
LEXENTRY:	SAINT IGNATIUS	SAINT IGNATIUS	CITY	
LEXENTRY:	SAINT JACOB	SAINT JACOB	CITY	
LEXENTRY:	SAINT JAMES	SAINT JAMES	CITY	
LEXENTRY:	SAINT JAMES CITY	SAINT JAMES CITY	CITY	
LEXENTRY:	SAINT JO	SAINT JO	CITY	
LEXENTRY:	SAINT JOE	SAINT JOE	CITY	
LEXENTRY:	SAINT JOHN	SAINT JOHN	CITY	
LEXENTRY:	SAINT JOHNS	SAINT JOHNS	CITY	
";
"LEXENTRY:	SAINT JOHNS FREEMONT	SAINT JOHNS-FREEMONT	CITY	
LEXENTRY:	SAINT JOHNS-FREEMONT	SAINT JOHNS-FREEMONT	CITY	
LEXENTRY:	SAINT JOHNSBURY	SAINT JOHNSBURY	CITY	
LEXENTRY:	SAINT JOHNSVILLE	SAINT JOHNSVILLE	CITY	
LEXENTRY:	SAINT JOSEPH	SAINT JOSEPH	CITY	
LEXENTRY:	SAINT JUST	SAINT JUST	CITY	
LEXENTRY:	SAINT LAWRENCE	SAINT LAWRENCE	CITY	
LEXENTRY:	SAINT LEO	SAINT LEO	CITY	
LEXENTRY:	SAINT LEON	SAINT LEON	CITY	
LEXENTRY:	SAINT LEONARD	SAINT LEONARD	CITY	
LEXENTRY:	SAINT LIBORY	SAINT LIBORY	CITY	
LEXENTRY:	SAINT LOUIS	SAINT LOUIS	CITY	
LEXENTRY:	SAINT LOUIS PARK	SAINT LOUIS PARK	CITY	
LEXENTRY:	SAINT LOUISVILLE	SAINT LOUISVILLE	CITY	
LEXENTRY:	SAINT LUCAS	SAINT LUCAS	CITY	
LEXENTRY:	SAINT LUCIE VILLAGE	SAINT LUCIE VILLAGE	CITY	
LEXENTRY:	SAINT MARIE	SAINT MARIE	CITY	
LEXENTRY:	SAINT MARIES	SAINT MARIES	CITY	
LEXENTRY:	SAINT MARKS	SAINT MARKS	CITY	
LEXENTRY:	SAINT MARTIN	SAINT MARTIN	CITY	
LEXENTRY:	SAINT MARTINS	SAINT MARTINS	CITY	
LEXENTRY:	SAINT MARTINVILLE	SAINT MARTINVILLE	CITY	
LEXENTRY:	SAINT MARY	SAINT MARY	CITY	
LEXENTRY:	SAINT MARY OF THE WOODS	SAINT MARY OF THE WOODS	CITY	
LEXENTRY:	SAINT MARY'S	SAINT MARY'S	CITY	
LEXENTRY:	SAINT MARYS	SAINT MARYS	CITY	
LEXENTRY:	SAINT MARYS POINT	SAINT MARYS POINT	CITY	
LEXENTRY:	SAINT MATHIAS	SAINT MATHIAS	CITY	
LEXENTRY:	SAINT MATTHEWS	SAINT MATTHEWS	CITY	
LEXENTRY:	SAINT MAURICE	SAINT MAURICE	CITY	
LEXENTRY:	SAINT MEINRAD	SAINT MEINRAD	CITY	
LEXENTRY:	SAINT MICHAEL	SAINT MICHAEL	CITY	
LEXENTRY:	SAINT MICHAELS	SAINT MICHAELS	CITY	
LEXENTRY:	SAINT NAZIANZ	SAINT NAZIANZ	CITY	
LEXENTRY:	SAINT OLAF	SAINT OLAF	CITY	
LEXENTRY:	SAINT ONGE	SAINT ONGE	CITY	
LEXENTRY:	SAINT PARIS	SAINT PARIS	CITY	
LEXENTRY:	SAINT PAUL	SAINT PAUL	CITY	
LEXENTRY:	SAINT PAUL PARK	SAINT PAUL PARK	CITY	
LEXENTRY:	SAINT PAULS	SAINT PAULS	CITY	
LEXENTRY:	SAINT PETE BEACH	SAINT PETE BEACH	CITY	
LEXENTRY:	SAINT PETER	SAINT PETER	CITY	
LEXENTRY:	SAINT PETERS	SAINT PETERS	CITY	
LEXENTRY:	SAINT PETERSBURG	SAINT PETERSBURG	CITY	
LEXENTRY:	SAINT PIERRE	SAINT PIERRE	CITY	
LEXENTRY:	SAINT REGIS	SAINT REGIS	CITY	
LEXENTRY:	SAINT REGIS FALLS	SAINT REGIS FALLS	CITY	
LEXENTRY:	SAINT REGIS MOHAWK	SAINT REGIS MOHAWK	CITY	
LEXENTRY:	SAINT REGIS PARK	SAINT REGIS PARK	CITY	
LEXENTRY:	SAINT ROBERT	SAINT ROBERT	CITY	
LEXENTRY:	SAINT ROSA	SAINT ROSA	CITY	
LEXENTRY:	SAINT ROSE	SAINT ROSE	CITY	
LEXENTRY:	SAINT SIMONS	SAINT SIMONS	CITY	
LEXENTRY:	SAINT STEPHEN	SAINT STEPHEN	CITY	
LEXENTRY:	SAINT STEPHENS	SAINT STEPHENS	CITY	
";
"LEXENTRY:	SAINT STEPHENS CHURCH	SAINT STEPHENS CHURCH	CITY	
LEXENTRY:	SAINT THOMAS	SAINT THOMAS	CITY	
LEXENTRY:	SAINT VINCENT	SAINT VINCENT	CITY	
LEXENTRY:	SAINT VINCENT COLLEGE	SAINT VINCENT COLLEGE	CITY	
LEXENTRY:	SAINT WENDEL	SAINT WENDEL	CITY	
LEXENTRY:	SAINT XAVIER	SAINT XAVIER	CITY	
LEXENTRY:	SAINTE	SAINTE	WORD	
LEXENTRY:	SANTA FE	SANTA FE	WORD,CITY	
LEXENTRY:	SANTA FE SPRINGS	SANTA FE SPRINGS	CITY	
LEXENTRY:	SASK	SASKATCHEWAN	PROV,WORD	
LEXENTRY:	SASKATCHEWAN	SASKATCHEWAN	PROV,WORD	
LEXENTRY:	SC	SHOPPING CENTER	BUILDT	
LEXENTRY:	SC	SOUTH CAROLINA	PROV,WORD,ROAD	
LEXENTRY:	SCH	SCHOOL	BUILDT	
LEXENTRY:	SCHOOL	SCHOOL	BUILDT,WORD	
LEXENTRY:	SD	SOUTH DAKOTA	PROV,WORD,ROAD	
LEXENTRY:	SE	SOUTHEAST	DIRECT	
LEXENTRY:	SEARING ROUTE	RURAL ROUTE	RR	
LEXENTRY:	SEARING RT	RURAL ROUTE	RR	
LEXENTRY:	SEARING RTE	RURAL ROUTE	RR	
LEXENTRY:	SECOND	2	WORD,ORD	
LEXENTRY:	SEM	SEMINARY	BUILDT	
LEXENTRY:	SEMINARY	SEMINARY	BUILDT,WORD	
LEXENTRY:	SENDERO	SENDERO	TYPE	
LEXENTRY:	SENT	SENTIER	TYPE	
LEXENTRY:	SENTIER	SENTIER	TYPE	
LEXENTRY:	SER RD	SERVICE ROAD	TYPE	
LEXENTRY:	SERV RD	SERVICE ROAD	TYPE	
LEXENTRY:	SERV ROAD	SERVICE ROAD	TYPE	
LEXENTRY:	SERVICE	SERVICE	WORD	
LEXENTRY:	SERVICE	SERVICE ROAD	TYPE	
LEXENTRY:	SERVICE RD	SERVICE ROAD	TYPE	
LEXENTRY:	SERVICE ROAD	SERVICE ROAD	TYPE	
LEXENTRY:	SEVEN	7	NUMBER,WORD	
LEXENTRY:	SEVEN CORNERS	SEVEN CORNERS	WORD,BUILDT	
LEXENTRY:	SEVEN MILE	SEVEN MILE	WORD	
LEXENTRY:	SEVENTEEN	17	NUMBER,WORD	
LEXENTRY:	SEVENTEEN MILE	SEVENTEEN MILE	WORD	
LEXENTRY:	SEVENTEENTH	17	WORD,ORD	
LEXENTRY:	SEVENTH	7	WORD,ORD	
LEXENTRY:	SEVENTIETH	70	WORD,ORD	
LEXENTRY:	SEVENTY	70	NUMBER,WORD	
LEXENTRY:	SEVENTY EIGHT	78	NUMBER,WORD	
LEXENTRY:	SEVENTY EIGHTH	78	WORD,ORD	
LEXENTRY:	SEVENTY FIFTH	75	WORD,ORD	
LEXENTRY:	SEVENTY FIRST	71	WORD,ORD	
LEXENTRY:	SEVENTY FIVE	75	NUMBER,WORD	
LEXENTRY:	SEVENTY FOUR	74	NUMBER,WORD	
LEXENTRY:	SEVENTY FOURTH	74	WORD,ORD	
LEXENTRY:	SEVENTY NINE	79	NUMBER,WORD	
LEXENTRY:	SEVENTY NINTH	79	WORD,ORD	
LEXENTRY:	SEVENTY ONE	71	NUMBER,WORD	
LEXENTRY:	SEVENTY SECOND	72	WORD,ORD	
LEXENTRY:	SEVENTY SEVEN	77	NUMBER,WORD	
LEXENTRY:	SEVENTY SEVENTH	77	WORD,ORD	
LEXENTRY:	SEVENTY SIX	76	NUMBER,WORD	
LEXENTRY:	SEVENTY SIXTH	76	WORD,ORD	
LEXENTRY:	SEVENTY THIRD	73	WORD,ORD	
LEXENTRY:	SEVENTY THREE	73	NUMBER,WORD	
LEXENTRY:	SEVENTY TWO	72	NUMBER,WORD	
LEXENTRY:	SH	SHOPPING CENTER	BUILDT	
LEXENTRY:	SH CTR	SHOPPING CENTER	BUILDT	
LEXENTRY:	SHC	SHOPPING CENTER	BUILDT	
LEXENTRY:	SHL	SHOAL	WORD	
LEXENTRY:	SHLS	SHOALS	WORD	
";
"LEXENTRY:	SHOAL	SHOAL	WORD	
LEXENTRY:	SHOALS	SHOALS	WORD	
LEXENTRY:	SHOP	SHOPPING CENTER	BUILDT	
LEXENTRY:	SHOP CEN	SHOPPING CENTER	BUILDT	
LEXENTRY:	SHOP CENTER	SHOPPING CENTER	BUILDT	
LEXENTRY:	SHOP CTR	SHOPPING CENTER	BUILDT	
LEXENTRY:	SHOP MALL	MALL	BUILDT	
LEXENTRY:	SHOP MART	SHOPPING MART	BUILDT	
LEXENTRY:	SHOP N SAVE	SHOPPING CENTER	BUILDT	
LEXENTRY:	SHOP PLZ	PLAZA	BUILDT	
LEXENTRY:	SHOP SQ	SHOPPING SQUARE	BUILDT	
LEXENTRY:	SHOPETTE	SHOPPING CENTER	BUILDT	
LEXENTRY:	SHOPPERS	SHOPPING CENTER	BUILDT	
LEXENTRY:	SHOPPES	SHOPPING CENTER	BUILDT	
LEXENTRY:	SHOPPETTE	SHOPPING CENTER	BUILDT	
LEXENTRY:	SHOPPING	SHOPPING CENTER	BUILDT	
LEXENTRY:	SHOPPING CENT	SHOPPING CENTER	BUILDT	
LEXENTRY:	SHOPPING CENTE	SHOPPING CENTER	BUILDT	
LEXENTRY:	SHOPPING CENTER	SHOPPING CENTER	BUILDT	
LEXENTRY:	SHOPPING CNTR	SHOPPING CENTER	BUILDT	
LEXENTRY:	SHOPPING CTR	SHOPPING CENTER	BUILDT	
LEXENTRY:	SHOPPING MALL	MALL	BUILDT	
LEXENTRY:	SHOPPING PARK	SHOPPING CENTER	BUILDT	
LEXENTRY:	SHOPPING PLAZA	PLAZA	BUILDT	
LEXENTRY:	SHOPS	SHOPPING CENTER	BUILDT	
LEXENTRY:	SHORE	SHORE	WORD	
LEXENTRY:	SHP	SHOPPING CENTER	BUILDT	
LEXENTRY:	SHP CENTER	SHOPPING CENTER	BUILDT	
LEXENTRY:	SHP CT	SHOPPING CENTER	BUILDT	
LEXENTRY:	SHP CTR	SHOPPING CENTER	BUILDT	
LEXENTRY:	SHP ML	MALL	BUILDT	
LEXENTRY:	SHP PL	PLAZA	BUILDT	
LEXENTRY:	SHPCT	SHOPPING CENTER	BUILDT	
LEXENTRY:	SHPG	SHOPPING CENTER	BUILDT	
LEXENTRY:	SHPG CENTER	SHOPPING CENTER	BUILDT	
LEXENTRY:	SHPG CNTR	SHOPPING CENTER	BUILDT	
LEXENTRY:	SHPG CTR	SHOPPING CENTER	BUILDT	
LEXENTRY:	SHPML	MALL	BUILDT	
LEXENTRY:	SHPPL	PLAZA	BUILDT	
LEXENTRY:	SHR	SHORE	WORD	
LEXENTRY:	SIDE	SIDE	UNITT,WORD	
LEXENTRY:	SIDE ROAD	SIDE ROAD	TYPE	
LEXENTRY:	SITE	SITE	BUILDH,WORD	
LEXENTRY:	SIX	6	NUMBER,WORD	
LEXENTRY:	SIX MILE	SIX MILE	WORD	
LEXENTRY:	SIXTEEN	16	NUMBER,WORD	
LEXENTRY:	SIXTEEN MILE	SIXTEEN MILE	WORD	
LEXENTRY:	SIXTEENTH	16	WORD,ORD	
LEXENTRY:	SIXTH	6	WORD,ORD	
LEXENTRY:	SIXTIETH	60	WORD,ORD	
LEXENTRY:	SIXTY	60	NUMBER,WORD	
LEXENTRY:	SIXTY EIGHT	68	NUMBER,WORD	
LEXENTRY:	SIXTY EIGHTH	68	WORD,ORD	
LEXENTRY:	SIXTY FIFTH	65	WORD,ORD	
LEXENTRY:	SIXTY FIRST	61	WORD,ORD	
LEXENTRY:	SIXTY FIVE	65	NUMBER,WORD	
LEXENTRY:	SIXTY FOUR	64	NUMBER,WORD	
LEXENTRY:	SIXTY FOURTH	64	WORD,ORD	
LEXENTRY:	SIXTY NINE	69	NUMBER,WORD	
LEXENTRY:	SIXTY NINTH	69	WORD,ORD	
LEXENTRY:	SIXTY ONE	61	NUMBER,WORD	
LEXENTRY:	SIXTY SECOND	62	WORD,ORD	
LEXENTRY:	SIXTY SEVEN	67	NUMBER,WORD	
LEXENTRY:	SIXTY SEVENTH	67	WORD,ORD	
LEXENTRY:	SIXTY SIX	66	NUMBER,WORD	
";
"LEXENTRY:	SIXTY SIXTH	66	WORD,ORD	
LEXENTRY:	SIXTY THIRD	63	WORD,ORD	
LEXENTRY:	SIXTY THREE	63	NUMBER,WORD	
LEXENTRY:	SIXTY TWO	62	NUMBER,WORD	
LEXENTRY:	SK	SASKATCHEWAN	PROV,WORD,ROAD	
LEXENTRY:	SKWY	SKYWAY	TYPE	
LEXENTRY:	SKYWAY	SKYWAY	TYPE	
LEXENTRY:	SLIP	SLIP	UNITH,WORD	
LEXENTRY:	SM	MALL	BUILDT	
LEXENTRY:	SMT	SHOPPING MART	BUILDT	
LEXENTRY:	SMT	SUMMIT	WORD	
LEXENTRY:	SNDR	SENDERO	TYPE	
LEXENTRY:	SO	SOUTH	DIRECT	
LEXENTRY:	SOTA	SOTA	WORD	
LEXENTRY:	SOTA	SOTANO	UNITH	
LEXENTRY:	SOTAN	SOTANO	UNITH	
LEXENTRY:	SOTANO	SOTANO	UNITH	
LEXENTRY:	SOUS SOL	SOUS SOL	UNITT	
LEXENTRY:	SOUTH	SOUTH	DIRECT	
LEXENTRY:	SOUTH CAROLINA	SOUTH CAROLINA	PROV,WORD	
LEXENTRY:	SOUTH COFFEYVILLE	SOUTH COFFEYVILLE	CITY	
LEXENTRY:	SOUTH DAKOTA	SOUTH DAKOTA	PROV,WORD	
LEXENTRY:	SOUTH EAST	SOUTHEAST	DIRECT	
LEXENTRY:	SOUTH EL MONTE	SOUTH EL MONTE	CITY	
LEXENTRY:	SOUTH WEST	SOUTHWEST	DIRECT	
LEXENTRY:	SOUTHBOUND	SOUTHBOUND	WORD,QUALIF	
LEXENTRY:	SOUTHEAST	SOUTHEAST	DIRECT	
LEXENTRY:	SOUTHWEST	SOUTHWEST	DIRECT	
LEXENTRY:	SP	SHOPPING PLAZA	BUILDT	
LEXENTRY:	SP	SPACE	UNITH	
LEXENTRY:	SPACE	SPACE	UNITH,WORD	
LEXENTRY:	SPC	SPACE	UNITH	
LEXENTRY:	SPDWY	SPEEDWAY	TYPE	
LEXENTRY:	SPEEDWAY	SPEEDWAY	TYPE	
LEXENTRY:	SPG	SPRING	WORD	
LEXENTRY:	SPGS	SPRING	WORD	
LEXENTRY:	SPR	SPRING	WORD	
LEXENTRY:	SPRG	SPRING	WORD	
LEXENTRY:	SPRING	SPRING	WORD	
LEXENTRY:	SPRINGS	SPRING	WORD	
LEXENTRY:	SPUR	SPUR	QUALIF,TYPE,WORD	
LEXENTRY:	SPURNGS	SPUR	WORD	
LEXENTRY:	SQ	SQUARE	TYPE,BUILDT	
LEXENTRY:	SQR	SQUARE	TYPE,BUILDT	
LEXENTRY:	SQU	SQUARE	TYPE,BUILDT	
LEXENTRY:	SQUARE	SQUARE	TYPE,BUILDT	
LEXENTRY:	SQURE	SQUARE	TYPE,BUILDT	
LEXENTRY:	SR	SIDE ROAD	TYPE	
LEXENTRY:	SR	STAR ROUTE	ROAD,RR,WORD	
LEXENTRY:	SRA	RURAL ROUTE	RR	
LEXENTRY:	SRV RD	SERVICE ROAD	TYPE	
LEXENTRY:	SRV RTE	SERVICE ROUTE	TYPE	
LEXENTRY:	SRVC	SERVICE ROAD	TYPE	
LEXENTRY:	SRVRD	SERVICE ROAD	TYPE	
LEXENTRY:	SRVRTE	SERVICE ROAD	TYPE	
LEXENTRY:	SS	SUBURBAN SERVICE	RR	
LEXENTRY:	ST	SAINT	WORD	
LEXENTRY:	ST	STREET	TYPE	
LEXENTRY:	ST AGATHA	SAINT AGATHA	CITY	
LEXENTRY:	ST ALBANS	SAINT ALBANS	CITY	
LEXENTRY:	ST ANDREWS	SAINT ANDREWS	CITY	
LEXENTRY:	ST ANN	SAINT ANN	CITY	
LEXENTRY:	ST ANN HIGHLANDS	SAINT ANN HIGHLANDS	CITY	
LEXENTRY:	ST ANNA	SAINT ANNA	CITY	
LEXENTRY:	ST ANNE	SAINT ANNE	CITY	
LEXENTRY:	ST ANSGAR	SAINT ANSGAR	CITY	
LEXENTRY:	ST ANTHONY	SAINT ANTHONY	CITY	
LEXENTRY:	ST ARMAND	SAINT ARMAND	CITY	
LEXENTRY:	ST AUBERT	SAINT AUBERT	CITY	
LEXENTRY:	ST AUGUSTA	SAINT AUGUSTA	CITY	
LEXENTRY:	ST AUGUSTINE	SAINT AUGUSTINE	CITY	
";
"LEXENTRY:	ST AUGUSTINE BEACH	SAINT AUGUSTINE BEACH	CITY	
LEXENTRY:	ST AUGUSTINE SHORES	SAINT AUGUSTINE SHORES	CITY	
LEXENTRY:	ST AUGUSTINE SOUTH	SAINT AUGUSTINE SOUTH	CITY	
LEXENTRY:	ST BENEDICT	SAINT BENEDICT	CITY	
LEXENTRY:	ST BERNARD	SAINT BERNARD	CITY	
LEXENTRY:	ST BERNICE	SAINT BERNICE	CITY	
LEXENTRY:	ST BONAVENTURE	SAINT BONAVENTURE	CITY	
LEXENTRY:	ST BONIFACIUS	SAINT BONIFACIUS	CITY	
LEXENTRY:	ST BRIDGET	SAINT BRIDGET	CITY	
LEXENTRY:	ST CHARLES	SAINT CHARLES	CITY	
LEXENTRY:	ST CHARLES MESA	SAINT CHARLES MESA	CITY	
LEXENTRY:	ST CLAIR	SAINT CLAIR	CITY	
LEXENTRY:	ST CLAIR SHORES	SAINT CLAIR SHORES	CITY	
LEXENTRY:	ST CLAIRSVILLE	SAINT CLAIRSVILLE	CITY	
LEXENTRY:	ST CLEMENT	SAINT CLEMENT	CITY	
LEXENTRY:	ST CLERE	SAINT CLERE	CITY	
LEXENTRY:	ST CLOUD	SAINT CLOUD	CITY	
LEXENTRY:	ST COLUMBANS	SAINT COLUMBANS	CITY	
LEXENTRY:	ST CROIX	SAINT CROIX	CITY	
LEXENTRY:	ST CROIX FALLS	SAINT CROIX FALLS	CITY	
LEXENTRY:	ST DAVID	SAINT DAVID	CITY	
LEXENTRY:	ST DONATUS	SAINT DONATUS	CITY	
LEXENTRY:	ST EDWARD	SAINT EDWARD	CITY	
LEXENTRY:	ST ELIZABETH	SAINT ELIZABETH	CITY	
LEXENTRY:	ST ELMO	SAINT ELMO	CITY	
LEXENTRY:	ST FERDINAND	SAINT FERDINAND	CITY	
LEXENTRY:	ST FLORIAN	SAINT FLORIAN	CITY	
LEXENTRY:	ST FRANCIS	SAINT FRANCIS	CITY	
LEXENTRY:	ST FRANCISVILLE	SAINT FRANCISVILLE	CITY	
LEXENTRY:	ST FRANCOIS	SAINT FRANCOIS	CITY	
LEXENTRY:	ST GABRIEL	SAINT GABRIEL	CITY	
LEXENTRY:	ST GEORGE	SAINT GEORGE	CITY	
LEXENTRY:	ST GEORGE ISLAND	SAINT GEORGE ISLAND	CITY	
LEXENTRY:	ST GERMAIN	SAINT GERMAIN	CITY	
LEXENTRY:	ST HEDWIG	SAINT HEDWIG	CITY	
LEXENTRY:	ST HELEN	SAINT HELEN	CITY	
LEXENTRY:	ST HELENA	SAINT HELENA	CITY	
LEXENTRY:	ST HELENA ISLAND	SAINT HELENA ISLAND	CITY	
LEXENTRY:	ST HELENS	SAINT HELENS	CITY	
LEXENTRY:	ST HENRY	SAINT HENRY	CITY	
LEXENTRY:	ST HI	STATE HIGHWAY	ROAD	
LEXENTRY:	ST HIGHWAY	STATE HIGHWAY	ROAD	
LEXENTRY:	ST HILAIRE	SAINT HILAIRE	CITY	
LEXENTRY:	ST HWY	STATE HIGHWAY	ROAD	
LEXENTRY:	ST HY	STATE HIGHWAY	ROAD	
LEXENTRY:	ST IGNACE	SAINT IGNACE	CITY	
LEXENTRY:	ST IGNATIUS	SAINT IGNATIUS	CITY	
LEXENTRY:	ST JACOB	SAINT JACOB	CITY	
LEXENTRY:	ST JAMES	SAINT JAMES	CITY	
LEXENTRY:	ST JAMES CITY	SAINT JAMES CITY	CITY	
LEXENTRY:	ST JO	SAINT JO	CITY	
LEXENTRY:	ST JOE	SAINT JOE	CITY	
LEXENTRY:	ST JOHN	SAINT JOHN	CITY	
LEXENTRY:	ST JOHNS	SAINT JOHNS	CITY	
LEXENTRY:	ST JOHNS FREEMONT	SAINT JOHNS-FREEMONT	CITY	
LEXENTRY:	ST JOHNS-FREEMONT	SAINT JOHNS-FREEMONT	CITY	
LEXENTRY:	ST JOHNSBURY	SAINT JOHNSBURY	CITY	
LEXENTRY:	ST JOHNSVILLE	SAINT JOHNSVILLE	CITY	
";
"LEXENTRY:	ST JOSEPH	SAINT JOSEPH	CITY	
LEXENTRY:	ST JUST	SAINT JUST	CITY	
LEXENTRY:	ST LAWRENCE	SAINT LAWRENCE	CITY	
LEXENTRY:	ST LEO	SAINT LEO	CITY	
LEXENTRY:	ST LEON	SAINT LEON	CITY	
LEXENTRY:	ST LEONARD	SAINT LEONARD	CITY	
LEXENTRY:	ST LIBORY	SAINT LIBORY	CITY	
LEXENTRY:	ST LOUIS	SAINT LOUIS	CITY	
LEXENTRY:	ST LOUIS PARK	SAINT LOUIS PARK	CITY	
LEXENTRY:	ST LOUISVILLE	SAINT LOUISVILLE	CITY	
LEXENTRY:	ST LUCAS	SAINT LUCAS	CITY	
LEXENTRY:	ST LUCIE VILLAGE	SAINT LUCIE VILLAGE	CITY	
LEXENTRY:	ST MARIE	SAINT MARIE	CITY	
LEXENTRY:	ST MARIES	SAINT MARIES	CITY	
LEXENTRY:	ST MARKS	SAINT MARKS	CITY	
LEXENTRY:	ST MARTIN	SAINT MARTIN	CITY	
LEXENTRY:	ST MARTINS	SAINT MARTINS	CITY	
LEXENTRY:	ST MARTINVILLE	SAINT MARTINVILLE	CITY	
LEXENTRY:	ST MARY	SAINT MARY	CITY	
LEXENTRY:	ST MARY OF THE WOODS	SAINT MARY OF THE WOODS	CITY	
LEXENTRY:	ST MARY'S	SAINT MARY'S	CITY	
LEXENTRY:	ST MARYS	SAINT MARYS	CITY	
LEXENTRY:	ST MARYS POINT	SAINT MARYS POINT	CITY	
LEXENTRY:	ST MATHIAS	SAINT MATHIAS	CITY	
LEXENTRY:	ST MATTHEWS	SAINT MATTHEWS	CITY	
LEXENTRY:	ST MAURICE	SAINT MAURICE	CITY	
LEXENTRY:	ST MEINRAD	SAINT MEINRAD	CITY	
LEXENTRY:	ST MICHAEL	SAINT MICHAEL	CITY	
LEXENTRY:	ST MICHAELS	SAINT MICHAELS	CITY	
LEXENTRY:	ST NAZIANZ	SAINT NAZIANZ	CITY	
LEXENTRY:	ST OLAF	SAINT OLAF	CITY	
LEXENTRY:	ST ONGE	SAINT ONGE	CITY	
LEXENTRY:	ST PARIS	SAINT PARIS	CITY	
LEXENTRY:	ST PAUL	SAINT PAUL	CITY	
LEXENTRY:	ST PAUL PARK	SAINT PAUL PARK	CITY	
LEXENTRY:	ST PAULS	SAINT PAULS	CITY	
LEXENTRY:	ST PETE BEACH	SAINT PETE BEACH	CITY	
LEXENTRY:	ST PETER	SAINT PETER	CITY	
LEXENTRY:	ST PETERS	SAINT PETERS	CITY	
LEXENTRY:	ST PETERSBURG	SAINT PETERSBURG	CITY	
LEXENTRY:	ST PIERRE	SAINT PIERRE	CITY	
LEXENTRY:	ST R	STAR ROUTE	ROAD,RR	
LEXENTRY:	ST RD	STATE ROAD	ROAD	
LEXENTRY:	ST REGIS	SAINT REGIS	CITY	
LEXENTRY:	ST REGIS FALLS	SAINT REGIS FALLS	CITY	
LEXENTRY:	ST REGIS MOHAWK	SAINT REGIS MOHAWK	CITY	
LEXENTRY:	ST REGIS PARK	SAINT REGIS PARK	CITY	
LEXENTRY:	ST ROAD	STATE ROAD	ROAD	
LEXENTRY:	ST ROBERT	SAINT ROBERT	CITY	
LEXENTRY:	ST ROSA	SAINT ROSA	CITY	
LEXENTRY:	ST ROSE	SAINT ROSE	CITY	
LEXENTRY:	ST ROUTE	STAR ROUTE	RR	
LEXENTRY:	ST ROUTE	STATE ROUTE	ROAD	
LEXENTRY:	ST RT	STAR ROUTE	RR	
LEXENTRY:	ST RT	STATE ROUTE	ROAD	
LEXENTRY:	ST RTE	STAR ROUTE	RR	
LEXENTRY:	ST RTE	STATE ROUTE	ROAD	
LEXENTRY:	ST SIMONS	SAINT SIMONS	CITY	
LEXENTRY:	ST STEPHEN	SAINT STEPHEN	CITY	
LEXENTRY:	ST STEPHENS	SAINT STEPHENS	CITY	
LEXENTRY:	ST STEPHENS CHURCH	SAINT STEPHENS CHURCH	CITY	
LEXENTRY:	ST THOMAS	SAINT THOMAS	CITY	
";
"LEXENTRY:	ST VINCENT	SAINT VINCENT	CITY	
LEXENTRY:	ST VINCENT COLLEGE	SAINT VINCENT COLLEGE	CITY	
LEXENTRY:	ST WENDEL	SAINT WENDEL	CITY	
LEXENTRY:	ST XAVIER	SAINT XAVIER	CITY	
LEXENTRY:	STA	STATION	TYPE,BUILDT,WORD	
LEXENTRY:	STALL	STALL	UNITH,WORD	
LEXENTRY:	STAR ROUTE	STAR ROUTE	RR	
LEXENTRY:	STAR RT	STAR ROUTE	RR	
LEXENTRY:	STAT	STATION	TYPE,BUILDT,WORD	
LEXENTRY:	STATE	STATE	WORD	
LEXENTRY:	STATE	STATE ROAD	ROAD	
LEXENTRY:	STATE HI	STATE HIGHWAY	ROAD	
LEXENTRY:	STATE HIGHWAY	STATE HIGHWAY	ROAD	
LEXENTRY:	STATE HWY	STATE HIGHWAY	ROAD	
LEXENTRY:	STATE HY	STATE HIGHWAY	ROAD	
LEXENTRY:	STATE RD	STATE ROAD	ROAD	
LEXENTRY:	STATE ROAD	STATE ROAD	ROAD	
LEXENTRY:	STATE ROUTE	STATE ROUTE	ROAD	
LEXENTRY:	STATE RT	STATE ROUTE	ROAD	
LEXENTRY:	STATE RTE	STATE ROUTE	ROAD	
LEXENTRY:	STATION	STATION	TYPE,BUILDT,WORD	
LEXENTRY:	STATION FORCES	STATION FORCES	BUILDT	
LEXENTRY:	STATN	STATION	TYPE,BUILDT,WORD	
LEXENTRY:	STE	SAINTE	WORD	
LEXENTRY:	STE	SUITE	UNITH	
LEXENTRY:	STES	SUITES	BUILDT	
LEXENTRY:	STH	SOUTH	DIRECT	
LEXENTRY:	STHW	STATE HIGHWAY	ROAD	
LEXENTRY:	STHWY	STATE HIGHWAY	ROAD	
LEXENTRY:	STHY	STATE HIGHWAY	ROAD	
LEXENTRY:	STLL	STALL	UNITH	
LEXENTRY:	STN	STATION	TYPE,BUILDT,WORD	
LEXENTRY:	STN FORCES	STATION FORCES	BUILDT	
LEXENTRY:	STOP	STOP	UNITH,WORD	
LEXENTRY:	STOP & SHOP	SHOPPING CENTER	BUILDT	
LEXENTRY:	STOP & SHOP CTR	SHOPPING CENTER	BUILDT	
LEXENTRY:	STOR	STORE	UNITH,WORD	
LEXENTRY:	STORE	SHOPPING CENTER	BUILDT	
LEXENTRY:	STORE	STORE	UNITH,WORD	
LEXENTRY:	STORES	SHOPPING CENTER	BUILDT	
LEXENTRY:	STR	STREET	TYPE	
LEXENTRY:	STRA	STRAVENUE	TYPE	
LEXENTRY:	STRAV	STRAVENUE	TYPE	
LEXENTRY:	STRAVE	STRAVENUE	TYPE	
LEXENTRY:	STRAVEN	STRAVENUE	TYPE	
LEXENTRY:	STRAVENUE	STRAVENUE	TYPE	
LEXENTRY:	STRAVN	STRAVENUE	TYPE	
LEXENTRY:	STRD	STATE ROAD	TYPE	
LEXENTRY:	STREAM	STREAM	WORD	
LEXENTRY:	STREET	STREET	TYPE	
LEXENTRY:	STREETS	STREETS	WORD	
LEXENTRY:	STRIP	STRIP	WORD,TYPE	
LEXENTRY:	STRM	STREAM	WORD	
LEXENTRY:	STRP	STRIP	WORD,TYPE	
LEXENTRY:	STRT	STAR ROUTE	ROAD,RR	
LEXENTRY:	STRVN	STRAVENUE	TYPE	
LEXENTRY:	STRVNUE	STRAVENUE	TYPE	
LEXENTRY:	STS	STREETS	WORD	
LEXENTRY:	STUDIO	STUDIO	UNITH,WORD	
LEXENTRY:	SU	SUITE	UNITH	
LEXENTRY:	SUBD	SUBDIVISION	WORD,TYPE	
LEXENTRY:	SUBDIV	SUBDIVISION	WORD,TYPE	
LEXENTRY:	SUBDIVISION	SUBDIVISION	WORD,TYPE	
LEXENTRY:	SUBURBAN ROUTE	RURAL ROUTE	RR	
LEXENTRY:	SUBURBAN RT	RURAL ROUTE	RR	
LEXENTRY:	SUBURBAN RTE	RURAL ROUTE	RR	
LEXENTRY:	SUBURBAN SERVICE	SUBURBAN SERVICE	RR	
LEXENTRY:	SUD	SUD	DIRECT	
LEXENTRY:	SUD EST	SUD EST	DIRECT	
";
"LEXENTRY:	SUD OUEST	SUD OUEST	DIRECT	
LEXENTRY:	SUDEST	SUD EST	DIRECT	
LEXENTRY:	SUDOUEST	SUD OUEST	DIRECT	
LEXENTRY:	SUIT	SUITE	UNITH,WORD	
LEXENTRY:	SUITE	SUITE	UNITH	
LEXENTRY:	SUITES	SUITES	UNITH,BUILDT	
LEXENTRY:	SUMMIT	SUMMIT	WORD	
LEXENTRY:	SUR	SOUTH	DIRECT	
LEXENTRY:	SV RTE	SERVICE ROUTE	TYPE	
LEXENTRY:	SVC RD	SERVICE ROAD	TYPE	
LEXENTRY:	SVRD	SERVICE ROAD	TYPE	
LEXENTRY:	SW	SOUTHWEST	DIRECT	
LEXENTRY:	SWP	SWAMP	WORD	
LEXENTRY:	TANK TRAIL	TANK TRAIL	TYPE	
LEXENTRY:	TEN	10	WORD,NUMBER	
LEXENTRY:	TEN MILE	TEN MILE	WORD	
LEXENTRY:	TENN	TENNESSEE	PROV,WORD,ROAD	
LEXENTRY:	TENNESSEE	TENNESSEE	PROV,WORD	
LEXENTRY:	TENTH	10	WORD,ORD	
LEXENTRY:	TER	TERRACE	TYPE	
LEXENTRY:	TERRACE	TERRACE	TYPE	
LEXENTRY:	TERM	TERMINAL	WORD,TYPE	
LEXENTRY:	TERMINAL	TERMINAL	WORD,TYPE	
LEXENTRY:	TERR	TERRACE	TYPE	
LEXENTRY:	TERRASSE	TERRASSE	TYPE,WORD	
LEXENTRY:	TERRE NEUVE	NEWFOUNDLAND	PROV,WORD	
LEXENTRY:	TERRITOIRES DU NORD OUES	NORTHWEST TERRITORIES	PROV,WORD	
LEXENTRY:	TEX	TEXAS	PROV,WORD,ROAD	
LEXENTRY:	TEXAS	TEXAS	PROV,WORD	
LEXENTRY:	TFWY	TRAFFICWAY	TYPE	
LEXENTRY:	THE	THE	STOPWORD	
LEXENTRY:	THFR	THOROUGHFARE	TYPE	
LEXENTRY:	THICKET	THICKET	WORD,TYPE	
LEXENTRY:	THIRD	3	WORD,ORD	
LEXENTRY:	THIRTEEN	13	NUMBER,WORD	
LEXENTRY:	THIRTEEN MILE	THIRTEEN MILE	WORD	
LEXENTRY:	THIRTEENTH	13	WORD,ORD	
LEXENTRY:	THIRTIETH	30	WORD,ORD	
LEXENTRY:	THIRTY	30	NUMBER,WORD	
LEXENTRY:	THIRTY EIGHT	38	NUMBER,WORD	
LEXENTRY:	THIRTY EIGHTH	38	WORD,ORD	
LEXENTRY:	THIRTY FIFTH	35	WORD,ORD	
LEXENTRY:	THIRTY FIRST	31	WORD,ORD	
LEXENTRY:	THIRTY FIVE	35	NUMBER,WORD	
LEXENTRY:	THIRTY FOUR	34	NUMBER,WORD	
LEXENTRY:	THIRTY FOURTH	34	WORD,ORD	
LEXENTRY:	THIRTY NINE	39	NUMBER,WORD	
LEXENTRY:	THIRTY NINTH	39	WORD,ORD	
LEXENTRY:	THIRTY ONE	31	NUMBER,WORD	
LEXENTRY:	THIRTY SECOND	32	WORD,ORD	
LEXENTRY:	THIRTY SEVEN	37	NUMBER,WORD	
LEXENTRY:	THIRTY SEVENTH	37	WORD,ORD	
LEXENTRY:	THIRTY SIX	36	NUMBER,WORD	
LEXENTRY:	THIRTY SIXTH	36	WORD,ORD	
LEXENTRY:	THIRTY THIRD	33	WORD,ORD	
LEXENTRY:	THIRTY THREE	33	NUMBER,WORD	
LEXENTRY:	THIRTY TWO	32	NUMBER,WORD	
LEXENTRY:	THORO	THOROUGHFARE	TYPE	
LEXENTRY:	THOROFARE	THOROUGHFARE	TYPE	
LEXENTRY:	THOROUGHFARE	THOROUGHFARE	TYPE	
LEXENTRY:	THREE	3	NUMBER,WORD	
LEXENTRY:	THREE MILE	THREE MILE	WORD	
LEXENTRY:	THROUGHWAY	THROUGHWAY	TYPE	
LEXENTRY:	THRUWAY	THROUGHWAY	TYPE	
LEXENTRY:	THWY	THROUGHWAY	TYPE	
LEXENTRY:	TK TRL	TANK TRAIL	TYPE	
LEXENTRY:	TKTRL	TANK TRAIL	TYPE	
LEXENTRY:	TL	TRAIL	TYPE	
LEXENTRY:	TLINE	TOWNLINE	TYPE	
LEXENTRY:	TLR	TRAILER	UNITH	
";
"LEXENTRY:	TLR COURT	TRAILER PARK	BUILDT	
LEXENTRY:	TLR CRT	TRAILER PARK	BUILDT	
LEXENTRY:	TLR CT	TRAILER PARK	BUILDT	
LEXENTRY:	TLR PARK	TRAILER PARK	BUILDT	
LEXENTRY:	TLR PK	TRAILER PARK	BUILDT	
LEXENTRY:	TLR PRK	TRAILER PARK	BUILDT	
LEXENTRY:	TN	TENNESSEE	PROV,WORD,ROAD	
LEXENTRY:	TNPK	TURNPIKE	TYPE	
LEXENTRY:	TNPKE	TURNPIKE	TYPE	
LEXENTRY:	TOP	TOP	UNITT,WORD	
LEXENTRY:	TOWER	TOWER	BUILDH,WORD	
LEXENTRY:	TOWER	TOWERS	BUILDT	
LEXENTRY:	TOWERS	TOWERS	BUILDT,BUILDH,TYPE,WORD	
LEXENTRY:	TOWN HIGHWAY	TOWN HIGHWAY	TYPE,ROAD	
LEXENTRY:	TOWN HWY	TOWN HIGHWAY	TYPE,ROAD	
LEXENTRY:	TOWN RD	TOWN ROAD	TYPE,ROAD	
LEXENTRY:	TOWN ROAD	TOWN ROAD	TYPE,ROAD	
LEXENTRY:	TOWNHOME	TOWNHOUSE	BUILDT	
LEXENTRY:	TOWNHOMES	TOWNHOUSE	BUILDT	
LEXENTRY:	TOWNHOUSE	TOWNHOUSE	BUILDT	
LEXENTRY:	TOWNHOUSES	TOWNHOUSE	BUILDT	
LEXENTRY:	TOWNLINE	TOWNLINE	TYPE	
LEXENTRY:	TOWNSHIP HIGHWAY	TOWNSHIP HIGHWAY	ROAD	
LEXENTRY:	TOWNSHIP HIWAY	TOWNSHIP HIGHWAY	ROAD	
LEXENTRY:	TOWNSHIP HWY	TOWNSHIP HIGHWAY	ROAD	
LEXENTRY:	TOWNSHIP OF WASHINGTON	TOWNSHIP OF WASHINGTON	CITY	
LEXENTRY:	TOWNSHIP RD	TOWNSHIP ROAD	ROAD	
LEXENTRY:	TOWNSHIP ROAD	TOWNSHIP ROAD	ROAD	
LEXENTRY:	TP	TRAILER PARK	BUILDT	
LEXENTRY:	TPK	TURNPIKE	TYPE,ROAD	
LEXENTRY:	TPKE	TURNPIKE	TYPE,ROAD	
LEXENTRY:	TR	TOWNSHIP ROAD	ROAD	
LEXENTRY:	TR	TRAIL	TYPE	
LEXENTRY:	TR COURT	TRAILER PARK	BUILDT	
LEXENTRY:	TR CRT	TRAILER PARK	BUILDT	
LEXENTRY:	TR CT	TRAILER PARK	BUILDT	
LEXENTRY:	TR PARK	TRAILER PARK	BUILDT	
LEXENTRY:	TR PK	TRAILER PARK	BUILDT	
LEXENTRY:	TR PRK	TRAILER PARK	BUILDT	
LEXENTRY:	TR VILLAGE	TRAILER PARK	BUILDT	
LEXENTRY:	TR VLG	TRAILER PARK	BUILDT	
LEXENTRY:	TRACE	TRACE	WORD,TYPE	
LEXENTRY:	TRACK	TRACK	WORD	
LEXENTRY:	TRAFFICWAY	TRAFFICWAY	TYPE	
LEXENTRY:	TRAIL	TRAIL	TYPE,WORD	
LEXENTRY:	TRAILER	TRAILER	UNITH,BUILDT	
LEXENTRY:	TRAILER COURT	TRAILER PARK	BUILDT	
LEXENTRY:	TRAILER CRT	TRAILER PARK	BUILDT	
LEXENTRY:	TRAILER CT	TRAILER PARK	BUILDT	
LEXENTRY:	TRAILER PARK	TRAILER PARK	BUILDT	
LEXENTRY:	TRAILER PK	TRAILER PARK	BUILDT	
LEXENTRY:	TRAILER PRK	TRAILER PARK	BUILDT	
LEXENTRY:	TRAILER VILLAGE	TRAILER PARK	BUILDT	
LEXENTRY:	TRAILER VLG	TRAILER PARK	BUILDT	
LEXENTRY:	TRAILERCOURT	TRAILER PARK	BUILDT	
LEXENTRY:	TRAILERPARK	TRAILER PARK	BUILDT	
LEXENTRY:	TRAILERS	TRAILER PARK	BUILDT	
LEXENTRY:	TRAILS	TRAIL	TYPE	
LEXENTRY:	TRAK	TRACK	WORD	
LEXENTRY:	TRANS CANADA	TRANS CANADA	ROAD,WORD	
LEXENTRY:	TRANSCANADA	TRANS CANADA	ROAD,WORD	
LEXENTRY:	TRCE	TRACE	WORD,TYPE	
LEXENTRY:	TRCRT	TRAILER PARK	BUILDT	
LEXENTRY:	TRCT	TRAILER PARK	BUILDT	
";
"LEXENTRY:	TRL	TRAIL	TYPE	
LEXENTRY:	TRL COURT	TRAILER PARK	BUILDT	
LEXENTRY:	TRL CRT	TRAILER PARK	BUILDT	
LEXENTRY:	TRL CT	TRAILER PARK	BUILDT	
LEXENTRY:	TRL PARK	TRAILER PARK	BUILDT	
LEXENTRY:	TRL PK	TRAILER PARK	BUILDT	
LEXENTRY:	TRL PRK	TRAILER PARK	BUILDT	
LEXENTRY:	TRL VILLAGE	TRAILER PARK	BUILDT	
LEXENTRY:	TRL VLG	TRAILER PARK	BUILDT	
LEXENTRY:	TRLCRT	TRAILER PARK	BUILDT	
LEXENTRY:	TRLCT	TRAILER PARK	BUILDT	
LEXENTRY:	TRLPK	TRAILER PARK	BUILDT	
LEXENTRY:	TRLPRK	TRAILER PARK	BUILDT	
LEXENTRY:	TRLR	TRAILER	UNITH,BUILDT	
LEXENTRY:	TRLR COURT	TRAILER PARK	BUILDT	
LEXENTRY:	TRLR CRT	TRAILER PARK	BUILDT	
LEXENTRY:	TRLR CT	TRAILER PARK	BUILDT	
LEXENTRY:	TRLR PARK	TRAILER PARK	BUILDT	
LEXENTRY:	TRLR PK	TRAILER PARK	BUILDT	
LEXENTRY:	TRLR PRK	TRAILER PARK	BUILDT	
LEXENTRY:	TRLR VILLAGE	TRAILER PARK	BUILDT	
LEXENTRY:	TRLR VLG	TRAILER PARK	BUILDT	
LEXENTRY:	TRNABT	TURNABOUT	TYPE	
LEXENTRY:	TRNPK	TURNPIKE	TYPE	
LEXENTRY:	TROIS	3	WORD,NUMBER	
LEXENTRY:	TROISIEME	TROISIEME	WORD	
LEXENTRY:	TRPK	TRAILER PARK	BUILDT	
LEXENTRY:	TRPRK	TRAILER PARK	BUILDT	
LEXENTRY:	TRUTH OR CONSEQUENCES	TRUTH OR CONSEQUENCES	CITY	
LEXENTRY:	TSSE	TERRASEE	WORD	
LEXENTRY:	TSSE	TERRASSE	TYPE	
LEXENTRY:	TUN	TUNNEL	TYPE	
LEXENTRY:	TUNEL	TUNEL	TYPE	
LEXENTRY:	TUNL	TUNEL	TYPE	
LEXENTRY:	TUNNEL	TUNNEL	TYPE	
LEXENTRY:	TURN	TURNPIKE	TYPE,ROAD	
LEXENTRY:	TURNABOUT	TURNABOUT	TYPE	
LEXENTRY:	TURNPIKE	TURNPIKE	TYPE,ROAD	
LEXENTRY:	TURNPK	TURNPIKE	TYPE,ROAD	
LEXENTRY:	TW HY	TOWNSHIP HIGHWAY	ROAD	
LEXENTRY:	TW RD	TOWNSHIP ROAD	ROAD	
LEXENTRY:	TWELFTH	12	WORD,ORD	
LEXENTRY:	TWELVE	12	NUMBER,WORD	
LEXENTRY:	TWELVE MILE	TWELVE MILE	WORD	
LEXENTRY:	TWENTIETH	20	WORD,ORD	
LEXENTRY:	TWENTY	20	NUMBER,WORD	
LEXENTRY:	TWENTY EIGHT	28	NUMBER,WORD	
LEXENTRY:	TWENTY EIGHTH	28	WORD,ORD	
LEXENTRY:	TWENTY FIFTH	25	WORD,ORD	
LEXENTRY:	TWENTY FIRST	21	WORD,ORD	
LEXENTRY:	TWENTY FIVE	25	NUMBER,WORD	
LEXENTRY:	TWENTY FOUR	24	NUMBER,WORD	
LEXENTRY:	TWENTY FOURTH	24	WORD,ORD	
LEXENTRY:	TWENTY MILE	TWENTY MILE	WORD	
LEXENTRY:	TWENTY NINE	29	NUMBER,WORD	
LEXENTRY:	TWENTY NINTH	29	WORD,ORD	
LEXENTRY:	TWENTY ONE	21	NUMBER,WORD	
LEXENTRY:	TWENTY SECOND	22	WORD,ORD	
LEXENTRY:	TWENTY SEVEN	27	NUMBER,WORD	
LEXENTRY:	TWENTY SEVENTH	27	WORD,ORD	
LEXENTRY:	TWENTY SIX	26	NUMBER,WORD	
LEXENTRY:	TWENTY SIXTH	26	WORD,ORD	
LEXENTRY:	TWENTY THIRD	23	WORD,ORD	
LEXENTRY:	TWENTY THREE	23	NUMBER,WORD	
LEXENTRY:	TWENTY THREE MILE	TWENTY THREE MILE	WORD	
LEXENTRY:	TWENTY TWO	22	NUMBER,WORD	
LEXENTRY:	TWHY	TOWNSHIP HIGHWAY	ROAD	
";
"LEXENTRY:	TWNH	TOWNHOUSE	BUILDT	
LEXENTRY:	TWNHS	TOWNHOUSE	BUILDT	
LEXENTRY:	TWNHWY	TOWN HIGHWAY	TYPE,ROAD	
LEXENTRY:	TWNRD	TOWN ROAD	TYPE,ROAD	
LEXENTRY:	TWO	2	NUMBER,WORD	
LEXENTRY:	TWO MILE	TWO MILE	WORD	
LEXENTRY:	TWP	TOWNSHIP	WORD	
LEXENTRY:	TWP	TOWNSHIP HIGHWAY	ROAD	
LEXENTRY:	TWP HIGHWAY	TOWNSHIP HIGHWAY	ROAD	
LEXENTRY:	TWP HIWAY	TOWNSHIP HIGHWAY	ROAD	
LEXENTRY:	TWP HWY	TOWNSHIP HIGHWAY	ROAD	
LEXENTRY:	TWP HY	TOWNSHIP HIGHWAY	ROAD	
LEXENTRY:	TWP RD	TOWNSHIP ROAD	ROAD	
LEXENTRY:	TWP ROAD	TOWNSHIP ROAD	ROAD	
LEXENTRY:	TWPHWY	TOWNSHIP HIGHWAY	ROAD	
LEXENTRY:	TWPHY	TOWNSHIP HIGHWAY	ROAD	
LEXENTRY:	TWPRD	TOWNSHIP ROAD	ROAD	
LEXENTRY:	TWPROAD	TOWNSHIP ROAD	ROAD	
LEXENTRY:	TWR	TOWER	BUILDT,BUILDH	
LEXENTRY:	TWRD	TOWNSHIP ROAD	ROAD	
LEXENTRY:	TWRS	TOWERS	BUILDT,BUILDH,TYPE	
LEXENTRY:	TX	TEXAS	PROV,WORD,ROAD	
LEXENTRY:	TY TY	TY TY	CITY	
LEXENTRY:	U	U	SINGLE	
LEXENTRY:	U	UNIVERSITY	WORD	
LEXENTRY:	U S	US	WORD	
LEXENTRY:	U S	US ROUTE	ROAD	
LEXENTRY:	U S	USA	NATION	
LEXENTRY:	U S A	USA	NATION	
LEXENTRY:	U S A F ACADEMY	U S A F ACADEMY	CITY	
LEXENTRY:	U S HGWY	US HIGHWAY	ROAD	
LEXENTRY:	U S HIGHWAY	US HIGHWAY	ROAD	
LEXENTRY:	U S HIWAY	US HIGHWAY	ROAD	
LEXENTRY:	U S HWY	US HIGHWAY	ROAD	
LEXENTRY:	U S HY	US HIGHWAY	ROAD	
LEXENTRY:	U S ROUTE	US ROUTE	ROAD	
LEXENTRY:	U S RT	US ROUTE	ROAD	
LEXENTRY:	U S RTE	US ROUTE	ROAD	
LEXENTRY:	UN	UNION	WORD	
LEXENTRY:	UN RD	UNNAMED ROAD	TYPE	
LEXENTRY:	UNDERPASS	UNDERPASS	TYPE	
LEXENTRY:	UNI	UNIVERSITY	WORD	
LEXENTRY:	UNION	UNION	WORD	
LEXENTRY:	UNIT	UNIT	UNITH	
LEXENTRY:	UNITE	UNITE	UNITH	
LEXENTRY:	UNITED STATES HIGHWAY	US HIGHWAY	ROAD	
LEXENTRY:	UNITED STATES HWY	US HIGHWAY	ROAD	
LEXENTRY:	UNITED STATES LOOP	US LOOP	ROAD	
LEXENTRY:	UNITED STATES OF AMERICA	USA	NATION	
LEXENTRY:	UNIV	UNIVERSITY	WORD,BUILDT	
LEXENTRY:	UNIVD	UNIVERSITY	WORD,BUILDT	
LEXENTRY:	UNIVERSIDAD	UNIVERSIDAD	WORD,BUILDT	
LEXENTRY:	UNIVERSITY	UNIVERSITY	WORD,BUILDT,BUILDH	
LEXENTRY:	UNNAMED ROAD	UNNAMED ROAD	TYPE	
LEXENTRY:	UNP	UNDERPASS	TYPE	
LEXENTRY:	UNPS	UNDERPASS	TYPE	
LEXENTRY:	UNRD	UNNAMED ROAD	TYPE	
LEXENTRY:	UNT	UNIT	UNITH	
LEXENTRY:	UP	UP	UNITT,WORD	
LEXENTRY:	UPPER	UPPER	WORD,UNITT	
LEXENTRY:	UPPR	UPPER	WORD,UNITT	
LEXENTRY:	UPSTAIRS	UPSTAIRS	UNITT	
LEXENTRY:	URB	URB	PLACEN	
LEXENTRY:	URBANA	URB	PLACEN	
LEXENTRY:	US	US	WORD	
LEXENTRY:	US	US ROUTE	ROAD	
LEXENTRY:	US	USA	NATION	
LEXENTRY:	US FOREST SERVICE ROAD	US FOREST SERVICE ROAD	ROAD	
LEXENTRY:	US HGWY	US HIGHWAY	ROAD	
LEXENTRY:	US HIGHWAY	US HIGHWAY	ROAD	
LEXENTRY:	US HIWAY	US HIGHWAY	ROAD	
";
"LEXENTRY:	US HWY	US HIGHWAY	ROAD	
LEXENTRY:	US HY	US HIGHWAY	ROAD	
LEXENTRY:	US LOOP	US LOOP	ROAD	
LEXENTRY:	US LP	US LOOP	ROAD	
LEXENTRY:	US ROUTE	US ROUTE	ROAD	
LEXENTRY:	US RT	US ROUTE	ROAD	
LEXENTRY:	US RTE	US ROUTE	ROAD	
LEXENTRY:	USA	USA	NATION	
LEXENTRY:	USAF ACADEMY	U S A F ACADEMY	CITY	
LEXENTRY:	USFS RD	US FOREST SERVICE RD	ROAD	
LEXENTRY:	USFSR	US FOREST SERVICE RD	ROAD	
LEXENTRY:	USHW	US HIGHWAY	ROAD	
LEXENTRY:	USHWY	US HIGHWAY	ROAD	
LEXENTRY:	USHY	US HIGHWAY	ROAD	
LEXENTRY:	USLP	US LOOP	ROAD	
LEXENTRY:	USROUTE	US ROUTE	ROAD	
LEXENTRY:	USRT	US ROUTE	ROAD	
LEXENTRY:	USRTE	US ROUTE	ROAD	
LEXENTRY:	UT	UTAH	PROV,WORD,ROAD	
LEXENTRY:	UTAH	UTAH	PROV,WORD	
LEXENTRY:	VA	VIRGINIA	PROV,WORD,ROAD	
LEXENTRY:	VAL	VALLEY	WORD	
LEXENTRY:	VALL	VALLEY	WORD	
LEXENTRY:	VALLEY	VALLEY	WORD	
LEXENTRY:	VALLS BLUFF	DE VALLS BLUFF	CITY	
LEXENTRY:	VALLY	VALLEY	WORD	
LEXENTRY:	VER	VEREDA	TYPE	
LEXENTRY:	VEREDA	VEREDA	TYPE	
LEXENTRY:	VERMONT	VERMONT	PROV,WORD	
LEXENTRY:	VI	VI	PROV	
LEXENTRY:	VI	VIA	TYPE	
LEXENTRY:	VIA	VIA	TYPE	
LEXENTRY:	VÍA	VIA	TYPE	
LEXENTRY:	VIADUCT	VIADUCT	WORD	
LEXENTRY:	VIEW	VIEW	WORD,TYPE	
LEXENTRY:	VILL	VILLAGE	TYPE,BUILDT,WORD	
LEXENTRY:	VILLA	VILLA	TYPE,BUILDT,WORD	
LEXENTRY:	VILLAG	VILLAGE	TYPE,BUILDT,WORD	
LEXENTRY:	VILLAGE	VILLAGE	TYPE,BUILDT,WORD	
LEXENTRY:	VILLAGE OF NAGOG WOODS	VILLAGE OF NAGOG WOODS	CITY	
LEXENTRY:	VILLAS	VILLA	BUILDT	
LEXENTRY:	VILLE	VILLE	WORD	
LEXENTRY:	VILLG	VILLAGE	TYPE,BUILDT,WORD	
LEXENTRY:	VILLGE	VILLAGE	TYPE	
LEXENTRY:	VILLIAGE	VILLAGE	TYPE,BUILDT,WORD	
LEXENTRY:	VIRGIN ISLANS	VI	PROV	
LEXENTRY:	VIRGINIA	VIRGINIA	PROV,WORD	
LEXENTRY:	VIS	VISTA	WORD,TYPE	
LEXENTRY:	VISTA	VISTA	WORD,TYPE	
LEXENTRY:	VIVI	VIVIENDA	BUILDT	
LEXENTRY:	VIVIENDA	VIVIENDA	BUILDT	
LEXENTRY:	VL	VILLAGE	TYPE	
LEXENTRY:	VL	VILLE	WORD	
LEXENTRY:	VLG	VILLAGE	TYPE,BUILDT,WORD	
LEXENTRY:	VLGE	VILLAGE	TYPE,BUILDT,WORD	
LEXENTRY:	VLLA	VILLA	TYPE,BUILDT	
LEXENTRY:	VLY	VALLEY	WORD	
LEXENTRY:	VOIE	VOIE	TYPE	
LEXENTRY:	VRDA	VEREDA	TYPE	
LEXENTRY:	VT	VERMONT	PROV,WORD,ROAD	
LEXENTRY:	VW	VIEW	WORD,TYPE	
LEXENTRY:	W	W	SINGLE	
LEXENTRY:	W	WEST	DIRECT	
LEXENTRY:	W VAN	WEST VANCOUVER	CITY	
LEXENTRY:	W VANCOUVER	WEST VANCOUVER	CITY	
LEXENTRY:	W VIRGINIA	WEST VIRGINIA	PROV,WORD	
LEXENTRY:	WA	WASHINGTON	PROV,WORD,ROAD	
LEXENTRY:	WALK	WALK	TYPE	
LEXENTRY:	WALKWAY	WALKWAY	TYPE	
LEXENTRY:	WALKWY	WALKWAY	TYPE	
LEXENTRY:	WALL	WALL	TYPE	
LEXENTRY:	WAREHOUSE	WAREHOUSE	BUILDT,WORD	
LEXENTRY:	WASH	WASHINGTON	CITY,PROV,WORD,ROAD	
";
"LEXENTRY:	WASHINGTON	WASHINGTON	CITY,PROV,WORD	
LEXENTRY:	WATERWAY	WATERWAY	WORD	
LEXENTRY:	WAY	WAY	TYPE	
LEXENTRY:	WD	WYND	TYPE	
LEXENTRY:	WDS	WOODS	WORD	
LEXENTRY:	WE	WEST	DIRECT	
LEXENTRY:	WELLS	WELLS	WORD	
LEXENTRY:	WEST	WEST	DIRECT	
LEXENTRY:	WEST VANCOUVER	WEST VANCOUVER	CITY	
LEXENTRY:	WEST VIRGINIA	WEST VIRGINIA	PROV,WORD	
LEXENTRY:	WESTBOUND	WESTBOUND	WORD,QUALIF	
LEXENTRY:	WHARF	WHARF	WORD,TYPE	
LEXENTRY:	WHF	WHARF	WORD,TYPE	
LEXENTRY:	WHS	WAREHOUSE	BUILDT,WORD	
LEXENTRY:	WI	WISCONSIN	PROV,WORD,ROAD	
LEXENTRY:	WILDLIFE MGMT AREA	WILDLIFE AREA	WORD	
LEXENTRY:	WISC	WISCONSIN	PROV,WORD,ROAD	
LEXENTRY:	WISCONSIN	WISCONSIN	PROV,WORD	
LEXENTRY:	WK	WALK	TYPE	
LEXENTRY:	WKWY	WALKWAY	TYPE	
LEXENTRY:	WLKWY	WALKWAY	TYPE	
LEXENTRY:	WLS	WELLS	WORD	
LEXENTRY:	WMA	WILDLIFE AREA	WORD	
LEXENTRY:	WO	WOOD	TYPE	
LEXENTRY:	WOOD	WOOD	WORD,TYPE	
LEXENTRY:	WOODS	WOODS	WORD	
LEXENTRY:	WTRWY	WATERWAY	WORD	
LEXENTRY:	WV	WEST VIRGINIA	PROV,WORD,ROAD	
LEXENTRY:	WWY	WATERWAY	WORD	
LEXENTRY:	WY	WAY	TYPE,ROAD	
LEXENTRY:	WY	WYOMING	PROV,WORD,ROAD	
LEXENTRY:	WYND	WYND	TYPE	
LEXENTRY:	WYOMING	WYOMING	PROV,WORD	
LEXENTRY:	XING	CROSSING	TYPE,BUILDT	
LEXENTRY:	XRD	CROSSROAD	TYPE	
LEXENTRY:	XRDS	CROSSROADS	BUILDT	
LEXENTRY:	XWAY	EXPRESSWAY	TYPE	
LEXENTRY:	XWY	EXPRESSWAY	TYPE	
LEXENTRY:	YARD	YARD	WORD	
LEXENTRY:	YARDS	YARDS	WORD	
LEXENTRY:	YD	YARD	WORD	
LEXENTRY:	YDS	YARDS	WORD	
LEXENTRY:	YK	YUKON	PROV,WORD,ROAD	
LEXENTRY:	YT	YUKON	PROV,WORD,ROAD	
LEXENTRY:	YUKON	YUKON	PROV,WORD	
LEXENTRY:	ZANJA	ZANJA	WORD	
LEXENTRY:	ZERO	0	NUMBER,WORD	
LEXENTRY:	ZNJA	ZANJA	WORD	
"].
(** data/sample/vatican.lex *)
Definition slex_vatican : list string :=
[
"LEXICON:	lex-vatican.txt	ITA	it_IT
LEXENTRY:	ACCESSO	ACCESSO	TYPE	DET_PRE
LEXENTRY:	ACCESSO A	ACCESSO A	TYPE	DET_PRE
LEXENTRY:	AG	AGRIGENTO	PROV	DETACH
LEXENTRY:	AL	ALESSANDRIA	PROV	DETACH
LEXENTRY:	ALLEE	ALLEE	TYPE	DET_SUF
LEXENTRY:	ALLÉE	ALLÉE	TYPE	DET_PRE
LEXENTRY:	ALTO	ALTO	TYPE	DET_PRE
LEXENTRY:	ALZAIA	ALZAIA	TYPE	DET_PRE
LEXENTRY:	AN	ANCONA	PROV	DETACH
LEXENTRY:	ANCIENNE ROUTE DE	ANCIENNE ROUTE DE	TYPE	DET_PRE
LEXENTRY:	AO	AOSTA	PROV	DETACH
LEXENTRY:	AP	ASCOLI PICENO	PROV	DETACH
LEXENTRY:	AQ	L'AQUILA	PROV	DETACH
LEXENTRY:	AR	AREZZO	PROV	DETACH
LEXENTRY:	ARCHIVOLTO	ARCHIVOLTO	TYPE	DET_PRE
LEXENTRY:	ARCHIVOLTO DELLE	ARCHIVOLTO DELLE	TYPE	DET_PRE
LEXENTRY:	ARCHIVOLTO DI	ARCHIVOLTO DI	TYPE	DET_PRE
LEXENTRY:	ARCO	ARCO	TYPE	DET_PRE
LEXENTRY:	ASSOCIAZIONE	ASSOCIAZIONE	PLACEN	DETACH
LEXENTRY:	AT	ASTI	PROV	DETACH
LEXENTRY:	AUTOSTRADA	AUTOSTRADA	TYPE	DET_PRE
LEXENTRY:	AUTOSTRADA DEI	AUTOSTRADA DEI	TYPE	DET_PRE
LEXENTRY:	AUTOSTRADA DEL	AUTOSTRADA DEL	TYPE	DET_PRE
LEXENTRY:	AUTOSTRADA DELLA	AUTOSTRADA DELLA	TYPE	DET_PRE
LEXENTRY:	AV	AVELLINO	PROV	DETACH
LEXENTRY:	AVENUE	AVENUE	TYPE	DET_PRE
LEXENTRY:	AVENUE DE	AVENUE DE	TYPE	DET_PRE
LEXENTRY:	AVENUE DE LA	AVENUE DE LA	TYPE	DET_PRE
LEXENTRY:	AVENUE DES	AVENUE DES	TYPE	DET_PRE
LEXENTRY:	AVENUE DU	AVENUE DU	TYPE	DET_PRE
LEXENTRY:	AZIENDA	AZIENDA	PLACEN	DETACH
LEXENTRY:	BA	BARI	PROV	DETACH
LEXENTRY:	BACINO	BACINO	TYPE	DET_PRE
LEXENTRY:	BANCA	BANCA	PLACEN	DETACH
LEXENTRY:	BANCO	BANCO	PLACEN	DETACH
LEXENTRY:	BARRIERA	BARRIERA	TYPE	DET_PRE
LEXENTRY:	BASTIONE	BASTIONE	TYPE	DET_PRE
LEXENTRY:	BASTIONE DELLA	BASTIONE DELLA	TYPE	DET_PRE
LEXENTRY:	BASTIONI DI	BASTIONI DI	TYPE	DET_PRE
LEXENTRY:	BELVEDERE	BELVEDERE	TYPE	DET_PRE
LEXENTRY:	BG	BERGAMO	PROV	DETACH
LEXENTRY:	BL	BELLUNO	PROV	DETACH
LEXENTRY:	BN	BENEVENTO	PROV	DETACH
LEXENTRY:	BO	BOLOGNA	PROV	DETACH
LEXENTRY:	BORGATA	BORGATA	TYPE	DET_PRE
LEXENTRY:	BORGO	BORGO	TYPE	DET_PRE
LEXENTRY:	BOULEVARD	BOULEVARD	TYPE	DET_PRE
LEXENTRY:	BOULEVARD DES	BOULEVARD DES	TYPE	DET_PRE
LEXENTRY:	BR	BRINDISI	PROV	DETACH
LEXENTRY:	BRÜCKE	BRÜCKE	TYPE	DET_SUF
LEXENTRY:	BS	BRESCIA	PROV	DETACH
LEXENTRY:	BZ	BOLZANO	PROV	DETACH
LEXENTRY:	C.DA	CONTRADA	TYPE	DET_PRE
LEXENTRY:	C.L	CALLE	TYPE	DET_PRE
LEXENTRY:	C.PO	CAMPO	TYPE	DET_PRE
LEXENTRY:	C.SO	CORSO	TYPE	DET_PRE
LEXENTRY:	CA	CAGLIARI	PROV	DETACH
LEXENTRY:	CA'	CA'	TYPE	DET_PRE
LEXENTRY:	CA' DEI	CA' DEI	TYPE	DET_PRE
LEXENTRY:	CA' DEL	CA' DEL	TYPE	DET_PRE
LEXENTRY:	CA' DI	CA' DI	TYPE	DET_PRE
LEXENTRY:	CAL	CAL	TYPE	DET_PRE
";
"LEXENTRY:	CALATA	CALATA	TYPE	DET_PRE
LEXENTRY:	CALLE	CALLE	TYPE	DET_PRE
LEXENTRY:	CALLE DEL	CALLE DEL	TYPE	DET_PRE
LEXENTRY:	CAMPIELLO	CAMPIELLO	TYPE	DET_PRE
LEXENTRY:	CAMPO	CAMPO	TYPE	DET_PRE
LEXENTRY:	CANTON	CANTON	TYPE	DET_PRE
LEXENTRY:	CANTONE	CANTONE	TYPE	DET_PRE
LEXENTRY:	CARRER	CARRER	TYPE	DET_PRE
LEXENTRY:	CARRER DE LA	CARRER DE LA	TYPE	DET_PRE
LEXENTRY:	CARRER DE LES	CARRER DE LES	TYPE	DET_PRE
LEXENTRY:	CARRER DEL	CARRER DEL	TYPE	DET_PRE
LEXENTRY:	CARRER DELS	CARRER DELS	TYPE	DET_PRE
LEXENTRY:	CASA	CASA	PLACEN	DETACH
LEXENTRY:	CASALE	CASALE	TYPE	DET_PRE
LEXENTRY:	CASCINA	CASCINA	TYPE	DET_PRE
LEXENTRY:	CASE	CASE	TYPE	DET_PRE
LEXENTRY:	CASE SPARSE	CASE SPARSE	TYPE	DET_PRE
LEXENTRY:	CASELLA POSTALE	CASELLA POSTALE	BOXH	DETACH
LEXENTRY:	CAVALCAVIA	CAVALCAVIA	TYPE	DET_PRE
LEXENTRY:	CB	CAMPOBASSO	PROV	DETACH
LEXENTRY:	CE	CASERTA	PROV	DETACH
LEXENTRY:	CH	CHIETI	PROV	DETACH
LEXENTRY:	CHEMIN	CHEMIN	TYPE	DET_PRE
LEXENTRY:	CHEMIN DE	CHEMIN DE	TYPE	DET_PRE
LEXENTRY:	CHEMIN DE LA	CHEMIN DE LA	TYPE	DET_PRE
LEXENTRY:	CHEMIN DES	CHEMIN DES	TYPE	DET_PRE
LEXENTRY:	CHEMIN DU	CHEMIN DU	TYPE	DET_PRE
LEXENTRY:	CHIASSO	CHIASSO	TYPE	DET_PRE
LEXENTRY:	CHIASSO DE'	CHIASSO DE'	TYPE	DET_PRE
LEXENTRY:	CHIASSO DEGLI	CHIASSO DEGLI	TYPE	DET_PRE
LEXENTRY:	CHIASSO DEI	CHIASSO DEI	TYPE	DET_PRE
LEXENTRY:	CHIASSO DEL	CHIASSO DEL	TYPE	DET_PRE
LEXENTRY:	CHIASSO DELLE	CHIASSO DELLE	TYPE	DET_PRE
LEXENTRY:	CHIASSO DI	CHIASSO DI	TYPE	DET_PRE
LEXENTRY:	CHIESA	CHIESA	PLACEN	DETACH
LEXENTRY:	CITTÀ DEL VATICANO	VATICAN	CITY	DETACH
LEXENTRY:	CITÉ DU VATICAN	VATICAN	CITY	DETACH
LEXENTRY:	CIRCONVALLAZIONE	CIRCONVALLAZIONE	TYPE	DET_PRE
LEXENTRY:	CIRCONVALLAZIONE DELLE	CIRCONVALLAZIONE DELLE	TYPE	DET_PRE
LEXENTRY:	CL	CALTANISSETTA	PROV	DETACH
LEXENTRY:	CN	CUNEO	PROV	DETACH
LEXENTRY:	CO	COMO	PROV	DETACH
LEXENTRY:	COMPANIA	COMPANIA	PLACEN	DETACH
LEXENTRY:	CONSORZIO	CONSORZIO	PLACEN	DETACH
LEXENTRY:	CONTRADA	CONTRADA	TYPE	DET_PRE
LEXENTRY:	CONTRADA DEL	CONTRADA DEL	TYPE	DET_PRE
LEXENTRY:	CONTRÀ	CONTRÀ	TYPE	DET_PRE
LEXENTRY:	CONTRÀ DEI	CONTRÀ DEI	TYPE	DET_PRE
LEXENTRY:	CONTRÀ DEL	CONTRÀ DEL	TYPE	DET_PRE
LEXENTRY:	CONTRÀ DELLA	CONTRÀ DELLA	TYPE	DET_PRE
LEXENTRY:	CONTRÀ DELLE	CONTRÀ DELLE	TYPE	DET_PRE
LEXENTRY:	COPAGNIA	COPAGNIA	PLACEN	DETACH
LEXENTRY:	CORSIA	CORSIA	TYPE	DET_PRE
LEXENTRY:	CORSO	CORSO	TYPE	DET_PRE
LEXENTRY:	CORSO AL	CORSO AL	TYPE	DET_PRE
LEXENTRY:	CORSO DEGLI	CORSO DEGLI	TYPE	DET_PRE
LEXENTRY:	CORSO DEL	CORSO DEL	TYPE	DET_PRE
LEXENTRY:	CORSO DELLA	CORSO DELLA	TYPE	DET_PRE
";
"LEXENTRY:	CORSO DI	CORSO DI	TYPE	DET_PRE
LEXENTRY:	CORTE	CORTE	TYPE	DET_PRE
LEXENTRY:	CORTE DEI	CORTE DEI	TYPE	DET_PRE
LEXENTRY:	CORTICELLA	CORTICELLA	TYPE	DET_PRE
LEXENTRY:	CORTILE	CORTILE	TYPE	DET_PRE
LEXENTRY:	COSTA	COSTA	TYPE	DET_PRE
LEXENTRY:	COSTA DEL	COSTA DEL	TYPE	DET_PRE
LEXENTRY:	COSTA DELLE	COSTA DELLE	TYPE	DET_PRE
LEXENTRY:	COSTA DI	COSTA DI	TYPE	DET_PRE
LEXENTRY:	CP	CASELLA POSTALE	BOXH	DETACH
LEXENTRY:	CR	CREMONA	PROV	DETACH
LEXENTRY:	CREDITO	CREDITO	PLACEN	DETACH
LEXENTRY:	CROSA	CROSA	TYPE	DET_PRE
LEXENTRY:	CROSA DI	CROSA DI	TYPE	DET_PRE
LEXENTRY:	CROSINO DELLO	CROSINO DELLO	TYPE	DET_PRE
LEXENTRY:	CROSINO DI	CROSINO DI	TYPE	DET_PRE
LEXENTRY:	CS	COSENZA	PROV	DETACH
LEXENTRY:	CSO	CORSO	TYPE	DET_PRE
LEXENTRY:	CT	CATANIA	PROV	DETACH
LEXENTRY:	CZ	CATANZARO	PROV	DETACH
LEXENTRY:	DAMM	DAMM	TYPE	DET_SUF
LEXENTRY:	DISCESA	DISCESA	TYPE	DET_PRE
LEXENTRY:	DISCESA A	DISCESA A	TYPE	DET_PRE
LEXENTRY:	DISTACCO DI PIAZZA	DISTACCO DI PIAZZA	TYPE	DET_PRE
LEXENTRY:	EN	ENNA	PROV	DETACH
LEXENTRY:	ENTE	ENTE	PLACEN	DETACH
LEXENTRY:	FE	FERRARA	PROV	DETACH
LEXENTRY:	FELD	FELD	TYPE	DET_SUF
LEXENTRY:	FG	FOGGIA	PROV	DETACH
LEXENTRY:	FI	FIRENZE	PROV	DETACH
LEXENTRY:	FO	FORLI	PROV	DETACH
LEXENTRY:	FOND	FONDAMENTA	TYPE	DET_PRE
LEXENTRY:	FOND.	FONDAMENTA	TYPE	DET_PRE
LEXENTRY:	FONDACO	FONDACO	TYPE	DET_PRE
LEXENTRY:	FONDAMENTA	FONDAMENTA	TYPE	DET_PRE
LEXENTRY:	FORO	FORO	TYPE	DET_PRE
LEXENTRY:	FOSSATO	FOSSATO	TYPE	DET_PRE
LEXENTRY:	FOSSATO DI	FOSSATO DI	TYPE	DET_PRE
LEXENTRY:	FR	FROSINONE	PROV	DETACH
LEXENTRY:	FR. FR	FRAZIONE	TYPE	DET_PRE
LEXENTRY:	FRAZ	FRAZIONE	TYPE	DET_PRE
LEXENTRY:	FRAZ.	FRAZIONE	TYPE	DET_PRE
LEXENTRY:	FRAZIONE	FRAZIONE	TYPE	DET_PRE
LEXENTRY:	GALLERIA	GALLERIA	TYPE	DET_PRE
LEXENTRY:	GALLERIA DEGLI	GALLERIA DEGLI	TYPE	DET_PRE
LEXENTRY:	GALLERIA DEI	GALLERIA DEI	TYPE	DET_PRE
LEXENTRY:	GALLERIA DEL	GALLERIA DEL	TYPE	DET_PRE
LEXENTRY:	GALLERIA DELLE	GALLERIA DELLE	TYPE	DET_PRE
LEXENTRY:	GASSE	GASSE	TYPE	DET_SUF
LEXENTRY:	GE	GENOVA	PROV	DETACH
LEXENTRY:	GIARDINI	GIARDINI	TYPE	DET_PRE
LEXENTRY:	GIARDINO	GIARDINO	TYPE	DET_PRE
LEXENTRY:	GO	GORIZIA	PROV	DETACH
LEXENTRY:	GR	GROSSETO	PROV	DETACH
LEXENTRY:	GRABEN	GRABEN	TYPE	DET_SUF
LEXENTRY:	HAMEAU	HAMEAU	TYPE	DET_PRE
LEXENTRY:	HAMEAU DE	HAMEAU DE	TYPE	DET_PRE
LEXENTRY:	HAMEAU DE LA	HAMEAU DE LA	TYPE	DET_PRE
LEXENTRY:	HAMEAU LA	HAMEAU LA	TYPE	DET_PRE
LEXENTRY:	HÖHE	HÖHE	TYPE	DET_SUF
LEXENTRY:	ICDP	ICDP	PLACEN	DETACH
LEXENTRY:	IM	IMPERIA	PROV	DETACH
LEXENTRY:	IMPASSE	IMPASSE	TYPE	DET_PRE
";
"LEXENTRY:	IMPASSE DES	IMPASSE DES	TYPE	DET_PRE
LEXENTRY:	INTERRATO	INTERRATO	TYPE	DET_PRE
LEXENTRY:	IS	ISERNIA	PROV	DETACH
LEXENTRY:	LANDSTRASSE	LANDSTRASSE	TYPE	DET_SUF
LEXENTRY:	LARGO	LARGO	TYPE	DET_PRE
LEXENTRY:	LARGO DEGLI	LARGO DEGLI	TYPE	DET_PRE
LEXENTRY:	LARGO DEI	LARGO DEI	TYPE	DET_PRE
LEXENTRY:	LARGO DEL	LARGO DEL	TYPE	DET_PRE
LEXENTRY:	LARGO DELLA	LARGO DELLA	TYPE	DET_PRE
LEXENTRY:	LARGO DELLE	LARGO DELLE	TYPE	DET_PRE
LEXENTRY:	LARGO DI	LARGO DI	TYPE	DET_PRE
LEXENTRY:	LE	LECCE	PROV	DETACH
LEXENTRY:	LGO	LARGO	TYPE	DET_PRE
LEXENTRY:	LGO.	LARGO	TYPE	DET_PRE
LEXENTRY:	LI	LIVORNO	PROV	DETACH
LEXENTRY:	LISTA	LISTA	TYPE	DET_PRE
LEXENTRY:	LOCALITÀ	LOCALITÀ	TYPE	DET_PRE
LEXENTRY:	LT	LATINA	PROV	DETACH
LEXENTRY:	LU	LUCCA	PROV	DETACH
LEXENTRY:	LUNGADIGE	LUNGADIGE	TYPE	DET_PRE
LEXENTRY:	LUNGARGINE	LUNGARGINE	TYPE	DET_PRE
LEXENTRY:	LUNGARGINE DEL	LUNGARGINE DEL	TYPE	DET_PRE
LEXENTRY:	LUNGARNO	LUNGARNO	TYPE	DET_PRE
LEXENTRY:	LUNGARNO DEGLI	LUNGARNO DEGLI	TYPE	DET_PRE
LEXENTRY:	LUNGARNO DEI	LUNGARNO DEI	TYPE	DET_PRE
LEXENTRY:	LUNGARNO DEL	LUNGARNO DEL	TYPE	DET_PRE
LEXENTRY:	LUNGARNO DELLA	LUNGARNO DELLA	TYPE	DET_PRE
LEXENTRY:	LUNGARNO DELLE	LUNGARNO DELLE	TYPE	DET_PRE
LEXENTRY:	LUNGARNO DI	LUNGARNO DI	TYPE	DET_PRE
LEXENTRY:	LUNGO DORA	LUNGO DORA	TYPE	DET_PRE
LEXENTRY:	LUNGO PO	LUNGO PO	TYPE	DET_PRE
LEXENTRY:	LUNGO STURA	LUNGO STURA	TYPE	DET_PRE
LEXENTRY:	LUNGO TORRENTE	LUNGO TORRENTE	TYPE	DET_PRE
LEXENTRY:	LUNGOBISAGNO	LUNGOBISAGNO	TYPE	DET_PRE
LEXENTRY:	LUNGOMARE	LUNGOMARE	TYPE	DET_PRE
LEXENTRY:	LUNGOMARE DI	LUNGOMARE DI	TYPE	DET_PRE
LEXENTRY:	LUNGOMONTE	LUNGOMONTE	TYPE	DET_PRE
LEXENTRY:	LUNGOPARCO	LUNGOPARCO	TYPE	DET_PRE
LEXENTRY:	LUNGOSTURA CORSO	LUNGOSTURA CORSO	TYPE	DET_PRE
LEXENTRY:	LUNGOTEVERE	LUNGOTEVERE	TYPE	DET_PRE
LEXENTRY:	LUNGOTEVERE DE'	LUNGOTEVERE DE'	TYPE	DET_PRE
LEXENTRY:	LUNGOTEVERE DEGLI	LUNGOTEVERE DEGLI	TYPE	DET_PRE
LEXENTRY:	LUNGOTEVERE DEI	LUNGOTEVERE DEI	TYPE	DET_PRE
LEXENTRY:	LUNGOTEVERE DELLA	LUNGOTEVERE DELLA	TYPE	DET_PRE
LEXENTRY:	LUNGOTEVERE DELLE	LUNGOTEVERE DELLE	TYPE	DET_PRE
LEXENTRY:	LUNGOTEVERE DI	LUNGOTEVERE DI	TYPE	DET_PRE
LEXENTRY:	LUNGOTEVERE IN	LUNGOTEVERE IN	TYPE	DET_PRE
LEXENTRY:	MC	MACERATA	PROV	DETACH
LEXENTRY:	ME	MESSINA	PROV	DETACH
LEXENTRY:	MI	MILANO	PROV	DETACH
LEXENTRY:	MN	MANTOVA	PROV	DETACH
LEXENTRY:	MO	MODENA	PROV	DETACH
LEXENTRY:	MOLO	MOLO	TYPE	DET_PRE
LEXENTRY:	MS	MASSA CARRARA	PROV	DETACH
LEXENTRY:	MT	MATERA	PROV	DETACH
LEXENTRY:	MUNICIPALE	MUNICIPALE	PLACEN	DETACH
";
"LEXENTRY:	MUNICIPIO	MUNICIPIO	PLACEN	DETACH
LEXENTRY:	MURA	MURA	TYPE	DET_PRE
LEXENTRY:	MURA DEGLI	MURA DEGLI	TYPE	DET_PRE
LEXENTRY:	MURA DEL	MURA DEL	TYPE	DET_PRE
LEXENTRY:	MURA DELLA	MURA DELLA	TYPE	DET_PRE
LEXENTRY:	MURA DELLE	MURA DELLE	TYPE	DET_PRE
LEXENTRY:	MURA DELLO	MURA DELLO	TYPE	DET_PRE
LEXENTRY:	MURA DI	MURA DI	TYPE	DET_PRE
LEXENTRY:	MURALLA DEL	MURALLA DEL	TYPE	DET_PRE
LEXENTRY:	NA	NAPOLI	PROV	DETACH
LEXENTRY:	NO	NOVARA	PROV	DETACH
LEXENTRY:	NU	NUORO	PROV	DETACH
LEXENTRY:	NUOVA STRADA	NUOVA STRADA	TYPE	DET_PRE
LEXENTRY:	OR	ORISTANO	PROV	DETACH
LEXENTRY:	P.	PIAZZA	TYPE	DET_PRE
LEXENTRY:	P.LE	PIAZZALE	TYPE	DET_PRE
LEXENTRY:	P.ZA	PIAZZA	TYPE	DET_PRE
LEXENTRY:	PA	PALERMO	PROV	DETACH
LEXENTRY:	PALAZZO	PALAZZO	PLACEN	DETACH
LEXENTRY:	PARCO	PARCO	TYPE	DET_PRE
LEXENTRY:	PARCO DELLE	PARCO DELLE	TYPE	DET_PRE
LEXENTRY:	PASSAGE	PASSAGE	TYPE	DET_PRE
LEXENTRY:	PASSAGE DU	PASSAGE DU	TYPE	DET_PRE
LEXENTRY:	PASSAGGIO	PASSAGGIO	TYPE	DET_PRE
LEXENTRY:	PASSAGGIO DEGLI	PASSAGGIO DEGLI	TYPE	DET_PRE
LEXENTRY:	PASSAGGIO PRIVATO	PASSAGGIO PRIVATO	TYPE	DET_PRE
LEXENTRY:	PASSEGGIATA	PASSEGGIATA	TYPE	DET_PRE
LEXENTRY:	PASSEGGIATA DEL	PASSEGGIATA DEL	TYPE	DET_PRE
LEXENTRY:	PASSETTO	PASSETTO	TYPE	DET_PRE
LEXENTRY:	PASSO	PASSO	TYPE	DET_PRE
LEXENTRY:	PASSO A	PASSO A	TYPE	DET_PRE
LEXENTRY:	PASSO AL	PASSO AL	TYPE	DET_PRE
LEXENTRY:	PASSO DEI	PASSO DEI	TYPE	DET_PRE
LEXENTRY:	PASSO DEL	PASSO DEL	TYPE	DET_PRE
LEXENTRY:	PASSO DELLA	PASSO DELLA	TYPE	DET_PRE
LEXENTRY:	PASSO DELLE	PASSO DELLE	TYPE	DET_PRE
LEXENTRY:	PASSO DELLO	PASSO DELLO	TYPE	DET_PRE
LEXENTRY:	PASSO DI	PASSO DI	TYPE	DET_PRE
LEXENTRY:	PC	PIACENZA	PROV	DETACH
LEXENTRY:	PD	PADOVA	PROV	DETACH
LEXENTRY:	PE	PESCARA	PROV	DETACH
LEXENTRY:	PERCORSO	PERCORSO	TYPE	DET_PRE
LEXENTRY:	PG	PERUGIA	PROV	DETACH
LEXENTRY:	PI	PISA	PROV	DETACH
LEXENTRY:	PIANO DI	PIANO DI	TYPE	DET_PRE
LEXENTRY:	PIAZZA	PIAZZA	TYPE	DET_PRE
LEXENTRY:	PIAZZA AI	PIAZZA AI	TYPE	DET_PRE
LEXENTRY:	PIAZZA DE'	PIAZZA DE'	TYPE	DET_PRE
LEXENTRY:	PIAZZA DEGLI	PIAZZA DEGLI	TYPE	DET_PRE
LEXENTRY:	PIAZZA DEI	PIAZZA DEI	TYPE	DET_PRE
LEXENTRY:	PIAZZA DEL	PIAZZA DEL	TYPE	DET_PRE
LEXENTRY:	PIAZZA DELLA	PIAZZA DELLA	TYPE	DET_PRE
LEXENTRY:	PIAZZA DELLE	PIAZZA DELLE	TYPE	DET_PRE
LEXENTRY:	PIAZZA DELLO	PIAZZA DELLO	TYPE	DET_PRE
LEXENTRY:	PIAZZA DI	PIAZZA DI	TYPE	DET_PRE
LEXENTRY:	PIAZZA IN	PIAZZA IN	TYPE	DET_PRE
LEXENTRY:	PIAZZA INFERIORE	PIAZZA INFERIORE	TYPE	DET_PRE
LEXENTRY:	PIAZZA INFERIORE DI	PIAZZA INFERIORE DI	TYPE	DET_PRE
";
"LEXENTRY:	PIAZZA SUPERIORE	PIAZZA SUPERIORE	TYPE	DET_PRE
LEXENTRY:	PIAZZA À	PIAZZA À	TYPE	DET_PRE
LEXENTRY:	PIAZZALE	PIAZZALE	TYPE	DET_PRE
LEXENTRY:	PIAZZALE AI	PIAZZALE AI	TYPE	DET_PRE
LEXENTRY:	PIAZZALE DEGLI	PIAZZALE DEGLI	TYPE	DET_PRE
LEXENTRY:	PIAZZALE DEI	PIAZZALE DEI	TYPE	DET_PRE
LEXENTRY:	PIAZZALE DEL	PIAZZALE DEL	TYPE	DET_PRE
LEXENTRY:	PIAZZALE DELLA	PIAZZALE DELLA	TYPE	DET_PRE
LEXENTRY:	PIAZZALE DELLE	PIAZZALE DELLE	TYPE	DET_PRE
LEXENTRY:	PIAZZALE DELLO	PIAZZALE DELLO	TYPE	DET_PRE
LEXENTRY:	PIAZZALE DI	PIAZZALE DI	TYPE	DET_PRE
LEXENTRY:	PIAZZETTA	PIAZZETTA	TYPE	DET_PRE
LEXENTRY:	PIAZZETTA DEI	PIAZZETTA DEI	TYPE	DET_PRE
LEXENTRY:	PIAZZETTA DEL	PIAZZETTA DEL	TYPE	DET_PRE
LEXENTRY:	PIAZZETTA DELLA	PIAZZETTA DELLA	TYPE	DET_PRE
LEXENTRY:	PIAZZETTA DI	PIAZZETTA DI	TYPE	DET_PRE
LEXENTRY:	PIAZZETTA PRIVATA	PIAZZETTA PRIVATA	TYPE	DET_PRE
LEXENTRY:	PISCINA	PISCINA	TYPE	DET_PRE
LEXENTRY:	PLACE	PLACE	TYPE	DET_PRE
LEXENTRY:	PLACE DE	PLACE DE	TYPE	DET_PRE
LEXENTRY:	PLACE DE LA	PLACE DE LA	TYPE	DET_PRE
LEXENTRY:	PLACE DES	PLACE DES	TYPE	DET_PRE
LEXENTRY:	PLACE DU	PLACE DU	TYPE	DET_PRE
LEXENTRY:	PLACETA DE	PLACETA DE	TYPE	DET_PRE
LEXENTRY:	PLATZ	PLATZ	TYPE	DET_PRE,DET_SUF
LEXENTRY:	PLAÇA DE	PLAÇA DE	TYPE	DET_PRE
LEXENTRY:	PLAÇA DEL	PLAÇA DEL	TYPE	DET_PRE
LEXENTRY:	PN	PORDENONE	PROV	DETACH
LEXENTRY:	POGGIO	POGGIO	TYPE	DET_PRE
LEXENTRY:	POGGIO DELLA	POGGIO DELLA	TYPE	DET_PRE
LEXENTRY:	POGGIO DI	POGGIO DI	TYPE	DET_PRE
LEXENTRY:	PONTE	PONTE	TYPE	DET_PRE
LEXENTRY:	PONTE DEI	PONTE DEI	TYPE	DET_PRE
LEXENTRY:	PONTE DEL	PONTE DEL	TYPE	DET_PRE
LEXENTRY:	PONTE DELLA	PONTE DELLA	TYPE	DET_PRE
LEXENTRY:	PONTE DI	PONTE DI	TYPE	DET_PRE
LEXENTRY:	PONTE SUL	PONTE SUL	TYPE	DET_PRE
LEXENTRY:	PORTA	PORTA	TYPE	DET_PRE
LEXENTRY:	PORTICHETTI	PORTICHETTI	TYPE	DET_PRE
LEXENTRY:	PORTICI	PORTICI	TYPE	DET_PRE
LEXENTRY:	PORTICO	PORTICO	TYPE	DET_PRE
LEXENTRY:	PR	PARMA	PROV	DETACH
LEXENTRY:	PROMENADE	PROMENADE	TYPE	DET_SUF
LEXENTRY:	PS	PESARO	PROV	DETACH
LEXENTRY:	PT	PISTOIA	PROV	DETACH
LEXENTRY:	PV	PAVIA	PROV	DETACH
LEXENTRY:	PZ	POTENZA	PROV	DETACH
LEXENTRY:	QUADRATO	QUADRATO	TYPE	DET_PRE
LEXENTRY:	QUADRATO DELLA	QUADRATO DELLA	TYPE	DET_PRE
LEXENTRY:	QUADRIVIO	QUADRIVIO	TYPE	DET_PRE
LEXENTRY:	RA	RAVENNA	PROV	DETACH
LEXENTRY:	RACCORDO	RACCORDO	TYPE	DET_PRE
LEXENTRY:	RACCORDO AUTOSTRADALE	RACCORDO AUTOSTRADALE	TYPE	DET_PRE
LEXENTRY:	RAMO	RAMO	TYPE	DET_PRE
LEXENTRY:	RAMPA	RAMPA	TYPE	DET_PRE
LEXENTRY:	RAMPA DELLA	RAMPA DELLA	TYPE	DET_PRE
LEXENTRY:	RAMPA DELLE	RAMPA DELLE	TYPE	DET_PRE
";
"LEXENTRY:	RAMPA DI	RAMPA DI	TYPE	DET_PRE
LEXENTRY:	RC	REGGIO CALABRIA	PROV	DETACH
LEXENTRY:	RE	REGGIO EMILIA	PROV	DETACH
LEXENTRY:	REGIONE	REGIONE	TYPE	DET_PRE
LEXENTRY:	RG	RAGUSA	PROV	DETACH
LEXENTRY:	RI	RIETI	PROV	DETACH
LEXENTRY:	RIO	RIO	TYPE	DET_PRE
LEXENTRY:	RIO TERRÀ	RIO TERRÀ	TYPE	DET_PRE
LEXENTRY:	RIPA	RIPA	TYPE	DET_PRE
LEXENTRY:	RIPA DI	RIPA DI	TYPE	DET_PRE
LEXENTRY:	RIVA	RIVA	TYPE	DET_PRE
LEXENTRY:	RIVA DEL	RIVA DEL	TYPE	DET_PRE
LEXENTRY:	RIVALE	RIVALE	TYPE	DET_PRE
LEXENTRY:	RIVIERA	RIVIERA	TYPE	DET_PRE
LEXENTRY:	RIVIERA DEI	RIVIERA DEI	TYPE	DET_PRE
LEXENTRY:	RIVO	RIVO	TYPE	DET_PRE
LEXENTRY:	RM	ROMA	PROV	DETACH
LEXENTRY:	RO	ROVIGO	PROV	DETACH
LEXENTRY:	RONDÒ	RONDÒ	TYPE	DET_PRE
LEXENTRY:	ROTONDA	ROTONDA	TYPE	DET_PRE
LEXENTRY:	ROUTE	ROUTE	TYPE	DET_PRE
LEXENTRY:	ROUTE DE	ROUTE DE	TYPE	DET_PRE
LEXENTRY:	ROUTE DE LA	ROUTE DE LA	TYPE	DET_PRE
LEXENTRY:	ROUTE DES	ROUTE DES	TYPE	DET_PRE
LEXENTRY:	ROUTE DU	ROUTE DU	TYPE	DET_PRE
LEXENTRY:	RUA	RUA	TYPE	DET_PRE
LEXENTRY:	RUE	RUE	TYPE	DET_PRE
LEXENTRY:	RUE DE	RUE DE	TYPE	DET_PRE
LEXENTRY:	RUE DE LA	RUE DE LA	TYPE	DET_PRE
LEXENTRY:	RUE DES	RUE DES	TYPE	DET_PRE
LEXENTRY:	RUE DU	RUE DU	TYPE	DET_PRE
LEXENTRY:	RUE LA	RUE LA	TYPE	DET_PRE
LEXENTRY:	RUELLE	RUELLE	TYPE	DET_PRE
LEXENTRY:	RUELLE DE	RUELLE DE	TYPE	DET_PRE
LEXENTRY:	RUELLE DES	RUELLE DES	TYPE	DET_PRE
LEXENTRY:	RUELLE DU	RUELLE DU	TYPE	DET_PRE
LEXENTRY:	RUGA	RUGA	TYPE	DET_PRE
LEXENTRY:	SA	SA	PLACEN	DETACH
LEXENTRY:	SA	SALERNO	PROV	DETACH
LEXENTRY:	SALITA	SALITA	TYPE	DET_PRE
LEXENTRY:	SALITA A	SALITA A	TYPE	DET_PRE
LEXENTRY:	SALITA AI	SALITA AI	TYPE	DET_PRE
LEXENTRY:	SALITA AL	SALITA AL	TYPE	DET_PRE
LEXENTRY:	SALITA ALLA	SALITA ALLA	TYPE	DET_PRE
LEXENTRY:	SALITA ALLE	SALITA ALLE	TYPE	DET_PRE
LEXENTRY:	SALITA DEGLI	SALITA DEGLI	TYPE	DET_PRE
LEXENTRY:	SALITA DEI	SALITA DEI	TYPE	DET_PRE
LEXENTRY:	SALITA DEL	SALITA DEL	TYPE	DET_PRE
LEXENTRY:	SALITA DELLA	SALITA DELLA	TYPE	DET_PRE
LEXENTRY:	SALITA DELLE	SALITA DELLE	TYPE	DET_PRE
LEXENTRY:	SALITA DI	SALITA DI	TYPE	DET_PRE
LEXENTRY:	SALITA INFERIORE	SALITA INFERIORE	TYPE	DET_PRE
LEXENTRY:	SALITA INFERIORE AL	SALITA INFERIORE AL	TYPE	DET_PRE
LEXENTRY:	SALITA INFERIORE DI	SALITA INFERIORE DI	TYPE	DET_PRE
LEXENTRY:	SALITA SUPERIORE	SALITA SUPERIORE	TYPE	DET_PRE
LEXENTRY:	SALITA SUPERIORE AI	SALITA SUPERIORE AI	TYPE	DET_PRE
LEXENTRY:	SALITA SUPERIORE DELLA	SALITA SUPERIORE DELLA	TYPE	DET_PRE
LEXENTRY:	SALITA SUPERIORE DI	SALITA SUPERIORE DI	TYPE	DET_PRE
LEXENTRY:	SALITA VECCHIA DI	SALITA VECCHIA DI	TYPE	DET_PRE
";
"LEXENTRY:	SAPA	SAPA	PLACEN	DETACH
LEXENTRY:	SAS	SAS	PLACEN	DETACH
LEXENTRY:	SCALA	SCALA	TYPE	DET_PRE
LEXENTRY:	SCALA DEI	SCALA DEI	TYPE	DET_PRE
LEXENTRY:	SCALEA	SCALEA	TYPE	DET_PRE
LEXENTRY:	SCALETTA	SCALETTA	TYPE	DET_PRE
LEXENTRY:	SCALINATA	SCALINATA	TYPE	DET_PRE
LEXENTRY:	SCALINATA A	SCALINATA A	TYPE	DET_PRE
LEXENTRY:	SCALINATA A VIA	SCALINATA A VIA	TYPE	DET_PRE
LEXENTRY:	SCALINATA CHIUSA	SCALINATA CHIUSA	TYPE	DET_PRE
LEXENTRY:	SCALINATA DEI	SCALINATA DEI	TYPE	DET_PRE
LEXENTRY:	SCALINATA DEL	SCALINATA DEL	TYPE	DET_PRE
LEXENTRY:	SCALINATA DELLA	SCALINATA DELLA	TYPE	DET_PRE
LEXENTRY:	SCALINATA DELLE	SCALINATA DELLE	TYPE	DET_PRE
LEXENTRY:	SCALINATA DI	SCALINATA DI	TYPE	DET_PRE
LEXENTRY:	SCALO	SCALO	TYPE	DET_PRE
LEXENTRY:	SCALONE	SCALONE	TYPE	DET_PRE
LEXENTRY:	SCALONE VOLTO	SCALONE VOLTO	TYPE	DET_PRE
LEXENTRY:	SDRUCCIOLO DE'	SDRUCCIOLO DE'	TYPE	DET_PRE
LEXENTRY:	SELCIATO	SELCIATO	TYPE	DET_PRE
LEXENTRY:	SENTIERO	SENTIERO	TYPE	DET_PRE
LEXENTRY:	SENTIERO DEL	SENTIERO DEL	TYPE	DET_PRE
LEXENTRY:	SI	SIENA	PROV	DETACH
LEXENTRY:	SITO DEI	SITO DEI	TYPE	DET_PRE
LEXENTRY:	SITO DELLA	SITO DELLA	TYPE	DET_PRE
LEXENTRY:	SNC	SNC	PLACEN	DETACH
LEXENTRY:	SO	SONDRIO	PROV	DETACH
LEXENTRY:	SOCIETÀ	SOCIETÀ	PLACEN	DETACH
LEXENTRY:	SOTTOPASSAGGIO	SOTTOPASSAGGIO	TYPE	DET_PRE
LEXENTRY:	SOTTOPORTICO	SOTTOPORTICO	TYPE	DET_PRE
LEXENTRY:	SOTTOVIA	SOTTOVIA	TYPE	DET_PRE
LEXENTRY:	SP	LA SPEZIA	PROV	DETACH
LEXENTRY:	SPA	SPA	PLACEN	DETACH
LEXENTRY:	SPALTO	SPALTO	TYPE	DET_PRE
LEXENTRY:	SPIANATA DI	SPIANATA DI	TYPE	DET_PRE
LEXENTRY:	SQUARE	SQUARE	TYPE	DET_PRE
LEXENTRY:	SR	SIRACUSA	PROV	DETACH
LEXENTRY:	SRL	SRL	PLACEN	DETACH
LEXENTRY:	SS	SUPERSTRADA	TYPE	DET_PRE
LEXENTRY:	SS	SASSARI	PROV	DETACH
LEXENTRY:	SS.	SUPERSTRADA	TYPE	DET_PRE
LEXENTRY:	STAZIONE	STAZIONE	PLACEN	DETACH
LEXENTRY:	STEG	STEG	TYPE	DET_SUF
LEXENTRY:	STRADA	STRADA	TYPE	DET_PRE
LEXENTRY:	STRADA AI	STRADA AI	TYPE	DET_PRE
LEXENTRY:	STRADA AL	STRADA AL	TYPE	DET_PRE
LEXENTRY:	STRADA ALLA	STRADA ALLA	TYPE	DET_PRE
LEXENTRY:	STRADA ALLE	STRADA ALLE	TYPE	DET_PRE
LEXENTRY:	STRADA ALTA DI	STRADA ALTA DI	TYPE	DET_PRE
LEXENTRY:	STRADA ANTICA	STRADA ANTICA	TYPE	DET_PRE
LEXENTRY:	STRADA ANTICA DELLA	STRADA ANTICA DELLA	TYPE	DET_PRE
LEXENTRY:	STRADA ANTICA DI	STRADA ANTICA DI	TYPE	DET_PRE
LEXENTRY:	STRADA COMUNALE	STRADA COMUNALE	TYPE	DET_PRE
LEXENTRY:	STRADA COMUNALE ALLA	STRADA COMUNALE ALLA	TYPE	DET_PRE
LEXENTRY:	STRADA COMUNALE ANTICA DI	STRADA COMUNALE ANTICA DI	TYPE	DET_PRE
LEXENTRY:	STRADA COMUNALE DA	STRADA COMUNALE DA	TYPE	DET_PRE
";
"LEXENTRY:	STRADA COMUNALE DEI	STRADA COMUNALE DEI	TYPE	DET_PRE
LEXENTRY:	STRADA COMUNALE DEL	STRADA COMUNALE DEL	TYPE	DET_PRE
LEXENTRY:	STRADA COMUNALE DELLA	STRADA COMUNALE DELLA	TYPE	DET_PRE
LEXENTRY:	STRADA COMUNALE DELLE	STRADA COMUNALE DELLE	TYPE	DET_PRE
LEXENTRY:	STRADA COMUNALE DI	STRADA COMUNALE DI	TYPE	DET_PRE
LEXENTRY:	STRADA COMUNALE PER	STRADA COMUNALE PER	TYPE	DET_PRE
LEXENTRY:	STRADA CONSORTILE	STRADA CONSORTILE	TYPE	DET_PRE
LEXENTRY:	STRADA CONSORTILE ALLA	STRADA CONSORTILE ALLA	TYPE	DET_PRE
LEXENTRY:	STRADA CONSORTILE DEI	STRADA CONSORTILE DEI	TYPE	DET_PRE
LEXENTRY:	STRADA CONSORTILE DEL	STRADA CONSORTILE DEL	TYPE	DET_PRE
LEXENTRY:	STRADA CONSORTILE DELLA	STRADA CONSORTILE DELLA	TYPE	DET_PRE
LEXENTRY:	STRADA DA	STRADA DA	TYPE	DET_PRE
LEXENTRY:	STRADA DAI	STRADA DAI	TYPE	DET_PRE
LEXENTRY:	STRADA DAL	STRADA DAL	TYPE	DET_PRE
LEXENTRY:	STRADA DEGLI	STRADA DEGLI	TYPE	DET_PRE
LEXENTRY:	STRADA DEI	STRADA DEI	TYPE	DET_PRE
LEXENTRY:	STRADA DEL	STRADA DEL	TYPE	DET_PRE
LEXENTRY:	STRADA DELLA	STRADA DELLA	TYPE	DET_PRE
LEXENTRY:	STRADA DELLE	STRADA DELLE	TYPE	DET_PRE
LEXENTRY:	STRADA DI	STRADA DI	TYPE	DET_PRE
LEXENTRY:	STRADA ESTERNA	STRADA ESTERNA	TYPE	DET_PRE
LEXENTRY:	STRADA INTERPODERALE	STRADA INTERPODERALE	TYPE	DET_PRE
LEXENTRY:	STRADA MILITARE	STRADA MILITARE	TYPE	DET_PRE
LEXENTRY:	STRADA PER	STRADA PER	TYPE	DET_PRE
LEXENTRY:	STRADA PODERALE	STRADA PODERALE	TYPE	DET_PRE
LEXENTRY:	STRADA PRIVATA	STRADA PRIVATA	TYPE	DET_PRE
LEXENTRY:	STRADA PROVINCIALE	STRADA PROVINCIALE	TYPE	DET_PRE
LEXENTRY:	STRADA PROVINCIALE DEI	STRADA PROVINCIALE DEI	TYPE	DET_PRE
LEXENTRY:	STRADA PROVINCIALE DEL	STRADA PROVINCIALE DEL	TYPE	DET_PRE
LEXENTRY:	STRADA PROVINCIALE DELLA	STRADA PROVINCIALE DELLA	TYPE	DET_PRE
LEXENTRY:	STRADA PROVINCIALE DELLE	STRADA PROVINCIALE DELLE	TYPE	DET_PRE
LEXENTRY:	STRADA PROVINCIALE DI	STRADA PROVINCIALE DI	TYPE	DET_PRE
LEXENTRY:	STRADA PROVINCIALE PER	STRADA PROVINCIALE PER	TYPE	DET_PRE
LEXENTRY:	STRADA REGIONALE DELLA	STRADA REGIONALE DELLA	TYPE	DET_PRE
LEXENTRY:	STRADA REGIONALE DI	STRADA REGIONALE DI	TYPE	DET_PRE
LEXENTRY:	STRADA STATALE	STRADA STATALE	TYPE	DET_PRE
LEXENTRY:	STRADA STATALE DEL	STRADA STATALE DEL	TYPE	DET_PRE
LEXENTRY:	STRADA STATALE DELLA	STRADA STATALE DELLA	TYPE	DET_PRE
LEXENTRY:	STRADA STATALE DELLE	STRADA STATALE DELLE	TYPE	DET_PRE
LEXENTRY:	STRADA STATALE DI	STRADA STATALE DI	TYPE	DET_PRE
LEXENTRY:	STRADA VICINALE	STRADA VICINALE	TYPE	DET_PRE
LEXENTRY:	STRADA VICINALE DA	STRADA VICINALE DA	TYPE	DET_PRE
";
"LEXENTRY:	STRADA VICINALE DEI	STRADA VICINALE DEI	TYPE	DET_PRE
LEXENTRY:	STRADA VICINALE DEL	STRADA VICINALE DEL	TYPE	DET_PRE
LEXENTRY:	STRADA VICINALE DELLA	STRADA VICINALE DELLA	TYPE	DET_PRE
LEXENTRY:	STRADA VICINALE DELLE	STRADA VICINALE DELLE	TYPE	DET_PRE
LEXENTRY:	STRADA VICINALE DI	STRADA VICINALE DI	TYPE	DET_PRE
LEXENTRY:	STRADALE	STRADALE	TYPE	DET_PRE
LEXENTRY:	STRADELLA	STRADELLA	TYPE	DET_PRE
LEXENTRY:	STRADELLA DELLE	STRADELLA DELLE	TYPE	DET_PRE
LEXENTRY:	STRADONE	STRADONE	TYPE	DET_PRE
LEXENTRY:	STRADONE DEI	STRADONE DEI	TYPE	DET_PRE
LEXENTRY:	STRADONE DI	STRADONE DI	TYPE	DET_PRE
LEXENTRY:	STRASSE	STRASSE	TYPE	DET_PRE,DET_SUF
LEXENTRY:	SUPERSTRADA	SUPERSTRADA	TYPE	DET_PRE
LEXENTRY:	SUPERSTRADA PER	SUPERSTRADA PER	TYPE	DET_PRE
LEXENTRY:	SV	SAVONA	PROV	DETACH
LEXENTRY:	SVINCOLO	SVINCOLO	TYPE	DET_PRE
LEXENTRY:	TA	TARANTO	PROV	DETACH
LEXENTRY:	TANGENZIALE	TANGENZIALE	TYPE	DET_PRE
LEXENTRY:	TANGENZIALE DI	TANGENZIALE DI	TYPE	DET_PRE
LEXENTRY:	TE	TERAMO	PROV	DETACH
LEXENTRY:	TN	TRENTO	PROV	DETACH
LEXENTRY:	TO	TORINO	PROV	DETACH
LEXENTRY:	TP	TRAPANI	PROV	DETACH
LEXENTRY:	TR	TERNI	PROV	DETACH
LEXENTRY:	TRAFORO	TRAFORO	TYPE	DET_PRE
LEXENTRY:	TRAFORO DEL	TRAFORO DEL	TYPE	DET_PRE
LEXENTRY:	TRAVERSA	TRAVERSA	TYPE	DET_PRE
LEXENTRY:	TRAVERSA ALLA	TRAVERSA ALLA	TYPE	DET_PRE
LEXENTRY:	TRAVERSA DEGLI	TRAVERSA DEGLI	TYPE	DET_PRE
LEXENTRY:	TRAVERSA DEI	TRAVERSA DEI	TYPE	DET_PRE
LEXENTRY:	TRAVERSA DI	TRAVERSA DI	TYPE	DET_PRE
LEXENTRY:	TS	TRIESTE	PROV	DETACH
LEXENTRY:	TV	TREVISO	PROV	DETACH
LEXENTRY:	UD	UDINE	PROV	DETACH
LEXENTRY:	V	VIA	TYPE	DET_PRE
LEXENTRY:	V A	VIA A	TYPE	DET_PRE
LEXENTRY:	V AI	VIA AI	TYPE	DET_PRE
LEXENTRY:	V AL	VIA AL	TYPE	DET_PRE
LEXENTRY:	V ALLA	VIA ALLA	TYPE	DET_PRE
LEXENTRY:	V ALLE	VIA ALLE	TYPE	DET_PRE
LEXENTRY:	V DA	VIA DA	TYPE	DET_PRE
LEXENTRY:	V DAI	VIA DAI	TYPE	DET_PRE
LEXENTRY:	V DAL	VIA DAL	TYPE	DET_PRE
LEXENTRY:	V DE'	VIA DE'	TYPE	DET_PRE
LEXENTRY:	V DEI	VIA DEI	TYPE	DET_PRE
LEXENTRY:	V DEL	VIA DEL	TYPE	DET_PRE
LEXENTRY:	V DI	VIA DI	TYPE	DET_PRE
LEXENTRY:	V FRA	VIA FRA	TYPE	DET_PRE
LEXENTRY:	V IN	VIA IN	TYPE	DET_PRE
LEXENTRY:	V PER	VIA PER	TYPE	DET_PRE
LEXENTRY:	V.	VIA	TYPE	DET_PRE
LEXENTRY:	V. A	VIA A	TYPE	DET_PRE
LEXENTRY:	V. AI	VIA AI	TYPE	DET_PRE
LEXENTRY:	V. AL	VIA AL	TYPE	DET_PRE
LEXENTRY:	V. ALLA	VIA ALLA	TYPE	DET_PRE
LEXENTRY:	V. ALLE	VIA ALLE	TYPE	DET_PRE
LEXENTRY:	V. DA	VIA DA	TYPE	DET_PRE
LEXENTRY:	V. DAI	VIA DAI	TYPE	DET_PRE
LEXENTRY:	V. DAL	VIA DAL	TYPE	DET_PRE
LEXENTRY:	V. DE'	VIA DE'	TYPE	DET_PRE
";
"LEXENTRY:	V. DEI	VIA DEI	TYPE	DET_PRE
LEXENTRY:	V. DEL	VIA DEL	TYPE	DET_PRE
LEXENTRY:	V. DI	VIA DI	TYPE	DET_PRE
LEXENTRY:	V. FRA	VIA FRA	TYPE	DET_PRE
LEXENTRY:	V. IN	VIA IN	TYPE	DET_PRE
LEXENTRY:	V. PER	VIA PER	TYPE	DET_PRE
LEXENTRY:	VA	VARESE	PROV	DETACH
LEXENTRY:	VA	VATICAN	NATION	DETACH
LEXENTRY:	VALLETTA	VALLETTA	TYPE	DET_PRE
LEXENTRY:	VATICAN	VATICAN	CITY,NATION	DETACH
LEXENTRY:	VATICANO	VATICAN	CITY,NATION	DETACH
LEXENTRY:	VARCO	VARCO	TYPE	DET_PRE
LEXENTRY:	VAT	VATICAN	NATION	DETACH
LEXENTRY:	VC	VERCELLI	PROV	DETACH
LEXENTRY:	VE	VENEZIA	PROV	DETACH
LEXENTRY:	VI	VICENZA	PROV	DETACH
LEXENTRY:	VIA	VIA	TYPE	DET_PRE
LEXENTRY:	VIA A	VIA A	TYPE	DET_PRE
LEXENTRY:	VIA AI	VIA AI	TYPE	DET_PRE
LEXENTRY:	VIA AL	VIA AL	TYPE	DET_PRE
LEXENTRY:	VIA ALLA	VIA ALLA	TYPE	DET_PRE
LEXENTRY:	VIA ALLE	VIA ALLE	TYPE	DET_PRE
LEXENTRY:	VIA ALLE VECCHIE	VIA ALLE VECCHIE	TYPE	DET_PRE
LEXENTRY:	VIA ANTICA	VIA ANTICA	TYPE	DET_PRE
LEXENTRY:	VIA DA	VIA DA	TYPE	DET_PRE
LEXENTRY:	VIA DAI	VIA DAI	TYPE	DET_PRE
LEXENTRY:	VIA DAL	VIA DAL	TYPE	DET_PRE
LEXENTRY:	VIA DE'	VIA DE'	TYPE	DET_PRE
LEXENTRY:	VIA DEGLI	VIA DEGLI	TYPE	DET_PRE
LEXENTRY:	VIA DEI	VIA DEI	TYPE	DET_PRE
LEXENTRY:	VIA DEL	VIA DEL	TYPE	DET_PRE
LEXENTRY:	VIA DELLA	VIA DELLA	TYPE	DET_PRE
LEXENTRY:	VIA DELLE	VIA DELLE	TYPE	DET_PRE
LEXENTRY:	VIA DELLO	VIA DELLO	TYPE	DET_PRE
LEXENTRY:	VIA DI	VIA DI	TYPE	DET_PRE
LEXENTRY:	VIA DIETRO	VIA DIETRO	TYPE	DET_PRE
LEXENTRY:	VIA FRA	VIA FRA	TYPE	DET_PRE
LEXENTRY:	VIA IN	VIA IN	TYPE	DET_PRE
LEXENTRY:	VIA INFERIORE	VIA INFERIORE	TYPE	DET_PRE
LEXENTRY:	VIA INFERIORE DEI	VIA INFERIORE DEI	TYPE	DET_PRE
LEXENTRY:	VIA INFERIORE DI	VIA INFERIORE DI	TYPE	DET_PRE
LEXENTRY:	VIA INTERNA	VIA INTERNA	TYPE	DET_PRE
LEXENTRY:	VIA MILITARE DI	VIA MILITARE DI	TYPE	DET_PRE
LEXENTRY:	VIA MURA DI	VIA MURA DI	TYPE	DET_PRE
LEXENTRY:	VIA PER	VIA PER	TYPE	DET_PRE
LEXENTRY:	VIA PONTE	VIA PONTE	TYPE	DET_PRE
LEXENTRY:	VIA PRIVATA	VIA PRIVATA	TYPE	DET_PRE
LEXENTRY:	VIA PRIVATA DEGLI	VIA PRIVATA DEGLI	TYPE	DET_PRE
LEXENTRY:	VIA PRIVATA DEI	VIA PRIVATA DEI	TYPE	DET_PRE
LEXENTRY:	VIA PRIVATA DEL	VIA PRIVATA DEL	TYPE	DET_PRE
LEXENTRY:	VIA PRIVATA DELLA	VIA PRIVATA DELLA	TYPE	DET_PRE
LEXENTRY:	VIA PRIVATA DELLE	VIA PRIVATA DELLE	TYPE	DET_PRE
LEXENTRY:	VIA PRIVATA DI	VIA PRIVATA DI	TYPE	DET_PRE
LEXENTRY:	VIA PROVINCIALE	VIA PROVINCIALE	TYPE	DET_PRE
LEXENTRY:	VIA SOTTO	VIA SOTTO	TYPE	DET_PRE
LEXENTRY:	VIA SOTTO I	VIA SOTTO I	TYPE	DET_PRE
LEXENTRY:	VIA SOTTO LE	VIA SOTTO LE	TYPE	DET_PRE
";
"LEXENTRY:	VIA SUPERIORE	VIA SUPERIORE	TYPE	DET_PRE
LEXENTRY:	VIA SUPERIORE DEI	VIA SUPERIORE DEI	TYPE	DET_PRE
LEXENTRY:	VIA SUPERIORE DEL	VIA SUPERIORE DEL	TYPE	DET_PRE
LEXENTRY:	VIA SUPERIORE DELLE	VIA SUPERIORE DELLE	TYPE	DET_PRE
LEXENTRY:	VIA VECCHIA DI	VIA VECCHIA DI	TYPE	DET_PRE
LEXENTRY:	VIA VICINALE	VIA VICINALE	TYPE	DET_PRE
LEXENTRY:	VIADOTTO	VIADOTTO	TYPE	DET_PRE
LEXENTRY:	VIADOTTO DELLA	VIADOTTO DELLA	TYPE	DET_PRE
LEXENTRY:	VIALE	VIALE	TYPE	DET_PRE
LEXENTRY:	VIALE AI	VIALE AI	TYPE	DET_PRE
LEXENTRY:	VIALE AL	VIALE AL	TYPE	DET_PRE
LEXENTRY:	VIALE ALLA	VIALE ALLA	TYPE	DET_PRE
LEXENTRY:	VIALE DEGLI	VIALE DEGLI	TYPE	DET_PRE
LEXENTRY:	VIALE DEI	VIALE DEI	TYPE	DET_PRE
LEXENTRY:	VIALE DEL	VIALE DEL	TYPE	DET_PRE
LEXENTRY:	VIALE DELL'	VIALE DELL'	TYPE	ATT_PRE
LEXENTRY:	VIALE DELLA	VIALE DELLA	TYPE	DET_PRE
LEXENTRY:	VIALE DELLE	VIALE DELLE	TYPE	DET_PRE
LEXENTRY:	VIALE DELLO	VIALE DELLO	TYPE	DET_PRE
LEXENTRY:	VIALE DI	VIALE DI	TYPE	DET_PRE
LEXENTRY:	VIALETTO	VIALETTO	TYPE	DET_PRE
LEXENTRY:	VIALETTO DEL	VIALETTO DEL	TYPE	DET_PRE
LEXENTRY:	VIALETTO DELLA	VIALETTO DELLA	TYPE	DET_PRE
LEXENTRY:	VICO	VICO	TYPE	DET_PRE
LEXENTRY:	VICO A	VICO A	TYPE	DET_PRE
LEXENTRY:	VICO ALLA	VICO ALLA	TYPE	DET_PRE
LEXENTRY:	VICO CHIUSO	VICO CHIUSO	TYPE	DET_PRE
LEXENTRY:	VICO CHIUSO DEGLI	VICO CHIUSO DEGLI	TYPE	DET_PRE
LEXENTRY:	VICO CHIUSO DEI	VICO CHIUSO DEI	TYPE	DET_PRE
LEXENTRY:	VICO CHIUSO DEL	VICO CHIUSO DEL	TYPE	DET_PRE
LEXENTRY:	VICO CHIUSO DELLA	VICO CHIUSO DELLA	TYPE	DET_PRE
LEXENTRY:	VICO CHIUSO DELLO	VICO CHIUSO DELLO	TYPE	DET_PRE
LEXENTRY:	VICO CIECO DIETRO	VICO CIECO DIETRO	TYPE	DET_PRE
LEXENTRY:	VICO DE	VICO DE	TYPE	DET_PRE
LEXENTRY:	VICO DEGLI	VICO DEGLI	TYPE	DET_PRE
LEXENTRY:	VICO DEI	VICO DEI	TYPE	DET_PRE
LEXENTRY:	VICO DEL	VICO DEL	TYPE	DET_PRE
LEXENTRY:	VICO DELLA	VICO DELLA	TYPE	DET_PRE
LEXENTRY:	VICO DELLE	VICO DELLE	TYPE	DET_PRE
LEXENTRY:	VICO DI	VICO DI	TYPE	DET_PRE
LEXENTRY:	VICO DIETRO	VICO DIETRO	TYPE	DET_PRE
LEXENTRY:	VICO DIETRO IL	VICO DIETRO IL	TYPE	DET_PRE
LEXENTRY:	VICO INFERIORE	VICO INFERIORE	TYPE	DET_PRE
LEXENTRY:	VICO INFERIORE DEL	VICO INFERIORE DEL	TYPE	DET_PRE
LEXENTRY:	VICO SECONDO	VICO SECONDO	TYPE	DET_PRE
LEXENTRY:	VICO SECONDO DELLO	VICO SECONDO DELLO	TYPE	DET_PRE
LEXENTRY:	VICO SUPERIORE	VICO SUPERIORE	TYPE	DET_PRE
LEXENTRY:	VICO SUPERIORE DEL	VICO SUPERIORE DEL	TYPE	DET_PRE
LEXENTRY:	VICO SUPERIORE DI	VICO SUPERIORE DI	TYPE	DET_PRE
LEXENTRY:	VICOLETTO	VICOLETTO	TYPE	DET_PRE
LEXENTRY:	VICOLETTO CIECO	VICOLETTO CIECO	TYPE	DET_PRE
";
"LEXENTRY:	VICOLETTO CIECO DIETRO	VICOLETTO CIECO DIETRO	TYPE	DET_PRE
LEXENTRY:	VICOLETTO CORTICELLA	VICOLETTO CORTICELLA	TYPE	DET_PRE
LEXENTRY:	VICOLO	VICOLO	TYPE	DET_PRE
LEXENTRY:	VICOLO AL	VICOLO AL	TYPE	DET_PRE
LEXENTRY:	VICOLO CIECO	VICOLO CIECO	TYPE	DET_PRE
LEXENTRY:	VICOLO DE'	VICOLO DE'	TYPE	DET_PRE
LEXENTRY:	VICOLO DEGLI	VICOLO DEGLI	TYPE	DET_PRE
LEXENTRY:	VICOLO DEI	VICOLO DEI	TYPE	DET_PRE
LEXENTRY:	VICOLO DEL	VICOLO DEL	TYPE	DET_PRE
LEXENTRY:	VICOLO DELLA	VICOLO DELLA	TYPE	DET_PRE
LEXENTRY:	VICOLO DELLE	VICOLO DELLE	TYPE	DET_PRE
LEXENTRY:	VICOLO DELLO	VICOLO DELLO	TYPE	DET_PRE
LEXENTRY:	VICOLO DI	VICOLO DI	TYPE	DET_PRE
LEXENTRY:	VICOLO DIETRO	VICOLO DIETRO	TYPE	DET_PRE
LEXENTRY:	VICOLO PER	VICOLO PER	TYPE	DET_PRE
LEXENTRY:	VICOLO PRIVATO	VICOLO PRIVATO	TYPE	DET_PRE
LEXENTRY:	VIE	VIALE	TYPE	DET_PRE
LEXENTRY:	VIE.	VIALE	TYPE	DET_PRE
LEXENTRY:	VILLAGGIO	VILLAGGIO	TYPE	DET_PRE
LEXENTRY:	VIOTTOLA	VIOTTOLA	TYPE	DET_PRE
LEXENTRY:	VIOTTOLO	VIOTTOLO	TYPE	DET_PRE
LEXENTRY:	VIUZZO	VIUZZO	TYPE	DET_PRE
LEXENTRY:	VIUZZO DE'	VIUZZO DE'	TYPE	DET_PRE
LEXENTRY:	VIUZZO DEI	VIUZZO DEI	TYPE	DET_PRE
LEXENTRY:	VIUZZO DEL	VIUZZO DEL	TYPE	DET_PRE
LEXENTRY:	VIUZZO DELLA	VIUZZO DELLA	TYPE	DET_PRE
LEXENTRY:	VIUZZO DELLE	VIUZZO DELLE	TYPE	DET_PRE
LEXENTRY:	VIUZZO DI	VIUZZO DI	TYPE	DET_PRE
LEXENTRY:	VL	VIALE	TYPE	DET_PRE
LEXENTRY:	VL.	VIALE	TYPE	DET_PRE
LEXENTRY:	VO'	VO'	TYPE	DET_PRE
LEXENTRY:	VOCABOLO	VOCABOLO	TYPE	DET_PRE
LEXENTRY:	VOLTA	VOLTA	TYPE	DET_PRE
LEXENTRY:	VOLTA DE'	VOLTA DE'	TYPE	DET_PRE
LEXENTRY:	VOLTA DEI	VOLTA DEI	TYPE	DET_PRE
LEXENTRY:	VOLTA DELLA	VOLTA DELLA	TYPE	DET_PRE
LEXENTRY:	VOLTA DI	VOLTA DI	TYPE	DET_PRE
LEXENTRY:	VOLTO	VOLTO	TYPE	DET_PRE
LEXENTRY:	VR	VERONA	PROV	DETACH
LEXENTRY:	VT	VITERBO	PROV	DETACH
LEXENTRY:	WEG	WEG	TYPE	DET_PRE,DET_SUF
LEXENTRY:	WINKEL	WINKEL	TYPE	DET_SUF
"].
Definition shipped_lexicons : list (list string) :=
  [slex_andorra; slex_australia; slex_austria; slex_belgium; slex_canada; slex_denmark; slex_finland; slex_france; slex_germany; slex_greatbritain; slex_ireland; slex_italy; slex_liechtenstein; slex_luxembourg; slex_monaco; slex_netherlands; slex_newzealand; slex_norway; slex_portugal; slex_san_marino; slex_spain; slex_sweden; slex_switzerland; slex_usa; slex_vatican].
