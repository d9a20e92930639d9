(** The two tables of src/compiler/sema_casts.c, one constructor per macro, copied row by row. *)
From Coq Require Import List.
Import ListNotations.

(** src/compiler/enums.h:612-639 (ConvGroup), without CONV_NO. *)
Inductive Group :=
| GVoid
| GWildcard
| GBool
| GInt
| GFloat
| GPointer
| GSlice
| GVector
| GBitstruct
| GDistinct
| GArray
| GStruct
| GUnion
| GAny
| GInterface
| GEnum
| GFunc
| GTypeid
| GAnyfault
| GVoidptr
| GVaptr
| GInferred
| GUntypedList.
Definition groups : list Group := [GVoid; GWildcard; GBool; GInt; GFloat; GPointer; GSlice; GVector; GBitstruct; GDistinct; GArray; GStruct; GUnion; GAny; GInterface; GEnum; GFunc; GTypeid; GAnyfault; GVoidptr; GVaptr; GInferred; GUntypedList].
(** sema_casts.c:2255-2294. *)
Inductive Rule := RAPSL | RARAR | RARBS | RARVC | RBSAR | RBSIN | RDIDI | RDIXX | RENXX | REXPL | REXVC | RIFIF | RINBS | RINFL | RINPT | ROKOK | RPTFE | RPTIF | RPTIN | RPTPT | RSLFE | RSLPT | RSLSL | RSLVA | RSTDI | RSTST | RULAR | RULFE | RULSL | RULST | RVAFE | RVASL | RVCAR | RVCVC | RVPAN | RWIDE | RXXDI | R_NA | R_NO.
(** sema_casts.c:2212-2253; a missing entry (0) is [None]. *)
Inductive Fun := AF2BO | AP2SL | AR2AR | AR2VC | AY2BO | AY2PT | BO2FP | BO2IN | BS2BO | BS2IA | EN2XX | EX2VC | FA2IN | FP2BO | FP2FP | FP2IN | IA2BS | IN2BO | IN2FP | IN2IN | IN2PT | PT2AY | PT2BO | PT2FE | PT2IN | PT2PT | SL2BO | SL2FE | SL2PT | SL2SL | SL2VA | ST2LN | TI2BO | TI2IN | TI2PT | UL2XX | VA2FE | VA2SL | VC2AR | VC2VC | XX2VO | XX2XX.
(** sema_casts.c:2296-2321, cast_rules: a row per source group, a column per target group. *)
Definition cast_rules (f : Group) : list Rule :=
  match f with
  | GVoid => [R_NA; R_NO; R_NO; R_NO; R_NO; R_NO; R_NO; R_NO; R_NO; R_NO; R_NO; R_NO; R_NO; R_NO; R_NO; R_NO; R_NO; R_NO; R_NO; R_NO; R_NO; R_NO; R_NO]
  | GWildcard => [ROKOK; R_NA; ROKOK; ROKOK; ROKOK; ROKOK; ROKOK; ROKOK; ROKOK; ROKOK; ROKOK; ROKOK; ROKOK; ROKOK; ROKOK; ROKOK; ROKOK; ROKOK; ROKOK; ROKOK; ROKOK; R_NO; R_NO]
  | GBool => [REXPL; R_NO; R_NA; REXPL; REXPL; R_NO; R_NO; REXVC; R_NO; RXXDI; R_NO; R_NO; R_NO; R_NO; R_NO; R_NO; R_NO; R_NO; R_NO; R_NO; R_NO; R_NO; R_NO]
  | GInt => [REXPL; R_NO; REXPL; RWIDE; RINFL; RINPT; R_NO; REXVC; RINBS; RXXDI; R_NO; R_NO; R_NO; R_NO; R_NO; R_NO; RINPT; R_NO; R_NO; RINPT; RINPT; R_NO; R_NO]
  | GFloat => [REXPL; R_NO; REXPL; REXPL; RWIDE; R_NO; R_NO; REXVC; R_NO; RXXDI; R_NO; R_NO; R_NO; R_NO; R_NO; R_NO; R_NO; R_NO; R_NO; R_NO; R_NO; R_NO; R_NO]
  | GPointer => [REXPL; R_NO; REXPL; RPTIN; R_NO; RPTPT; R_NO; REXVC; R_NO; RXXDI; R_NO; R_NO; R_NO; ROKOK; RPTIF; R_NO; R_NO; R_NO; R_NO; ROKOK; RPTPT; RPTFE; R_NO]
  | GSlice => [REXPL; R_NO; REXPL; R_NO; R_NO; RSLPT; RSLSL; RSLVA; R_NO; RXXDI; RSLVA; R_NO; R_NO; R_NO; R_NO; R_NO; R_NO; R_NO; R_NO; ROKOK; RSLPT; RSLFE; R_NO]
  | GVector => [REXPL; R_NO; R_NO; R_NO; R_NO; R_NO; RVASL; RVCVC; R_NO; RXXDI; RVCAR; R_NO; R_NO; R_NO; R_NO; R_NO; R_NO; R_NO; R_NO; R_NO; R_NO; RVAFE; R_NO]
  | GBitstruct => [REXPL; R_NO; REXPL; RBSIN; R_NO; R_NO; R_NO; R_NO; R_NO; RXXDI; RBSAR; R_NO; R_NO; R_NO; R_NO; R_NO; R_NO; R_NO; R_NO; R_NO; R_NO; R_NO; R_NO]
  | GDistinct => [REXPL; R_NO; RDIXX; RDIXX; RDIXX; RDIXX; RDIXX; RDIXX; RDIXX; RDIDI; RDIXX; RDIXX; RDIXX; RDIXX; RDIXX; RDIXX; RDIXX; RDIXX; RDIXX; RDIXX; RDIXX; RDIXX; R_NO]
  | GArray => [REXPL; R_NO; R_NO; R_NO; R_NO; R_NO; RVASL; RARVC; RARBS; RXXDI; RARAR; R_NO; R_NO; R_NO; R_NO; R_NO; R_NO; R_NO; R_NO; R_NO; R_NO; RVAFE; R_NO]
  | GStruct => [REXPL; R_NO; RSTST; RSTST; RSTST; RSTST; RSTST; RSTST; RSTST; RSTDI; RSTST; RSTST; RSTST; RSTST; RSTST; RSTST; RSTST; RSTST; RSTST; RSTST; RSTST; R_NO; R_NO]
  | GUnion => [REXPL; R_NO; R_NO; R_NO; R_NO; R_NO; R_NO; R_NO; R_NO; RXXDI; R_NO; R_NO; R_NO; R_NO; R_NO; R_NO; R_NO; R_NO; R_NO; R_NO; R_NO; R_NO; R_NO]
  | GAny => [REXPL; R_NO; REXPL; R_NO; R_NO; REXPL; R_NO; R_NO; R_NO; RXXDI; R_NO; R_NO; R_NO; R_NA; REXPL; R_NO; R_NO; R_NO; R_NO; ROKOK; REXPL; R_NO; R_NO]
  | GInterface => [REXPL; R_NO; REXPL; R_NO; R_NO; REXPL; R_NO; R_NO; R_NO; RXXDI; R_NO; R_NO; R_NO; ROKOK; RIFIF; R_NO; R_NO; R_NO; R_NO; ROKOK; REXPL; R_NO; R_NO]
  | GEnum => [REXPL; R_NO; RENXX; RENXX; RENXX; RENXX; RENXX; RENXX; RENXX; RENXX; RENXX; RENXX; RENXX; RENXX; RENXX; RENXX; RENXX; RENXX; RENXX; RENXX; RENXX; RENXX; R_NO]
  | GFunc => [REXPL; R_NO; REXPL; RPTIN; R_NO; R_NO; R_NO; REXVC; R_NO; RXXDI; R_NO; R_NO; R_NO; R_NO; R_NO; R_NO; RPTPT; R_NO; R_NO; ROKOK; R_NO; R_NO; R_NO]
  | GTypeid => [REXPL; R_NO; REXPL; RPTIN; R_NO; REXPL; R_NO; REXVC; R_NO; RXXDI; R_NO; R_NO; R_NO; R_NO; R_NO; R_NO; R_NO; R_NA; R_NO; REXPL; REXPL; R_NO; R_NO]
  | GAnyfault => [REXPL; R_NO; REXPL; RPTIN; R_NO; REXPL; R_NO; REXVC; R_NO; RXXDI; R_NO; R_NO; R_NO; R_NO; R_NO; R_NO; R_NO; R_NO; R_NA; REXPL; REXPL; R_NO; R_NO]
  | GVoidptr => [REXPL; R_NO; REXPL; RPTIN; R_NO; ROKOK; R_NO; REXVC; R_NO; RXXDI; R_NO; R_NO; R_NO; RVPAN; RVPAN; R_NO; ROKOK; R_NO; R_NO; R_NA; ROKOK; R_NO; R_NO]
  | GVaptr => [REXPL; R_NO; REXPL; RPTIN; R_NO; RPTPT; RAPSL; REXVC; R_NO; RXXDI; R_NO; R_NO; R_NO; ROKOK; ROKOK; R_NO; R_NO; R_NO; R_NO; ROKOK; RPTPT; RPTFE; R_NO]
  | GInferred => [R_NO; R_NO; R_NO; R_NO; R_NO; R_NO; R_NO; R_NO; R_NO; R_NO; R_NO; R_NO; R_NO; R_NO; R_NO; R_NO; R_NO; R_NO; R_NO; R_NO; R_NO; R_NO; R_NO]
  | GUntypedList => [R_NO; R_NO; R_NO; R_NO; R_NO; R_NO; RULSL; RULAR; RULST; RXXDI; RULAR; RULST; R_NO; R_NO; R_NO; R_NO; R_NO; R_NO; R_NO; R_NO; R_NO; RULFE; R_NO]
  end.
(** sema_casts.c:2323-2348, cast_function. *)
Definition cast_function (f : Group) : list (option Fun) :=
  match f with
  | GVoid => [None; None; None; None; None; None; None; None; None; None; None; None; None; None; None; None; None; None; None; None; None; None; None]
  | GWildcard => [Some XX2XX; None; Some XX2XX; Some XX2XX; Some XX2XX; Some XX2XX; Some XX2XX; Some XX2XX; Some XX2XX; None; Some XX2XX; Some XX2XX; Some XX2XX; Some XX2XX; Some XX2XX; Some XX2XX; Some XX2XX; Some XX2XX; Some XX2XX; Some XX2XX; Some XX2XX; None; None]
  | GBool => [Some XX2VO; None; None; Some BO2IN; Some BO2FP; None; None; Some EX2VC; None; None; None; None; None; None; None; None; None; None; None; None; None; None; None]
  | GInt => [Some XX2VO; None; Some IN2BO; Some IN2IN; Some IN2FP; Some IN2PT; None; Some EX2VC; Some IA2BS; None; None; None; None; None; None; None; Some IN2PT; None; None; Some IN2PT; Some IN2PT; None; None]
  | GFloat => [Some XX2VO; None; Some FP2BO; Some FP2IN; Some FP2FP; None; None; Some EX2VC; None; None; None; None; None; None; None; None; None; None; None; None; None; None; None]
  | GPointer => [Some XX2VO; None; Some PT2BO; Some PT2IN; None; Some PT2PT; None; Some EX2VC; None; None; None; None; None; Some PT2AY; Some PT2AY; None; None; None; None; Some PT2PT; Some PT2PT; Some PT2FE; None]
  | GSlice => [Some XX2VO; None; Some SL2BO; None; None; Some SL2PT; Some SL2SL; Some SL2VA; None; None; Some SL2VA; None; None; None; None; None; None; None; None; Some SL2PT; Some SL2PT; Some SL2FE; None]
  | GVector => [Some XX2VO; None; None; None; None; None; Some VA2SL; Some VC2VC; None; None; Some VC2AR; None; None; None; None; None; None; None; None; None; None; Some VA2FE; None]
  | GBitstruct => [Some XX2VO; None; Some BS2BO; Some BS2IA; None; None; None; None; None; None; Some BS2IA; None; None; None; None; None; None; None; None; None; None; None; None]
  | GDistinct => [None; None; None; None; None; None; None; None; None; None; None; None; None; None; None; None; None; None; None; None; None; None; None]
  | GArray => [Some XX2VO; None; None; None; None; None; Some VA2SL; Some AR2VC; Some IA2BS; None; Some AR2AR; None; None; None; None; None; None; None; None; None; None; Some VA2FE; None]
  | GStruct => [Some XX2VO; None; Some ST2LN; Some ST2LN; Some ST2LN; Some ST2LN; Some ST2LN; Some ST2LN; Some ST2LN; None; Some ST2LN; Some ST2LN; Some ST2LN; Some ST2LN; Some ST2LN; Some ST2LN; Some ST2LN; Some ST2LN; Some ST2LN; Some ST2LN; Some ST2LN; None; None]
  | GUnion => [Some XX2VO; None; None; None; None; None; None; None; None; None; None; None; None; None; None; None; None; None; None; None; None; None; None]
  | GAny => [Some XX2VO; None; Some AY2BO; None; None; Some AY2PT; None; None; None; None; None; None; None; Some PT2PT; Some PT2PT; None; None; None; None; Some AY2PT; Some AY2PT; None; None]
  | GInterface => [Some XX2VO; None; Some AY2BO; None; None; Some AY2PT; None; None; None; None; None; None; None; Some PT2PT; Some PT2PT; None; None; None; None; Some AY2PT; Some AY2PT; None; None]
  | GEnum => [Some XX2VO; None; Some EN2XX; Some EN2XX; Some EN2XX; Some EN2XX; Some EN2XX; Some EN2XX; Some EN2XX; Some EN2XX; Some EN2XX; Some EN2XX; Some EN2XX; Some EN2XX; Some EN2XX; Some EN2XX; Some EN2XX; Some EN2XX; Some EN2XX; Some EN2XX; Some EN2XX; Some EN2XX; Some EN2XX]
  | GFunc => [Some XX2VO; None; Some PT2BO; Some PT2IN; None; None; None; Some EX2VC; None; None; None; None; None; None; None; None; Some PT2PT; None; None; Some PT2PT; None; None; None]
  | GTypeid => [Some XX2VO; None; Some TI2BO; Some TI2IN; None; Some TI2PT; None; Some EX2VC; None; None; None; None; None; None; None; None; None; None; None; Some TI2PT; Some TI2PT; None; None]
  | GAnyfault => [Some XX2VO; None; Some AF2BO; Some FA2IN; None; Some FA2IN; None; Some EX2VC; None; None; None; None; None; None; None; None; None; None; None; Some FA2IN; Some FA2IN; None; None]
  | GVoidptr => [Some XX2VO; None; Some PT2BO; Some PT2IN; None; Some PT2PT; None; Some EX2VC; None; None; None; None; None; Some PT2AY; Some PT2AY; None; Some PT2PT; None; None; None; Some PT2PT; None; None]
  | GVaptr => [Some XX2VO; None; Some PT2BO; Some PT2IN; None; Some PT2PT; Some AP2SL; Some EX2VC; None; None; None; None; None; Some PT2AY; Some PT2AY; None; None; None; None; Some PT2PT; Some PT2PT; Some PT2FE; None]
  | GInferred => [None; None; None; None; None; None; None; None; None; None; None; None; None; None; None; None; None; None; None; None; None; None; None]
  | GUntypedList => [None; None; None; None; None; None; Some UL2XX; Some UL2XX; Some UL2XX; None; Some UL2XX; Some UL2XX; None; None; None; None; None; None; None; None; None; Some UL2XX; None]
  end.
