(* Column types and cell values. *)
From Coq Require Import Strings.String.
From Verif Require Import Base.Tac Base.Bytes Base.Text Base.Res Base.Str.
Local Open Scope N_scope.

(* constants/column_type.rs:7-100 *)
Inductive coltype :=
| CtDecimal | CtTiny | CtShort | CtLong | CtFloat | CtDouble | CtNull | CtTimeStamp | CtLongLong | CtInt24 | CtDate
| CtTime | CtDateTime | CtYear | CtNewDate | CtVarChar | CtBit | CtTimeStamp2 | CtDateTime2 | CtTime2 | CtJson
| CtNewDecimal | CtEnum | CtSet | CtTinyBlob | CtMediumBlob | CtLongBlob | CtBlob | CtVarString | CtString | CtGeometry.

(* constants/column_type.rs:103-139; the table of the match, in its order *)
Definition coltype_table : list (N * coltype) :=
  [(0, CtDecimal); (1, CtTiny); (2, CtShort); (3, CtLong); (4, CtFloat); (5, CtDouble); (6, CtNull); (7, CtTimeStamp);
   (8, CtLongLong); (9, CtInt24); (10, CtDate); (11, CtTime); (12, CtDateTime); (13, CtYear); (14, CtNewDate);
   (15, CtVarChar); (16, CtBit); (17, CtTimeStamp2); (18, CtDateTime2); (19, CtTime2); (245, CtJson);
   (246, CtNewDecimal); (247, CtEnum); (248, CtSet); (249, CtTinyBlob); (250, CtMediumBlob); (251, CtLongBlob);
   (252, CtBlob); (253, CtVarString); (254, CtString); (255, CtGeometry)].
Definition unknown_column (c : N) : text := tx "Unknown column type " ++ dec_text c.
Definition coltype_from_code (c : N) : res coltype :=
  match find (fun e => fst e =? c) coltype_table with
  | Some (_, t) => Ok t
  | None => Err (EString (unknown_column c))
  end.

(* events/row_events/mysql_value.rs:1-26; hour is an i16, always non-negative here *)
Record date := Date { d_year : N; d_month : N; d_day : N }.
Record time := Time { t_hour : N; t_minute : N; t_second : N; t_millis : N }.
Record datetime := DateTime { dt_year : N; dt_month : N; dt_day : N; dt_hour : N; dt_minute : N; dt_second : N; dt_millis : N }.

(* mysql_value.rs:28-48; floats by their IEEE bit patterns *)
Inductive value :=
| VTinyInt (n : N) | VSmallInt (n : N) | VMediumInt (n : N) | VInt (n : N) | VBigInt (n : N)
| VFloat (bits : N) | VDouble (bits : N)
| VDecimal (t : text) | VString (t : text)
| VBit (bs : list bool) | VEnum (n : N) | VSet (n : N) | VBlob (bs : list byte)
| VYear (n : N) | VDate (d : date) | VTime (t : time) | VDateTime (d : datetime) | VTimestamp (millis : N).

(* row_data.rs *)
Definition row := list (option value).
Definition update_row := (row * row)%type.
