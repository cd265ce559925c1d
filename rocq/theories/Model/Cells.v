(* Cells of row events: src/events/row_events/{col_parser,actual_string_type}.rs and parse_cell of row_parser.rs *)
From Coq Require Import Strings.String.
From Verif Require Import Base.Tac Base.Bytes Base.Text Base.Res Base.Str Base.Parse Model.Codec Model.Values Model.Decimal.
Local Open Scope N_scope.

(* col_parser.rs:7-14 *)
Definition parse_string (metadata : N) : parser text :=
  n <- (if metadata <? 256 then read_u8 else read_u16) ;;
  read_string n.

(* col_parser.rs:16-21; u16 arithmetic, at most 255*8+255: no overflow *)
Definition parse_bit (metadata : N) : parser (list bool) :=
  let len := (metadata / 256) * 8 + metadata mod 256 in
  bm <- read_bitmap_be len ;;
  ret (rev bm).

(* col_parser.rs:23-28 *)
Definition parse_blob (metadata : N) : parser (list byte) :=
  n <- read_uint_le metadata ;; read_bytes n.

(* col_parser.rs:30-32 *)
Definition parse_year : parser N := y <- read_u8 ;; ret (1900 + y).

(* col_parser.rs:34-47 *)
Definition parse_date : parser date :=
  v <- read_u24 ;;
  ret (Date (v / 512) (v / 32 mod 16) (v mod 32)).

Definition negative_time : text := tx "Parsing negative TIME values is not supported in this version".
(* col_parser.rs:49-69; read_i24 is already sign-extended, so `<< 8 >> 8` keeps the value *)
Definition parse_time : parser time :=
  v <- read_u24 ;;
  if (to_signed 24 v <? 0)%Z then fail (EString negative_time)
  else ret (Time (v / 100 / 100) (v / 100 mod 100) (v mod 100) 0).

(* col_parser.rs:160-168 parse_fractional_part.  length = (metadata + 1) / 2 in u16; 3 - length in u32;
   u64::pow(100, e) for an underflowed exponent is 0 in release builds (100^e is divisible by 2^64 for e >= 32). *)
Definition parse_fractional (bl : build) (metadata : N) : parser N :=
  m1 <- lift (uadd 65536 bl metadata 1) ;;
  let len := m1 / 2 in
  if len =? 0 then ret 0
  else
    f <- read_uint_be len ;;
    if len <=? 3 then lift (umul u64max1 bl f (100 ^ (3 - len)))
    else match bl with Debug => fun _ _ => Panic | Release => ret 0 end.

(* col_parser.rs:71-97 *)
Definition parse_time2 (bl : build) (metadata : N) : parser time :=
  v <- read_be 3 ;;
  f <- parse_fractional bl metadata ;;
  let millis := f / 1000 in
  if v / 2 ^ 23 mod 2 =? 0 then fail (EString negative_time)
  else ret (Time (v / 4096 mod 1024) (v / 64 mod 64) (v mod 64) (millis mod u32max1)).

(* col_parser.rs:99-122 *)
Definition parse_date_time : parser datetime :=
  v <- read_u64 ;;
  ret (DateTime (v / 10000000000 mod 65536) (v / 100000000 mod 100) (v / 1000000 mod 100) (v / 10000 mod 100)
                (v / 100 mod 100) (v mod 100) 0).

(* col_parser.rs:124-146 *)
Definition parse_date_time2 (bl : build) (metadata : N) : parser datetime :=
  v <- read_uint_be 5 ;;
  f <- parse_fractional bl metadata ;;
  let millis := f / 1000 in
  let ym := v / 2 ^ 22 mod 2 ^ 17 in
  ret (DateTime (ym / 13) (ym mod 13) (v / 2 ^ 17 mod 32) (v / 4096 mod 32) (v / 64 mod 64) (v mod 64) (millis mod u32max1)).

(* col_parser.rs:148-151 *)
Definition parse_timestamp : parser N := s <- read_u32 ;; ret (s * 1000).
(* col_parser.rs:153-158 *)
Definition parse_timestamp2 (bl : build) (metadata : N) : parser N :=
  s <- read_be 4 ;;
  f <- parse_fractional bl metadata ;;
  lift (uadd u64max1 bl (s * 1000) (f / 1000)).

(* actual_string_type.rs:6-26: new column type and metadata *)
Definition actual_string_type (column_type metadata : N) : N * N :=
  if metadata <? 256 then (column_type, metadata)
  else
    let byte0 := (metadata / 256) mod 256 in
    let byte1 := N.land metadata 255 in
    if negb (N.land byte0 0x30 =? 0x30) then
      (N.lor byte0 0x30, N.lor byte1 (N.shiftl (N.lxor (N.land byte0 0x30) 0x30) 4))
    else
      (if (byte0 =? 247) || (byte0 =? 248) then byte0 else column_type, byte1).

Definition unsupported_cell (name : text) : text := tx "Parsing column type " ++ name ++ tx " is not supported".

(* row_parser.rs:130-184 *)
Definition parse_cell (bl : build) (column_type metadata : N) : parser value :=
  ct <- lift (coltype_from_code column_type) ;;
  match ct with
  | CtTiny => n <- read_u8 ;; ret (VTinyInt n)
  | CtShort => n <- read_u16 ;; ret (VSmallInt n)
  | CtInt24 => n <- read_u24 ;; ret (VMediumInt n)
  | CtLong => n <- read_u32 ;; ret (VInt n)
  | CtLongLong => n <- read_u64 ;; ret (VBigInt n)
  | CtFloat => n <- read_u32 ;; ret (VFloat n)
  | CtDouble => n <- read_u64 ;; ret (VDouble n)
  | CtNewDecimal => t <- parse_decimal bl metadata ;; ret (VDecimal t)
  | CtString | CtVarChar | CtVarString => t <- parse_string metadata ;; ret (VString t)
  | CtBit => b <- parse_bit metadata ;; ret (VBit b)
  | CtEnum => n <- read_uint_le metadata ;; ret (VEnum (n mod u32max1))
  | CtSet => n <- read_uint_le metadata ;; ret (VSet n)
  | CtTinyBlob | CtMediumBlob | CtLongBlob | CtBlob | CtGeometry | CtJson => b <- parse_blob metadata ;; ret (VBlob b)
  | CtYear => y <- parse_year ;; ret (VYear y)
  | CtDate => d <- parse_date ;; ret (VDate d)
  | CtTime => t <- parse_time ;; ret (VTime t)
  | CtTimeStamp => t <- parse_timestamp ;; ret (VTimestamp t)
  | CtDateTime => d <- parse_date_time ;; ret (VDateTime d)
  | CtTime2 => t <- parse_time2 bl metadata ;; ret (VTime t)
  | CtTimeStamp2 => t <- parse_timestamp2 bl metadata ;; ret (VTimestamp t)
  | CtDateTime2 => d <- parse_date_time2 bl metadata ;; ret (VDateTime d)
  | CtDecimal => fail (EString (unsupported_cell (tx "Decimal")))
  | CtNull => fail (EString (unsupported_cell (tx "Null")))
  | CtNewDate => fail (EString (unsupported_cell (tx "NewDate")))
  end.
