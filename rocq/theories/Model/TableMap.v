(* Table map events: src/events/table_map_event.rs and src/metadata/*.rs *)
From Coq Require Import Strings.String.
From Verif Require Import Base.Tac Base.Bytes Base.Text Base.Res Base.Str Base.Parse Base.Loop Model.Codec Model.Values.
Local Open Scope N_scope.

(* metadata/default_charset.rs:3-9 *)
Record default_charset := DefaultCharset { dc_default : N; dc_map : list (N * N) }.

(* metadata/table_metadata.rs:12-48 *)
Record table_metadata := TableMetadata {
  tm_signedness : option (list bool);
  tm_default_charset : option default_charset;
  tm_column_charsets : option (list N);
  tm_column_names : option (list text);
  tm_set_values : option (list (list text));
  tm_enum_values : option (list (list text));
  tm_geometry_types : option (list N);
  tm_simple_keys : option (list N);
  tm_prefix_keys : option (list (N * N));
  tm_enum_set_default_charset : option default_charset;
  tm_enum_set_charsets : option (list N);
  tm_visibility : option (list bool) }.
Definition empty_metadata : table_metadata :=
  TableMetadata None None None None None None None None None None None None.

(* table_metadata.rs:132-139 *)
Definition parse_int_array : parser (list N) := pwhile (n <- read_len_enc_num ;; ret (n mod u32max1)).
(* table_metadata.rs:141-148 *)
Definition parse_string_array : parser (list text) := pwhile read_len_enc_str.
(* table_metadata.rs:150-158 *)
Definition parse_int_map : parser (list (N * N)) :=
  pwhile (k <- read_len_enc_num ;; v <- read_len_enc_num ;; ret (k mod u32max1, v mod u32max1)).
(* table_metadata.rs:160-171 *)
Definition parse_type_values : parser (list (list text)) :=
  pwhile (n <- read_len_enc_num ;; ploop n read_len_enc_str).
(* table_metadata.rs:173-180 *)
Definition parse_default_charset : parser default_charset :=
  d <- read_len_enc_num ;; m <- parse_int_map ;; ret (DefaultCharset (d mod u32max1) m).

(* bits of a byte, most significant first: (value & (1 << (7 - y))) > 0 *)
Definition bits_be (b : byte) : list bool := map (N.testbit (b2n b)) [7; 6; 5; 4; 3; 2; 1; 0].
(* table_metadata.rs:182-201 read_bitmap_reverted (same remarks as read_bitmap_le) *)
Definition read_bitmap_reverted (bits : N) : parser (list bool) :=
  lift (alloc bits) ;;;
  bs <- read_bytes ((bits + 7) / 8) ;;
  ret (firstn (N.to_nat bits) (flat_map bits_be bs)).

(* table_metadata.rs:206-216 *)
Definition is_numeric (t : coltype) : bool :=
  match t with
  | CtTiny | CtShort | CtInt24 | CtLong | CtLongLong | CtFloat | CtDouble | CtNewDecimal => true
  | _ => false
  end.
(* table_metadata.rs:203-219 *)
Fixpoint numeric_count (column_types : list N) : res N :=
  match column_types with
  | [] => Ok 0
  | c :: r =>
    let? t := coltype_from_code c in
    let? n := numeric_count r in
    Ok (if is_numeric t then n + 1 else n)
  end.

Definition unknown_metadata (c : N) : text := tx "Table metadata type " ++ dec_text c ++ tx " is not supported".

(* `Cursor::new(metadata.as_slice())`: run on a separate buffer from its start *)
Definition on_buffer {A} (bs : list byte) (p : parser A) : parser A :=
  lift (match p bs 0%nat with Ok (a, _) => Ok a | Err e => Err e | Panic => Panic | Diverge => Diverge end).

(* table_metadata.rs:66-112, one round of the loop.  metadata_type.rs:19-40 maps codes 1..12. *)
Definition metadata_field (column_types : list N) (m : table_metadata) : parser table_metadata :=
  code <- read_u8 ;;
  (if (1 <=? code) && (code <=? 12) then ret tt else fail (EString (unknown_metadata code))) ;;;
  len <- read_len_enc_num ;;
  bs <- read_bytes len ;;
  let '(TableMetadata f1 f2 f3 f4 f5 f6 f7 f8 f9 f10 f11 f12) := m in
  if code =? 1 then
    n <- lift (numeric_count column_types) ;;
    x <- on_buffer bs (read_bitmap_reverted n) ;; ret (TableMetadata (Some x) f2 f3 f4 f5 f6 f7 f8 f9 f10 f11 f12)
  else if code =? 2 then x <- on_buffer bs parse_default_charset ;; ret (TableMetadata f1 (Some x) f3 f4 f5 f6 f7 f8 f9 f10 f11 f12)
  else if code =? 3 then x <- on_buffer bs parse_int_array ;; ret (TableMetadata f1 f2 (Some x) f4 f5 f6 f7 f8 f9 f10 f11 f12)
  else if code =? 4 then x <- on_buffer bs parse_string_array ;; ret (TableMetadata f1 f2 f3 (Some x) f5 f6 f7 f8 f9 f10 f11 f12)
  else if code =? 5 then x <- on_buffer bs parse_type_values ;; ret (TableMetadata f1 f2 f3 f4 (Some x) f6 f7 f8 f9 f10 f11 f12)
  else if code =? 6 then x <- on_buffer bs parse_type_values ;; ret (TableMetadata f1 f2 f3 f4 f5 (Some x) f7 f8 f9 f10 f11 f12)
  else if code =? 7 then x <- on_buffer bs parse_int_array ;; ret (TableMetadata f1 f2 f3 f4 f5 f6 (Some x) f8 f9 f10 f11 f12)
  else if code =? 8 then x <- on_buffer bs parse_int_array ;; ret (TableMetadata f1 f2 f3 f4 f5 f6 f7 (Some x) f9 f10 f11 f12)
  else if code =? 9 then x <- on_buffer bs parse_int_map ;; ret (TableMetadata f1 f2 f3 f4 f5 f6 f7 f8 (Some x) f10 f11 f12)
  else if code =? 10 then x <- on_buffer bs parse_default_charset ;; ret (TableMetadata f1 f2 f3 f4 f5 f6 f7 f8 f9 (Some x) f11 f12)
  else if code =? 11 then x <- on_buffer bs parse_int_array ;; ret (TableMetadata f1 f2 f3 f4 f5 f6 f7 f8 f9 f10 (Some x) f12)
  else x <- on_buffer bs (read_bitmap_reverted (N.of_nat (length column_types))) ;;
       ret (TableMetadata f1 f2 f3 f4 f5 f6 f7 f8 f9 f10 f11 (Some x)).

(* table_metadata.rs:65-113: while position < len; [fuel] as in pwhile *)
Fixpoint metadata_loop (fuel : nat) (column_types : list N) (m : table_metadata) : parser table_metadata :=
  fun buf pos =>
    if (pos <? length buf)%nat then
      match fuel with
      | O => Diverge
      | S f => (m' <- metadata_field column_types m ;; metadata_loop f column_types m') buf pos
      end
    else Ok (m, pos).
(* table_metadata.rs:51-129 *)
Definition parse_table_metadata (column_types : list N) : parser table_metadata :=
  fun buf pos => metadata_loop (S (length buf)) column_types empty_metadata buf pos.

(* table_map_event.rs:11-32 *)
Record table_map := TableMap {
  tb_id : N; tb_database : text; tb_table : text;
  tb_types : list N; tb_meta : list N; tb_nullable : list bool;
  tb_metadata : option table_metadata }.

(* table_map_event.rs:86-110: metadata of one column *)
Definition column_meta (code : N) : parser N :=
  t <- lift (coltype_from_code code) ;;
  match t with
  | CtGeometry | CtJson | CtTinyBlob | CtMediumBlob | CtLongBlob | CtBlob | CtFloat | CtDouble | CtTimeStamp2
  | CtDateTime2 | CtTime2 => read_u8
  | CtBit | CtVarChar | CtVarString | CtNewDecimal => read_u16
  | CtEnum | CtSet | CtString => read_be 2
  | _ => ret 0
  end.
(* table_map_event.rs:78-113 parse_metadata; vec![0u16; n] cannot overflow: the n column types were read *)
Fixpoint columns_meta (column_types : list N) : parser (list N) :=
  match column_types with
  | [] => ret []
  | c :: r => m <- column_meta c ;; ms <- columns_meta r ;; ret (m :: ms)
  end.

(* table_map_event.rs:36-76 *)
Definition parse_table_map : parser table_map :=
  table_id <- read_u48 ;;
  seek_cur 2 ;;;
  dl <- read_u8 ;;
  db <- read_string dl ;;
  seek_cur 1 ;;;
  tl <- read_u8 ;;
  tn <- read_string tl ;;
  seek_cur 1 ;;;
  cn <- read_len_enc_num ;;
  cts <- read_bytes cn ;;
  let types := map b2n cts in
  _ml <- read_len_enc_num ;;
  meta <- columns_meta types ;;
  nb <- read_bitmap_le cn ;;
  pos <- get_pos ;;
  len <- get_len ;;
  md <- (if (pos <? len)%nat then m <- parse_table_metadata types ;; ret (Some m) else ret None) ;;
  ret (TableMap table_id db tn types meta nb md).
