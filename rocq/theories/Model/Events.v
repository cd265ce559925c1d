(* Binlog events and EventParser: src/events/*.rs, src/providers/*/events/*.rs *)
From Coq Require Import Strings.String.
From Verif Require Import Base.Tac Base.Bytes Base.Text Base.Res Base.Str Base.Parse Base.Loop Model.Codec Model.Values
  Model.TableMap Model.Rows Model.Gtid Model.GtidMaria.
Local Open Scope N_scope.

(* event_header.rs:10-29 *)
Record header := Header {
  h_timestamp : N; h_type : N; h_server : N; h_length : N; h_next : N; h_flags : N }.
(* event_header.rs:32-42 *)
Definition header_parser : parser header :=
  ts <- read_u32 ;; ty <- read_u8 ;; sv <- read_u32 ;; ln <- read_u32 ;; nx <- read_u32 ;; fl <- read_u16 ;;
  ret (Header ts ty sv ln nx fl).
Definition parse_header (slice : list byte) : res header :=
  match header_parser slice 0%nat with Ok (h, _) => Ok h | Err e => Err e | Panic => Panic | Diverge => Diverge end.

(* constants/checksum_type.rs *)
Inductive checksum := CkNone | CkCrc32.
Definition bad_checksum (t : text) : text := tx "The master checksum type is not supported: " ++ t.
Definition checksum_from_code (c : N) : res checksum :=
  if c =? 0 then Ok CkNone else if c =? 1 then Ok CkCrc32 else Err (EString (bad_checksum (dec_text c))).
Definition checksum_from_name (t : text) : res checksum :=
  if text_eqb t (tx "NONE") then Ok CkNone
  else if text_eqb t (tx "CRC32") then Ok CkCrc32
  else Err (EString (bad_checksum t)).

(* read_to_string: the rest of the buffer; std reports invalid UTF-8 as io::Error of kind InvalidData *)
Definition read_to_string : parser text :=
  bs <- read_rest ;;
  match utf8_decode bs with Some t => ret t | None => fail (EIo InvalidData) end.

(* format_description_event.rs:15-24 *)
Record format_description := FormatDescription { fd_version : N; fd_server : text; fd_checksum : checksum }.
Definition before_nul (bs : list byte) : list byte :=
  (fix go (l : list byte) : list byte :=
     match l with [] => [] | b :: r => if b2n b =? 0 then [] else b :: go r end) bs.
(* format_description_event.rs:28-63; EVENT_TYPES_OFFSET = 57, FormatDescriptionEvent = 15.
   from_utf8 on a slice reports Utf8Error. `header.event_length as u8 - 19` is u8 arithmetic. *)
Definition parse_format_description (bl : build) (h : header) : parser format_description :=
  ver <- read_u16 ;;
  sv <- read_bytes 50 ;;
  name <- lift (match utf8_decode (before_nul sv) with Some t => Ok t | None => Err EUtf8 end) ;;
  seek_cur 5 ;;;
  seek_cur 14 ;;;
  payload_length <- read_u8 ;;
  d <- lift (usub 256 bl (h_length h mod 256) 19) ;;
  ck <- (if payload_length =? d then ret CkNone
         else
           seek_cur (Z.of_N payload_length - 57 - 15) ;;;
           c <- read_u8 ;;
           lift (checksum_from_code c)) ;;
  ret (FormatDescription ver name ck).

(* rotate_event.rs:10-30 *)
Record rotate := Rotate { ro_file : text; ro_pos : N }.
Definition parse_rotate : parser rotate :=
  p <- read_u64 ;; f <- read_to_string ;; ret (Rotate f p).
(* xid_event.rs:16-20 *)
Definition parse_xid : parser N := read_u64.
(* intvar_event.rs:10-27 *)
Record intvar := IntVar { iv_type : N; iv_value : N }.
Definition parse_intvar : parser intvar := t <- read_u8 ;; v <- read_u64 ;; ret (IntVar t v).
(* heartbeat_event.rs:15-20 *)
Definition parse_heartbeat : parser text := read_to_string.
(* rows_query_event.rs:16-31 *)
Definition parse_rows_query_mysql : parser text := seek_cur 1 ;;; read_to_string.
Definition parse_rows_query_mariadb : parser text := read_to_string.
(* query_event.rs:8-26 *)
Record query := Query { q_thread : N; q_duration : N; q_error : N; q_status : list byte; q_database : text; q_sql : text }.
(* query_event.rs:30-58 *)
Definition parse_query : parser query :=
  th <- read_u32 ;; du <- read_u32 ;; dl <- read_u8 ;; er <- read_u16 ;; sl <- read_u16 ;;
  st <- read_bytes sl ;;
  db <- read_string dl ;;
  seek_cur 1 ;;;
  sql <- read_to_string ;;
  ret (Query th du er st db sql).
(* uservar_event.rs:9-31 *)
Record variable_value := VariableValue { vv_type : N; vv_collation : N; vv_value : text; vv_flags : N }.
Record uservar := UserVar { uv_name : text; uv_value : option variable_value }.
(* uservar_event.rs:35-61 *)
Definition parse_uservar : parser uservar :=
  nl <- read_u32 ;; name <- read_string nl ;;
  nul <- read_u8 ;;
  if negb (nul =? 0) then ret (UserVar name None)
  else
    ty <- read_u8 ;; co <- read_u32 ;; vl <- read_u32 ;; v <- read_string vl ;; fl <- read_u8 ;;
    ret (UserVar name (Some (VariableValue ty co v fl))).

(* providers/mysql/events/gtid_event.rs:9-30 *)
Record mysql_gtid_event := MySqlGtid { me_gtid : gtid; me_flags : N }.
Definition parse_mysql_gtid : parser mysql_gtid_event :=
  fl <- read_u8 ;; src <- read_bytes 16 ;; n <- read_u64 ;; ret (MySqlGtid (Gtid (uuid_new src) n) fl).

(* providers/mysql/events/prev_gtids_event.rs:28-32: one interval; end - 1 is checked u64 arithmetic *)
Definition prev_interval (bl : build) : parser interval :=
  s <- read_u64 ;; e <- read_u64 ;; e1 <- lift (usub u64max1 bl e 1) ;; ret (Interval s e1).
Definition prev_uuid_set (bl : build) : parser uuid_set :=
  src <- read_bytes 16 ;; n <- read_u64 ;; ivs <- ploop n (prev_interval bl) ;; ret (UuidSet (uuid_new src) ivs).
(* prev_gtids_event.rs:17-39: sets are inserted in the map in reading order *)
Definition parse_prev_gtids (bl : build) : parser gtid_set :=
  n <- read_u64 ;;
  uss <- ploop n (prev_uuid_set bl) ;;
  ret (fold_left (fun m us => hm_put (utext (us_source us)) us m) uss gtid_set_new).

(* providers/mariadb/events/gtid_event.rs:9-26 *)
Record maria_gtid_event := MariaGtid { ma_gtid : mgtid; ma_flags : N }.
Definition parse_maria_gtid (h : header) : parser maria_gtid_event :=
  seq <- read_u64 ;; dom <- read_u32 ;; fl <- read_u8 ;; ret (MariaGtid (MGtid dom (h_server h) seq) fl).
(* providers/mariadb/events/gtid_list_event.rs:16-30 *)
Definition list_gtid : parser mgtid :=
  d <- read_u32 ;; s <- read_u32 ;; q <- read_u64 ;; ret (MGtid d s q).
Definition parse_maria_gtid_list : parser gtid_list :=
  n <- read_u32 ;; ploop n list_gtid.

(* binlog_event.rs:20-39 *)
Inductive event :=
| EvUnknown
| EvDelete (e : rows_event)
| EvUpdate (e : update_event)
| EvWrite (e : rows_event)
| EvXid (xid : N)
| EvIntVar (e : intvar)
| EvUserVar (e : uservar)
| EvQuery (q : query)
| EvTableMap (t : table_map)
| EvRotate (r : rotate)
| EvRowsQuery (sql : text)
| EvHeartbeat (file : text)
| EvFormat (f : format_description)
| EvMySqlGtid (e : mysql_gtid_event)
| EvPrevGtids (s : gtid_set)
| EvMariaGtid (e : maria_gtid_event)
| EvMariaGtidList (l : gtid_list).

(* event_parser.rs:25-39 *)
Record pstate := PState { ps_checksum : checksum; ps_tables : tables }.
Definition pstate_new : pstate := PState CkNone [].

Definition pmap {A B} (f : A -> B) (p : parser A) : parser B := x <- p ;; ret (f x).
(* event_parser.rs:52-111 with event_type.rs:88-117 *)
Definition event_body (bl : build) (ts : tables) (h : header) : parser event :=
  let c := h_type h in
  if c =? 15 then pmap EvFormat (parse_format_description bl h)
  else if c =? 19 then pmap EvTableMap parse_table_map
  else if c =? 27 then pmap EvHeartbeat parse_heartbeat
  else if c =? 4 then pmap EvRotate parse_rotate
  else if c =? 5 then pmap EvIntVar parse_intvar
  else if c =? 14 then pmap EvUserVar parse_uservar
  else if c =? 2 then pmap EvQuery parse_query
  else if c =? 16 then pmap EvXid parse_xid
  else if c =? 23 then pmap EvWrite (parse_rows_event bl ts 1)
  else if c =? 24 then pmap EvUpdate (parse_update_event bl ts 1)
  else if c =? 25 then pmap EvDelete (parse_rows_event bl ts 1)
  else if c =? 30 then pmap EvWrite (parse_rows_event bl ts 2)
  else if c =? 31 then pmap EvUpdate (parse_update_event bl ts 2)
  else if c =? 32 then pmap EvDelete (parse_rows_event bl ts 2)
  else if c =? 29 then pmap EvRowsQuery parse_rows_query_mysql
  else if c =? 33 then pmap EvMySqlGtid parse_mysql_gtid
  else if c =? 35 then pmap EvPrevGtids (parse_prev_gtids bl)
  else if c =? 162 then pmap EvMariaGtid (parse_maria_gtid h)
  else if c =? 163 then pmap EvMariaGtidList parse_maria_gtid_list
  else if c =? 160 then pmap EvRowsQuery parse_rows_query_mariadb
  else ret EvUnknown.

(* event_parser.rs:47-50: &slice[0..slice.len() - 4]; the subtraction panics (debug) or the slicing does (release) *)
Definition event_payload (ck : checksum) (slice : list byte) : res (list byte) :=
  match ck with
  | CkNone => Ok slice
  | CkCrc32 => if (length slice <? 4)%nat then Panic else Ok (firstn (length slice - 4) slice)
  end.

(* event_parser.rs:113-119 *)
Definition after_event (st : pstate) (e : event) : pstate :=
  match e with
  | EvFormat f => PState (fd_checksum f) (ps_tables st)
  | EvTableMap t => PState (ps_checksum st) (tables_put (tb_id t) t (ps_tables st))
  | _ => st
  end.
(* event_parser.rs:41-122.  On Err the parser state is unchanged. *)
Definition parse_event (bl : build) (st : pstate) (h : header) (slice : list byte) : res (event * pstate) :=
  let? payload := event_payload (ps_checksum st) slice in
  match event_body bl (ps_tables st) h payload 0%nat with
  | Ok (e, _) => Ok (e, after_event st e)
  | Err e => Err e
  | Panic => Panic
  | Diverge => Diverge
  end.
