(* A replication stream in bytes: what a server writes for each event, packet by packet. *)
From Coq Require Import Strings.String.
From Verif Require Import Base.Tac Base.Bytes Base.Text Base.Res Base.Str Model.Gtid Model.GtidMaria Model.Rows Model.Events Model.Client Model.Channel Model.Session
  Spec.GtidSpec Spec.ClientSpec Spec.EventSpec Spec.TableSpec Spec.RowSpec Spec.CommandSpec Spec.ChannelSpec Spec.SessionSpec.
Local Open Scope N_scope.

(* The server's side: whether checksums are appended, and the tables described so far, the latest first *)
Record writer := Writer { wr_sum : checksum; wr_tables : list table }.
Definition described (w : writer) (id : N) : option table := find (fun t => t_id t =? id) (wr_tables w).
Definition known_codes : list N := [2; 4; 5; 14; 15; 16; 19; 23; 24; 25; 27; 29; 30; 31; 32; 33; 35; 160; 162; 163].
(* the set announced by a list of half-open intervals per server *)
Definition announced_set (l : list prev_server) : gtid_set :=
  map (fun s => (utext (uuid_new (fst s)), UuidSet (uuid_new (fst s)) (map (fun i => Interval (fst i) (snd i - 1)) (snd s)))) l.

(* [writes w x bs w']: for event x the server writes, after the header, the bytes bs *)
Inductive writes (w : writer) : hev -> list byte -> writer -> Prop :=
| wr_service h e bs crc : service e (h_type h) bs -> trailer_ok (wr_sum w) crc -> writes w (h, e) (bs ++ crc) w
| wr_gtid h flags u n more crc : h_type h = 33 -> u8 flags -> server_id u -> u64 n -> trailer_ok (wr_sum w) crc ->
    writes w (h, EvMySqlGtid (MySqlGtid (Gtid (uuid_new u) n) flags)) (mysql_gtid_bytes flags u n more ++ crc) w
| wr_previous h l crc : h_type h = 35 -> prev_gtids_ok l -> trailer_ok (wr_sum w) crc ->
    writes w (h, EvPrevGtids (announced_set l)) (prev_gtids_bytes l ++ crc) w
| wr_maria_gtid h flags g more crc : h_type h = 162 -> u8 flags -> mgtid_ok g -> mg_server g = h_server h -> trailer_ok (wr_sum w) crc ->
    writes w (h, EvMariaGtid (MariaGtid g flags)) (maria_gtid_bytes flags g more ++ crc) w
| wr_maria_list h l crc : h_type h = 163 -> N.of_nat (length l) < 268435456 -> Forall mgtid_ok l -> trailer_ok (wr_sum w) crc ->
    writes w (h, EvMariaGtidList l) (maria_list_bytes 0 l ++ crc) w
  (* format descriptions of existing servers are shorter than 256 bytes; they say whether the following events have checksums *)
| wr_format h f : h_type h = 15 -> fde_ok f -> h_length h = 19 + N.of_nat (length (fde_wire f)) -> h_length h < 256 -> wr_sum w = CkNone \/ f_alg f <> None ->
    writes w (h, EvFormat (FormatDescription (f_version f) (f_server f) (fde_checksum f))) (fde_wire f) (Writer (fde_checksum f) (wr_tables w))
| wr_table h t crc : h_type h = 19 -> table_ok t -> trailer_ok (wr_sum w) crc ->
    writes w (h, EvTableMap (table_map_of t)) (table_bytes t ++ crc) (Writer (wr_sum w) (t :: wr_tables w))
  (* rows of the table described last under this id *)
| wr_rows h t e bs crc : row_event t (h_type h) e bs -> some_column e -> described w (t_id t) = Some t -> trailer_ok (wr_sum w) crc ->
    writes w (h, e) (bs ++ crc) w
| wr_unknown h bs crc : ~ In (h_type h) known_codes -> trailer_ok (wr_sum w) crc -> writes w (h, EvUnknown) (bs ++ crc) w.

(* events in packets: status 0, header, what the server writes *)
Inductive log_written : writer -> list hev -> list packet -> writer -> Prop :=
| lw_nil w : log_written w [] [] w
| lw_event w h e bs w1 es s ps w2 : header_ok h -> writes w (h, e) bs w1 -> packet_ok (n2b 0 :: header_bytes h ++ bs, s) -> log_written w1 es ps w2 ->
    log_written w ((h, e) :: es) ((n2b 0 :: header_bytes h ++ bs, s) :: ps) w2.

(* ---- any stream of a server: rows of tables described before the stream began, and rows without any column ---- *)
Definition row_table (e : event) : option N :=
  match e with EvWrite r | EvDelete r => Some (re_table r) | EvUpdate u => Some (ue_table u) | _ => None end.
Definition has_columns (e : event) : bool :=
  match e with EvWrite r | EvDelete r => existsb (fun b => b) (re_present r) | EvUpdate u => existsb (fun b => b) (ue_before u ++ ue_after u) | _ => true end.
Inductive sends_out (w : writer) : hev -> list byte -> writer -> Prop :=
| so_writes x bs w1 : writes w x bs w1 -> sends_out w x bs w1
  (* rows of a table that, if it was described on this stream, was described so *)
| so_rows h t e bs crc : row_event t (h_type h) e bs -> (forall t', described w (t_id t) = Some t' -> t' = t) -> trailer_ok (wr_sum w) crc ->
    sends_out w (h, e) (bs ++ crc) w.
Definition no_table_map : text :=
  tx "No preceding TableMapEvent event was found for the row event. You possibly started replication in the middle of logical event group.".
(* what the reader of the stream gets for an event: the event; without its rows if these have no column; or an error
   if the table was not described on this stream *)
Definition shown (w : writer) (x : hev) : hev + error :=
  match row_table (snd x) with
  | None => inl x
  | Some id => match described w id with None => inr (EString no_table_map) | Some _ => inl (fst x, if has_columns (snd x) then snd x else rowless (snd x)) end
  end.
(* [log_sent w es its ps w']: the events es are sent in the packets ps; the reader gets its *)
Inductive log_sent : writer -> list hev -> list (hev + error) -> list packet -> writer -> Prop :=
| ls_nil w : log_sent w [] [] [] w
| ls_event w h e bs w1 es its s ps w2 : header_ok h -> sends_out w (h, e) bs w1 -> packet_ok (n2b 0 :: header_bytes h ++ bs, s) -> log_sent w1 es its ps w2 ->
    log_sent w ((h, e) :: es) (shown w (h, e) :: its) ((n2b 0 :: header_bytes h ++ bs, s) :: ps) w2.

(* how many packets lie completely within the first n bytes *)
Fixpoint arrived (n : nat) (ps : list packet) : nat :=
  match ps with
  | [] => 0
  | p :: r => if (n <? length (wire p))%nat then 0 else S (arrived (n - length (wire p)) r)
  end.

(* ---- connections one after the other, in bytes (MySQL, GTID mode) ---- *)
(* lengths in the request that have 32-bit fields *)
Definition lengths_fit (c : client) : Prop :=
  N.of_nat (length (utf8_encode (o_file (c_opts c)))) < 4294967296 /\ forall s, o_set (c_opts c) = Some s -> N.of_nat (set_size s) < 4294967000.
Inductive contacts (bl : build) (ev : env) (st : settings) (log : list txn) : client -> list session -> client -> Prop :=
| co_nil c : contacts bl ev st log c [] c
  (* an attempt that fails before the event stream *)
| co_failed c cs e w' xs c2 : replicate bl ev st (World c cs []) = (Err e, w') -> contacts bl ev st log (w_client w') xs c2 -> contacts bl ev st log c xs c2
  (* the server reads the set in the last packet sent to it, and writes what is not in it; n bytes of that arrive;
     the program takes some of the events that arrive and commits each *)
| co_stream c cs ck w' ps p r is its pk w2 n evs s c' xs c2 :
    lengths_fit c -> replicate bl ev st (World c cs []) = (Ok ck, w') ->
    sent (w_log w') = ps ++ [(p, 0)] -> srv_dump_gtid p = Some r ->
    Forall item_ok is -> missing (srv_has (sg_set r)) log (stream_txns is) -> log_sent (Writer ck []) (stream_events is) its pk w2 ->
    flowing (w_in w') -> in_bytes (w_in w') = firstn n (flat_map wire pk) ->
    takes bl (stream_new (w_in w') ck) (map inl evs) s -> commit_all bl (w_client w') evs = Ok c' ->
    contacts bl ev st log c' xs c2 -> contacts bl ev st log c (Session is (length evs) :: xs) c2.

(* ---- the same events in a binlog file: headers and what the server writes, the length of the event in the header ---- *)
Inductive file_written : writer -> list hev -> list (header * list byte) -> writer -> Prop :=
| fw_nil w : file_written w [] [] w
| fw_event w h e bs w1 es fs w2 : header_ok h -> h_length h = 19 + N.of_nat (length bs) -> writes w (h, e) bs w1 -> file_written w1 es fs w2 ->
    file_written w ((h, e) :: es) ((h, bs) :: fs) w2.
