(* Binlog event payloads as the server writes them (MySQL internals manual; MariaDB knowledge base). *)
From Verif Require Import Base.Tac Base.Bytes Base.Text Base.Res Model.Gtid Model.GtidMaria Model.Events Spec.CodecSpec.
Local Open Scope N_scope.

Definition u8 (n : N) : Prop := n < 256.
Definition u16 (n : N) : Prop := n < 65536.
Definition u32 (n : N) : Prop := n < 4294967296.
Definition u64 (n : N) : Prop := n < 18446744073709551616.

(* the 19-byte event header *)
Definition header_bytes (h : header) : list byte :=
  le_enc 4 (h_timestamp h) ++ le_enc 1 (h_type h) ++ le_enc 4 (h_server h) ++ le_enc 4 (h_length h) ++
  le_enc 4 (h_next h) ++ le_enc 2 (h_flags h).
Definition header_ok (h : header) : Prop :=
  u32 (h_timestamp h) /\ u8 (h_type h) /\ u32 (h_server h) /\ u32 (h_length h) /\ u32 (h_next h) /\ u16 (h_flags h).

(* what follows the header: the payload, and four checksum bytes when checksums are on *)
Definition trailer_ok (ck : checksum) (crc : list byte) : Prop :=
  match ck with CkNone => crc = [] | CkCrc32 => length crc = 4%nat end.

(* service events: type code and payload *)
Definition rotate_bytes (r : rotate) : list byte := le_enc 8 (ro_pos r) ++ utf8_encode (ro_file r).
Definition rotate_ok (r : rotate) : Prop := u64 (ro_pos r) /\ valid_text (ro_file r).
Definition intvar_bytes (v : intvar) : list byte := le_enc 1 (iv_type v) ++ le_enc 8 (iv_value v).
Definition intvar_ok (v : intvar) : Prop := u8 (iv_type v) /\ u64 (iv_value v).
Definition query_bytes (q : query) : list byte :=
  le_enc 4 (q_thread q) ++ le_enc 4 (q_duration q) ++ le_enc 1 (N.of_nat (length (utf8_encode (q_database q)))) ++
  le_enc 2 (q_error q) ++ le_enc 2 (N.of_nat (length (q_status q))) ++ q_status q ++ utf8_encode (q_database q) ++
  [n2b 0] ++ utf8_encode (q_sql q).
Definition query_ok (q : query) : Prop :=
  u32 (q_thread q) /\ u32 (q_duration q) /\ u16 (q_error q) /\ u16 (N.of_nat (length (q_status q))) /\
  valid_text (q_database q) /\ u8 (N.of_nat (length (utf8_encode (q_database q)))) /\ valid_text (q_sql q).
(* a user variable holding text (or whatever bytes [v] are); NULL variables stop after the marker *)
Definition uservar_raw (name : text) (v : option (N * N * list byte * N)) : list byte :=
  le_enc 4 (N.of_nat (length (utf8_encode name))) ++ utf8_encode name ++
  match v with
  | None => [n2b 1]
  | Some (ty, co, bs, fl) => [n2b 0] ++ le_enc 1 ty ++ le_enc 4 co ++ le_enc 4 (N.of_nat (length bs)) ++ bs ++ le_enc 1 fl
  end.
Definition uservar_bytes (u : uservar) : list byte :=
  uservar_raw (uv_name u)
    (match uv_value u with
     | None => None
     | Some v => Some (vv_type v, vv_collation v, utf8_encode (vv_value v), vv_flags v)
     end).
Definition uservar_ok (u : uservar) : Prop :=
  valid_text (uv_name u) /\ u32 (N.of_nat (length (utf8_encode (uv_name u)))) /\
  match uv_value u with
  | None => True
  | Some v => u8 (vv_type v) /\ u32 (vv_collation v) /\ u8 (vv_flags v) /\ valid_text (vv_value v) /\
              u32 (N.of_nat (length (utf8_encode (vv_value v))))
  end.

Inductive service : event -> N -> list byte -> Prop :=
| sv_rotate r : rotate_ok r -> service (EvRotate r) 4 (rotate_bytes r)
| sv_xid x : u64 x -> service (EvXid x) 16 (le_enc 8 x)
| sv_intvar v : intvar_ok v -> service (EvIntVar v) 5 (intvar_bytes v)
| sv_heartbeat t : valid_text t -> service (EvHeartbeat t) 27 (utf8_encode t)
  (* the first byte holds the length when it fits, which the client skips *)
| sv_rows_query t b : valid_text t -> service (EvRowsQuery t) 29 (b :: utf8_encode t)
| sv_annotate t : valid_text t -> service (EvRowsQuery t) 160 (utf8_encode t)
| sv_query q : query_ok q -> service (EvQuery q) 2 (query_bytes q)
| sv_uservar u : uservar_ok u -> service (EvUserVar u) 14 (uservar_bytes u).

(* GTID events.  [more] are the fields newer servers append (timestamps, transaction length, ...) *)
Definition server_id (u : list byte) : Prop := length u = 16%nat.
Definition mysql_gtid_bytes (flags : N) (server : list byte) (n : N) (more : list byte) : list byte :=
  le_enc 1 flags ++ server ++ le_enc 8 n ++ more.
(* previous GTIDs: servers with half-open intervals [start, stop) *)
Definition prev_server := (list byte * list (N * N))%type.
Definition prev_interval_bytes (i : N * N) : list byte := le_enc 8 (fst i) ++ le_enc 8 (snd i).
Definition prev_server_bytes (s : prev_server) : list byte :=
  fst s ++ le_enc 8 (N.of_nat (length (snd s))) ++ flat_map prev_interval_bytes (snd s).
Definition prev_gtids_bytes (l : list prev_server) : list byte :=
  le_enc 8 (N.of_nat (length l)) ++ flat_map prev_server_bytes l.
Definition prev_server_ok (s : prev_server) : Prop :=
  server_id (fst s) /\ u64 (N.of_nat (length (snd s))) /\ Forall (fun i => 0 < fst i /\ fst i < snd i /\ u64 (snd i)) (snd s).
Definition prev_gtids_ok (l : list prev_server) : Prop :=
  u64 (N.of_nat (length l)) /\ Forall prev_server_ok l /\ NoDup (map fst l).
(* the transactions these intervals stand for *)
Definition prev_has (l : list prev_server) (u : list byte) (n : N) : Prop :=
  exists ivs s e, In (u, ivs) l /\ In (s, e) ivs /\ s <= n < e.

Definition maria_gtid_bytes (flags : N) (g : mgtid) (more : list byte) : list byte :=
  le_enc 8 (mg_seq g) ++ le_enc 4 (mg_domain g) ++ le_enc 1 flags ++ more.
(* the count has 28 bits, the upper four bits of the word are flags *)
Definition maria_list_bytes (flags : N) (l : list mgtid) : list byte :=
  le_enc 4 (N.of_nat (length l) + 268435456 * flags) ++
  flat_map (fun g => le_enc 4 (mg_domain g) ++ le_enc 4 (mg_server g) ++ le_enc 8 (mg_seq g)) l.
Definition mgtid_ok (g : mgtid) : Prop := u32 (mg_domain g) /\ u32 (mg_server g) /\ u64 (mg_seq g).

(* format description event: version, 50-byte server version, creation time, header length 19, then one
   byte per event type (post-header lengths); the entry of type 15 is the length 57 + n of this payload
   without checksum fields.  Servers since 5.6.1 append the checksum algorithm and four checksum bytes. *)
Record fde := Fde { f_version : N; f_server : text; f_created : N; f_lengths : list byte; f_alg : option N; f_crc : list byte }.
Definition fde_bytes (f : fde) : list byte :=
  le_enc 2 (f_version f) ++ (utf8_encode (f_server f) ++ repeat (n2b 0) (50 - length (utf8_encode (f_server f)))) ++
  le_enc 4 (f_created f) ++ [n2b 19] ++ f_lengths f ++
  match f_alg f with None => [] | Some a => le_enc 1 a end.
Definition fde_wire (f : fde) : list byte := fde_bytes f ++ match f_alg f with None => [] | Some _ => f_crc f end.
Definition fde_ok (f : fde) : Prop :=
  u16 (f_version f) /\ valid_text (f_server f) /\ ~ In 0 (f_server f) /\ (length (utf8_encode (f_server f)) <= 50)%nat /\
  (15 <= length (f_lengths f))%nat /\ u8 (57 + N.of_nat (length (f_lengths f))) /\
  nth_error (f_lengths f) 14 = Some (n2b (57 + N.of_nat (length (f_lengths f)))) /\
  match f_alg f with None => f_crc f = [] | Some a => a <= 1 /\ length (f_crc f) = 4%nat end.
Definition fde_checksum (f : fde) : checksum :=
  match f_alg f with Some 1 => CkCrc32 | _ => CkNone end.
