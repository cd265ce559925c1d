(* What replication streams look like, and what "completely received" means. *)
From Coq Require Import Strings.String.
From Verif Require Import Base.Tac Base.Bytes Base.Text Base.Res Base.Str Model.Gtid Model.GtidMaria Model.TableMap Model.Rows Model.Events Model.Client
  Spec.GtidSpec.
Local Open Scope N_scope.

Notation hev := (header * event)%type.

(* ---- kinds of events ---- *)
(* statement that opens a transaction *)
Definition is_begin (e : event) : bool :=
  match e with EvQuery q => text_eqb (q_sql q) (tx "BEGIN") | _ => false end.
(* event that ends a transaction: Xid, or the statements COMMIT and ROLLBACK *)
Definition is_end (e : event) : bool :=
  match e with
  | EvXid _ => true
  | EvQuery q => text_eqb (q_sql q) (tx "COMMIT") || text_eqb (q_sql q) (tx "ROLLBACK")
  | _ => false
  end.
Definition is_gtid (e : event) : bool := match e with EvMySqlGtid _ | EvMariaGtid _ => true | _ => false end.
(* any other statement *)
Definition is_statement (e : event) : bool :=
  match e with
  | EvQuery q => match q_sql q with [] => false | _ => negb (is_begin e) && negb (is_end e) end
  | _ => false
  end.
(* neither statement nor end nor GTID marker: rows, table maps, variables, format descriptions, rotations, ... *)
Definition is_data (e : event) : bool := negb (is_begin e) && negb (is_end e) && negb (is_gtid e) && negb (is_statement e).

(* ---- a MySQL transaction in the binlog ---- *)
Inductive txn :=
(* GTID, BEGIN, anything but an end, end *)
| TBlock (hg : header) (g : mysql_gtid_event) (pre : list hev) (b : hev) (body : list hev) (e : hev)
(* GTID, one auto-committed statement (DDL), possibly preceded by its variables *)
| TAuto (hg : header) (g : mysql_gtid_event) (pre : list hev) (q : hev).
Definition txn_ok (t : txn) : Prop :=
  match t with
  | TBlock _ _ pre b body e =>
    Forall (fun x => is_data (snd x) = true) pre /\ is_begin (snd b) = true /\
    Forall (fun x => is_end (snd x) = false /\ is_gtid (snd x) = false) body /\ is_end (snd e) = true
  | TAuto _ _ pre q => Forall (fun x => is_data (snd x) = true) pre /\ is_statement (snd q) = true
  end.
Definition txn_gtid (t : txn) : gtid := match t with TBlock _ g _ _ _ _ | TAuto _ g _ _ => me_gtid g end.
Definition txn_events (t : txn) : list hev :=
  match t with
  | TBlock hg g pre b body e => (hg, EvMySqlGtid g) :: pre ++ b :: body ++ [e]
  | TAuto hg g pre q => (hg, EvMySqlGtid g) :: pre ++ [q]
  end.

(* ---- a stream: transactions and events between them ---- *)
Inductive item := Service (x : hev) | Txn (t : txn).
Definition item_ok (i : item) : Prop := match i with Service x => is_data (snd x) = true | Txn t => txn_ok t end.
Definition item_events (i : item) : list hev := match i with Service x => [x] | Txn t => txn_events t end.
Definition stream_events (is : list item) : list hev := flat_map item_events is.
Definition item_txns (i : item) : list txn := match i with Service _ => [] | Txn t => [t] end.
Definition stream_txns (is : list item) : list txn := flat_map item_txns is.

(* the transactions that lie completely within the first k events *)
Fixpoint completed (k : nat) (is : list item) : list txn :=
  match is with
  | [] => []
  | i :: r => if (k <? length (item_events i))%nat then [] else item_txns i ++ completed (k - length (item_events i)) r
  end.

(* GTIDs as decoded from the stream: 16-byte id printed by Uuid::new, number below 2^64-1 *)
Definition stream_gtid_ok (g : gtid) : Prop :=
  g_source g = uuid_new (udata (g_source g)) /\ length (udata (g_source g)) = 16%nat /\ g_txn g < 18446744073709551615.

(* ---- MariaDB event groups ---- *)
Inductive group :=
(* GTID without the STANDALONE flag; events; end *)
| GBlock (hg : header) (g : maria_gtid_event) (body : list hev) (e : hev)
(* GTID with the STANDALONE flag and one statement, possibly preceded by its variables *)
| GAlone (hg : header) (g : maria_gtid_event) (pre : list hev) (q : hev).
(* row-based groups: only data events before the end *)
Definition group_rows_ok (t : group) : Prop :=
  match t with
  | GBlock _ g body e => Forall (fun x => is_data (snd x) = true) body /\ is_end (snd e) = true
  | GAlone _ g pre q => Forall (fun x => is_data (snd x) = true) pre /\ is_statement (snd q) = true
  end.
(* all groups a MariaDB server writes: statements may occur before the end *)
Definition group_ok (t : group) : Prop :=
  match t with
  | GBlock _ g body e => Forall (fun x => is_end (snd x) = false /\ is_gtid (snd x) = false) body /\ is_end (snd e) = true
  | GAlone _ g pre q => Forall (fun x => is_data (snd x) = true) pre /\ is_statement (snd q) = true
  end.
Definition group_gtid (t : group) : mgtid := match t with GBlock _ g _ _ | GAlone _ g _ _ => ma_gtid g end.
Definition group_events (t : group) : list hev :=
  match t with
  | GBlock hg g body e => (hg, EvMariaGtid g) :: body ++ [e]
  | GAlone hg g pre q => (hg, EvMariaGtid g) :: pre ++ [q]
  end.
Inductive mitem := MService (x : hev) | MGroup (t : group).
Definition mitem_ok (i : mitem) : Prop := match i with MService x => is_data (snd x) = true | MGroup t => group_rows_ok t end.
Definition mitem_events (i : mitem) : list hev := match i with MService x => [x] | MGroup t => group_events t end.
Definition mstream_events (is : list mitem) : list hev := flat_map mitem_events is.
Definition mitem_gtids (i : mitem) : list mgtid := match i with MService _ => [] | MGroup t => [group_gtid t] end.
Fixpoint mcompleted (k : nat) (is : list mitem) : list mgtid :=
  match is with
  | [] => []
  | i :: r => if (k <? length (mitem_events i))%nat then [] else mitem_gtids i ++ mcompleted (k - length (mitem_events i)) r
  end.
(* the last GTID of a domain in a list of GTIDs *)
Definition last_of_domain (d : N) (l : list mgtid) : option mgtid := find (fun g => mg_domain g =? d) (rev l).

(* ---- reconnecting in MySQL GTID mode ---- *)
(* (server id, number) of a transaction *)
Definition txn_id (t : txn) : list byte * N := (udata (g_source (txn_gtid t)), g_txn (txn_gtid t)).
Definition in_set (has : list byte -> N -> Prop) (t : txn) : Prop := has (fst (txn_id t)) (snd (txn_id t)).
(* txs = the transactions of the log that are not in the set, in log order *)
Inductive missing (has : list byte -> N -> Prop) : list txn -> list txn -> Prop :=
| missing_nil : missing has [] []
| missing_skip t l r : in_set has t -> missing has l r -> missing has (t :: l) r
| missing_send t l r : ~ in_set has t -> missing has l r -> missing has (t :: l) (t :: r).

(* one connection: what the server sent, and after how many events it broke *)
Record session := Session { se_items : list item; se_cut : nat }.
(* a client about to stream with the saved set s, in GTID mode *)
Definition restarted (s : gtid_set) (c : client) : Prop :=
  o_strategy (c_opts c) = FromGtid /\ c_txn c = false /\ o_set (c_opts c) = Some s.
(* connections one after the other; the set saved by one is the set requested by the next *)
Inductive connections (bl : build) (log : list txn) : gtid_set -> list session -> gtid_set -> Prop :=
| conn_nil s : connections bl log s [] s
| conn_cons s c x c' s1 rest s2 :
    restarted s c -> Forall item_ok (se_items x) -> missing (set_has s) log (stream_txns (se_items x)) ->
    commit_all bl c (firstn (se_cut x) (stream_events (se_items x))) = Ok c' -> o_set (c_opts c') = Some s1 ->
    connections bl log s1 rest s2 -> connections bl log s (x :: rest) s2.
(* completely delivered transactions, over all connections, in order *)
Definition delivered (xs : list session) : list txn := flat_map (fun x => completed (se_cut x) (se_items x)) xs.

(* ---- binlog coordinates ---- *)
(* the position an event announces, if any *)
Definition announced_pos (x : hev) : option N :=
  match snd x with
  | EvTableMap _ => None
  | EvRotate r => Some (ro_pos r)
  | _ => if 0 <? h_next (fst x) then Some (h_next (fst x)) else None
  end.
Definition announced_file (x : hev) : option text := match snd x with EvRotate r => Some (ro_file r) | _ => None end.

(* ---- a server's binlog files ---- *)
(* one event of a file: its size in bytes, its header apart from the position, and the event *)
Record entry := Entry { en_size : N; en_head : header; en_event : event }.
(* a located event: file, start position, end position *)
Record located := Located { lo_file : text; lo_start : N; lo_end : N; lo_head : header; lo_event : event }.
Definition lo_hev (l : located) : hev :=
  let h := lo_head l in (Header (h_timestamp h) (h_type h) (h_server h) (h_length h) (lo_end l) (h_flags h), lo_event l).
Definition is_table_map (e : event) : bool := match e with EvTableMap _ => true | _ => false end.
Definition is_rotate (e : event) : bool := match e with EvRotate _ => true | _ => false end.
(* the events of one file from position p on *)
Fixpoint locate (f : text) (p : N) (es : list entry) : list located :=
  match es with
  | [] => []
  | e :: r => Located f p (p + en_size e) (en_head e) (en_event e) :: locate f (p + en_size e) r
  end.
(* binlog files in order; every file but the last ends with a rotate event to the next file at position 4 *)
Record blfile := BlFile { bf_name : text; bf_entries : list entry }.
Definition rotate_to (size : N) (h : header) (name : text) : entry := Entry size h (EvRotate (Rotate name 4)).
Fixpoint locate_files (fs : list blfile) : list located :=
  match fs with
  | [] => []
  | f :: r => locate (bf_name f) 4 (bf_entries f) ++ locate_files r
  end.
(* all ordinary entries: positive size, no rotation, positions below 2^32 *)
Definition plain (e : entry) : Prop := 0 < en_size e /\ is_rotate (en_event e) = false.
Fixpoint files_ok (fs : list blfile) : Prop :=
  match fs with
  | [] => True
  | f :: r =>
    match r with
    | [] => Forall plain (bf_entries f)
    | g :: _ => exists es size h, bf_entries f = es ++ [rotate_to size h (bf_name g)] /\ Forall plain es /\ 0 < size
    end /\ files_ok r
  end.
Definition log_ok (fs : list blfile) : Prop :=
  files_ok fs /\ NoDup (map bf_name fs) /\ Forall (fun l => lo_end l < 4294967296) (locate_files fs).
(* the part of the log from coordinates (f, p) on *)
Fixpoint log_from (f : text) (p : N) (log : list located) : list located :=
  match log with
  | [] => []
  | l :: r => if text_eqb (lo_file l) f && (lo_start l =? p) then log else log_from f p r
  end.
(* what the server sends for the log part [todo]: the log events, and artificial events that do not come from a
   file: format descriptions and others with position 0, and - when the last log event was not a table map -
   rotate events and heartbeats announcing exactly the coordinates [f, p] of the next log event *)
Inductive sends : text -> N -> bool -> list located -> list hev -> nat -> Prop :=
| sends_stop f p tm todo : sends f p tm todo [] 0
| sends_log f p tm l todo es k :
    sends (match lo_event l with EvRotate r => ro_file r | _ => lo_file l end)
          (match lo_event l with EvRotate r => ro_pos r | _ => lo_end l end)
          (is_table_map (lo_event l)) todo es k ->
    sends f p tm (l :: todo) (lo_hev l :: es) (S k)
| sends_zero f p tm todo h e es k :
    h_next h = 0 -> is_rotate e = false -> sends f p tm todo es k -> sends f p tm todo ((h, e) :: es) k
| sends_rotate f p todo h es k :
    sends f p false todo es k -> sends f p false todo ((h, EvRotate (Rotate f p)) :: es) k
| sends_heartbeat f p todo h n es k :
    h_next h = p -> sends f p false todo es k -> sends f p false todo ((h, EvHeartbeat n) :: es) k.

(* connections one after the other, each starting at the coordinates saved by the one before; the result is the
   list of log events delivered by each, and the saved coordinates *)
Inductive reads (bl : build) (log : list located) : text -> N -> list (list located) -> text -> N -> Prop :=
| reads_nil f p : reads bl log f p [] f p
| reads_cons f p c es k c' ds f2 p2 :
    o_file (c_opts c) = f -> o_pos (c_opts c) = p ->
    sends f p false (log_from f p log) es k -> commit_all bl c es = Ok c' ->
    reads bl log (o_file (c_opts c')) (o_pos (c_opts c')) ds f2 p2 ->
    reads bl log f p (firstn k (log_from f p log) :: ds) f2 p2.

(* ---- row events and their table maps ---- *)
Definition map_id (e : event) : option N := match e with EvTableMap t => Some (tb_id t) | _ => None end.
Definition rows_table (e : event) : option N :=
  match e with EvWrite r | EvDelete r => Some (re_table r) | EvUpdate u => Some (ue_table u) | _ => None end.
(* every row event of this part of the log has its table map earlier in the same part *)
Definition maps_inside (part : list located) : Prop :=
  forall a x b t, part = a ++ x :: b -> rows_table (lo_event x) = Some t -> exists m, In m a /\ map_id (lo_event m) = Some t.
(* every row event has its table map in the run of table maps directly before it *)
Definition maps_adjacent (log : list located) : Prop :=
  forall a x b t, log = a ++ x :: b -> rows_table (lo_event x) = Some t ->
    exists a' ms m, a = a' ++ ms /\ Forall (fun l => is_table_map (lo_event l) = true) ms /\ In m ms /\ map_id (lo_event m) = Some t.

(* ---- MySQL XA transactions ---- *)
(* GTID; XA START; rows; XA END; XA_PREPARE (event type 38, which the library does not know) *)
Record xa := Xa { xa_head : header; xa_gtid : mysql_gtid_event; xa_start : hev; xa_body : list hev; xa_end : hev; xa_prepare : hev }.
Definition starts_with (p t : text) : Prop := exists r, t = p ++ r.
Definition query_starts (p : text) (e : event) : Prop := match e with EvQuery q => starts_with p (q_sql q) | _ => False end.
Definition xa_ok (x : xa) : Prop :=
  query_starts (tx "XA START ") (snd (xa_start x)) /\ Forall (fun y => is_data (snd y) = true) (xa_body x) /\
  query_starts (tx "XA END ") (snd (xa_end x)) /\ snd (xa_prepare x) = EvUnknown.
Definition xa_events (x : xa) : list hev := (xa_head x, EvMySqlGtid (xa_gtid x)) :: xa_start x :: xa_body x ++ [xa_end x; xa_prepare x].
