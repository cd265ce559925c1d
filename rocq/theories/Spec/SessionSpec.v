(* Setting up replication: what client and server exchange before the event stream starts. *)
From Coq Require Import Strings.String.
From Verif Require Import Base.Tac Base.Bytes Base.Text Base.Res Base.Str Model.Gtid Model.GtidMaria Model.Client Model.Responses Model.Channel Model.Session
  Spec.GtidSpec Spec.CodecSpec Spec.CommandSpec Spec.ChannelSpec.
Local Open Scope N_scope.

(* packets sent, with their sequence numbers *)
Definition sent (l : list io) : list packet := flat_map (fun x => match x with Sent p s => [(p, s)] | Received _ _ => [] end) l.
Definition got (p : packet) : io := Received (fst p) (snd p).
Definition starts_byte (b : N) (p : list byte) : Prop := exists d, p = n2b b :: d.

(* a connection on which, up to an optional time-out or the end, the packets [ps] and then the bytes [t] arrive *)
Definition pending (cs : list portion) (ps : list packet) (t : list byte) (rest : list portion) : Prop :=
  exists c, cs = c ++ rest /\ flowing c /\ in_bytes c = flat_map wire ps ++ t /\ Forall packet_ok ps.

(* ---- text result sets (MySQL protocol): column count; column definitions; EOF; rows; EOF ---- *)
Definition cell_bytes (c : option text) : list byte :=
  match c with
  | Some t => lenenc_short (N.of_nat (length (utf8_encode t))) ++ utf8_encode t
  | None => [n2b 0xFB]
  end.
Definition row_bytes (r : list (option text)) : list byte := flat_map cell_bytes r.
Definition not_byte (b : N) (p : list byte) : Prop := exists x d, p = x :: d /\ b2n x <> b.
Record result_set := ResultSet { rs_count : list byte; rs_columns : list (list byte); rs_eof : list byte; rs_rows : list (list (option text)); rs_end : list byte }.
Definition result_bodies (r : result_set) : list (list byte) :=
  [rs_count r] ++ rs_columns r ++ [n2b 0xFE :: rs_eof r] ++ map row_bytes (rs_rows r) ++ [n2b 0xFE :: rs_end r].
Definition result_ok (r : result_set) : Prop :=
  not_byte 0xFF (rs_count r) /\ Forall (not_byte 0xFE) (rs_columns r) /\
  Forall (fun row => row <> [] /\ Forall (fun c => match c with Some t => valid_text t | None => True end) row) (rs_rows r).

(* ---- a quoted SQL literal, read from after its opening quote: its value and what follows it.
   A doubled quote is a quote, a backslash escapes the next character. ---- *)
Fixpoint quoted (t : text) : option (text * text) :=
  match t with
  | [] => None
  | c :: r =>
    if c =? 39 then
      match r with
      | d :: r' => if d =? 39 then match quoted r' with Some (v, u) => Some (39 :: v, u) | None => None end else Some ([], r)
      | [] => Some ([], [])
      end
    else if c =? 92 then
      match r with
      | d :: r' => match quoted r' with Some (v, u) => Some (d :: v, u) | None => None end
      | [] => None
      end
    else match quoted r with Some (v, u) => Some (c :: v, u) | None => None end
  end.

(* ---- the documented set-up sequence ---- *)
Definition asks (sql : text) (p : list byte) : Prop := srv_query p = Some (utf8_encode sql).
(* the period in nanoseconds: the interval, rounded down to milliseconds *)
Definition asks_heartbeat (interval : N) (p : list byte) : Prop :=
  exists n, asks (tx "set @master_heartbeat_period=" ++ dec_text n) p /\ n <= interval < n + 1000000 /\ n mod 1000000 = 0.
Definition asks_position (o : options) (id : N) (p : list byte) : Prop :=
  srv_dump p = Some (o_pos o, 0, id, utf8_encode (o_file o)).
Definition asks_gtids (s : gtid_set) (o : options) (id : N) (p : list byte) : Prop :=
  exists r, srv_dump_gtid p = Some r /\ sg_id r = id /\ sg_name r = utf8_encode (o_file o) /\ sg_pos r = o_pos o /\
    forall d n, srv_has (sg_set r) d n <-> set_has s d n.
Definition registers (id : N) (p : list byte) : Prop := srv_register p = Some (SrvSlave id [] [] [] 0 0 0).

(* [o0]: options when replicate() is called; [o]: when the dump is requested *)
Definition plan (pr : provider) (st : settings) (o0 o : options) : list (list byte -> Prop) :=
  let id := if s_blocking st then s_server_id st else 0 in
  match o_strategy o0, o_file o0 with FromEnd, [] => [asks (tx "show master status")] | _, _ => [] end ++
  [asks_heartbeat (s_heartbeat st);
   asks (tx "SET @master_binlog_checksum= @@global.binlog_checksum");
   asks (tx "SELECT @master_binlog_checksum")] ++
  match pr with
  | MySQL => match o_strategy o, o_set o with
             | FromGtid, Some s => [asks_gtids s o id]
             | FromGtid, None => []
             | _, _ => [asks_position o id]
             end
  | MariaDB => [asks (tx "SET @mariadb_slave_capability=4")] ++
             match o_strategy o, o_list o with
             | FromGtid, Some l => [asks (tx "SET @slave_connect_state='" ++ gtid_list_text l ++ tx "'");
                                    asks (tx "SET @slave_gtid_strict_mode=0");
                                    asks (tx "SET @slave_gtid_ignore_duplicates=0");
                                    registers (s_server_id st); asks_position o id]
             | FromGtid, None => []
             | _, _ => [asks_position o id]
             end
  end.
(* what was sent follows the plan, as far as it got; every command starts a new sequence of packets (number 0) *)
Definition follows (ps : list packet) (pl : list (list byte -> Prop)) : Prop :=
  exists done left, pl = done ++ left /\ Forall2 (fun p (P : list byte -> Prop) => P (fst p) /\ snd p = 0) ps done.

(* In the login phase every packet sent answers the packet received just before, with the next sequence number *)
Definition in_turn (l : list io) : Prop :=
  forall a p s b, l = a ++ Sent p s :: b -> exists a' q n, a = a' ++ [Received q n] /\ s = (n + 1) mod 256.

(* [before] ends with a result set's column definitions *)
Definition in_columns (before : list io) : Prop :=
  exists a p s first rest, before = a ++ Sent p s :: map got (first :: rest) /\ Forall (fun q => ~ starts_byte 0xFE (fst q)) rest /\
    (asks (tx "show master status") p \/ asks (tx "SELECT @master_binlog_checksum") p).
(* nothing is sent or received after an error packet, and the result carries it *)
Definition stops {A} (l : list io) (r : res A) : Prop :=
  forall a e s b, l = a ++ Received e s :: b -> starts_byte 0xFF e -> ~ in_columns a ->
    b = [] /\ (exists x, r = Err x) /\
    forall code state msg, error_ok code state msg -> e = n2b 0xFF :: error_body code state msg -> exists m, r = Err (EServer m code msg state).

(* ---- what a server that accepts everything answers after the login ---- *)
Definition checksum_name (ck : Events.checksum) : text := match ck with Events.CkNone => tx "NONE" | Events.CkCrc32 => tx "CRC32" end.
(* packets [ps]; [o]: the options afterwards *)
Definition accepts (pr : provider) (o0 : options) (ps : list packet) (o : options) (ck : Events.checksum) : Prop :=
  exists status a1 a2 sums more rs,
    ps = status ++ [a1; a2] ++ sums ++ more /\
    match o_strategy o0, o_file o0 with
    | FromEnd, [] => exists s file pos cells, result_ok s /\ map fst status = result_bodies s /\ rs_rows s = [map Some (file :: dec_text pos :: cells)] /\
                     pos < 4294967296 /\ o = Options file pos (o_set o0) (o_list o0) (o_strategy o0)
    | _, _ => status = [] /\ o = o0
    end /\
    not_byte 0xFF (fst a1) /\ not_byte 0xFF (fst a2) /\
    result_ok rs /\ map fst sums = result_bodies rs /\ rs_rows rs = [[Some (checksum_name ck)]] /\
    Forall (fun p => not_byte 0xFF (fst p)) more /\
    length more = match pr with MySQL => 0 | MariaDB => match o_strategy o0 with FromGtid => 5 | _ => 1 end end%nat.
