(* BinlogClient::replicate: src/connect.rs, src/configure.rs, src/providers/*/..._provider.rs, src/binlog_client.rs *)
From Coq Require Import Strings.String.
From Verif Require Import Base.Tac Base.Bytes Base.Text Base.Res Base.Str Base.Parse Model.Codec Model.Gtid Model.GtidMaria Model.Events Model.Client
  Model.Commands Model.Responses Model.Channel.
Local Open Scope N_scope.

(* ssl_mode.rs *)
Inductive ssl_mode := Disabled | IfAvailable | Require | RequireVerifyCa | RequireVerifyFull.
Definition ssl_code (m : ssl_mode) : N :=
  match m with Disabled => 0 | IfAvailable => 1 | Require => 2 | RequireVerifyCa => 3 | RequireVerifyFull => 4 end.

(* replica_options.rs:6-42 without host, port and the binlog part, which is in [client]; intervals in nanoseconds *)
Record settings := Settings {
  s_ssl : ssl_mode; s_user : text; s_password : text; s_database : option text; s_server_id : N; s_blocking : bool; s_heartbeat : N }.
(* What is not the library's: hash and RSA functions, the iteration order of a hash map *)
Record env := Env { e_crypto : crypto; e_order : gtid_set -> gtid_set }.

(* The connection: what the server still sends, and what has happened so far, in order. *)
Inductive io := Sent (packet : list byte) (seq : N) | Received (packet : list byte) (seq : N).
Record world := World { w_client : client; w_in : list portion; w_log : list io }.

(* a computation with the client and the connection *)
Definition act (A : Type) := world -> res A * world.
Definition aret {A} (a : A) : act A := fun w => (Ok a, w).
Definition alift {A} (r : res A) : act A := fun w => (r, w).
Definition abind {A B} (p : act A) (f : A -> act B) : act B :=
  fun w => match p w with
           | (Ok a, w') => f a w'
           | (Err e, w') => (Err e, w')
           | (Panic, w') => (Panic, w')
           | (Diverge, w') => (Diverge, w')
           end.
Notation "x <== p ;; q" := (abind p (fun x => q))
  (at level 100, p at next level, right associativity).

(* packet_channel.rs:21-32 *)
Definition a_read : act (list byte * N) :=
  fun w => match read_packet (w_in w) with
           | (Ok (p, s), cs) => (Ok (p, s), World (w_client w) cs (w_log w ++ [Received p s]))
           | (r, cs) => (r, World (w_client w) cs (w_log w))
           end.
(* packet_channel.rs:34-40, for an operating system that takes every packet as a whole (see C56) *)
Definition a_write (packet : list byte) (seq : N) : act unit :=
  fun w => if 16777216 <=? N.of_nat (length packet) mod u32max1 then (Panic, w)
           else (Ok tt, World (w_client w) (w_in w) (w_log w ++ [Sent packet seq])).
Definition a_client : act client := fun w => (Ok (w_client w), w).
Definition a_set_client (c : client) : act unit := fun w => (Ok tt, World c (w_in w) (w_log w)).

(* constants/mod.rs:13 *)
Definition utf8_mb4_general_ci : N := 45.
Definition plugin_unsupported (name : text) : text := name ++ tx " auth plugin is not supported.".
(* connect.rs:158-167 *)
Definition get_auth_plugin (name : text) : res auth_plugin :=
  if text_eqb name native_name then Ok NativePassword
  else if text_eqb name caching_name then Ok CachingSha2
  else Err (EString (plugin_unsupported name)).

(* connect.rs:110-156 *)
Definition authenticate_sha_256 (bl : build) (ev : env) (st : settings) (packet : list byte) (scramble : text) (seq : N) (use_ssl : bool) : act unit :=
  b0 <== alift (byte_at packet 0) ;;
  done <== (if b0 =? 1 then b1 <== alift (byte_at packet 1) ;; aret (b1 =? 3) else aret false) ;;
  if (done : bool) then aret tt
  else
    let password := utf8_encode (s_password st) ++ [n2b 0] in
    if use_ssl then
      _ <== a_write password seq ;;
      r <== a_read ;;
      alift (check_error_packet (fst r) (tx "Sending clear password error."))
    else
      _ <== a_write [n2b 2] seq ;;
      r <== a_read ;;
      _ <== alift (check_error_packet (fst r) (tx "Requesting caching_sha2_password public key.")) ;;
      let key := skipn 1 (fst r) in
      x <== alift (xor_bytes password (utf8_encode scramble)) ;;
      e <== alift (rsa (e_crypto ev) key x) ;;
      s <== alift (uadd 256 bl (snd r) 1) ;;
      _ <== a_write e s ;;
      r <== a_read ;;
      alift (check_error_packet (fst r) (tx "Authentication error.")).

(* connect.rs:80-108 *)
Definition handle_switch (bl : build) (ev : env) (st : settings) (sw : text * text) (seq : N) (use_ssl : bool) : act unit :=
  p <== alift (get_auth_plugin (fst sw)) ;;
  c <== alift (auth_switch_command (e_crypto ev) (s_password st) (snd sw) p) ;;
  _ <== a_write c seq ;;
  r <== a_read ;;
  _ <== alift (check_error_packet (fst r) (tx "Authentication switch error.")) ;;
  if text_eqb (fst sw) caching_name then
    s <== alift (uadd 256 bl (snd r) 1) ;;
    authenticate_sha_256 bl ev st (fst r) (snd sw) s use_ssl
  else aret tt.

Definition no_ssl : text := tx "The server doesn't support SSL encryption".
(* connect.rs:30-78; upgrade_to_ssl is unimplemented!() *)
Definition authenticate (bl : build) (ev : env) (st : settings) (hs : handshake) (p : auth_plugin) (seq : N) : act unit :=
  _ <== (if ssl_code (s_ssl st) =? 0 then aret tt
        else if N.land (hs_capabilities hs) cap_ssl =? 0 then
          if 2 <=? ssl_code (s_ssl st) then alift (Err (EString no_ssl)) else aret tt
        else
          _ <== a_write (ssl_request_command utf8_mb4_general_ci) seq ;;
          _ <== alift (uadd 256 bl seq 1) ;;
          alift Panic) ;;
  c <== alift (authenticate_command (e_crypto ev) (s_user st) (s_password st) (s_database st) (hs_scramble hs) p (hs_plugin hs) utf8_mb4_general_ci) ;;
  _ <== a_write c seq ;;
  r <== a_read ;;
  _ <== alift (check_error_packet (fst r) (tx "Authentication error.")) ;;
  b <== alift (byte_at (fst r) 0) ;;
  if b =? resp_ok then aret tt
  else if b =? resp_switch then
    sw <== alift (parse_auth_switch (skipn 1 (fst r))) ;;
    s <== alift (uadd 256 bl (snd r) 1) ;;
    handle_switch bl ev st sw s false
  else
    s <== alift (uadd 256 bl (snd r) 1) ;;
    authenticate_sha_256 bl ev st (fst r) (hs_scramble hs) s false.

(* connect.rs:19-28; opening the connection (packet_channel.rs:13-19) is in Model/Open.v *)
Definition connect (bl : build) (ev : env) (st : settings) : act provider :=
  r <== a_read ;;
  _ <== alift (check_error_packet (fst r) (tx "Initial handshake error.")) ;;
  hs <== alift (parse_handshake (fst r)) ;;
  p <== alift (get_auth_plugin (hs_plugin hs)) ;;
  s <== alift (uadd 256 bl (snd r) 1) ;;
  _ <== authenticate bl ev st hs p s ;;
  aret (provider_from (hs_version hs)).

(* packet_channel.rs:16 with TIMEOUT_LATENCY_DELTA (constants/mod.rs:22): nanoseconds; Duration + Duration panics on overflow of
   the u64 seconds *)
Definition nanos : N := 1000000000.
Definition read_timeout (heartbeat : N) : res N :=
  let t := heartbeat + 10 * nanos in if t / nanos <? u64max1 then Ok t else Panic.

(* configure.rs:67-92: the loop skipping column definitions; [fuel]: every round takes a packet from the connection *)
Fixpoint skip_columns (fuel : nat) : act unit :=
  match fuel with
  | O => alift Diverge
  | S f =>
    r <== a_read ;;
    b <== alift (byte_at (fst r) 0) ;;
    if b =? resp_eof then aret tt else skip_columns f
  end.
Fixpoint read_rows (fuel : nat) (acc : list (list text)) : act (list (list text)) :=
  match fuel with
  | O => alift Diverge
  | S f =>
    r <== a_read ;;
    _ <== alift (check_error_packet (fst r) (tx "Query result set error.")) ;;
    b <== alift (byte_at (fst r) 0) ;;
    if b =? resp_eof then aret acc
    else
      row <== alift (parse_row_packet (fst r)) ;;
      read_rows f (acc ++ [row])
  end.
(* every packet has at least four bytes *)
Definition in_size (cs : list portion) : nat :=
  S (length (flat_map (fun c => match c with Got bs => bs | _ => [] end) cs) + length cs).
Definition read_result_set : act (list (list text)) :=
  r <== a_read ;;
  _ <== alift (check_error_packet (fst r) (tx "Reading result set error.")) ;;
  _ <== (fun w => skip_columns (in_size (w_in w)) w) ;;
  (fun w => read_rows (in_size (w_in w)) [] w).

(* configure.rs:12-35 *)
Definition no_position : text := tx "Could not read master binlog position.".
Definition adjust_starting_position : act unit :=
  c <== a_client ;;
  if negb (strategy_eqb (o_strategy (c_opts c)) FromEnd) then aret tt
  else match o_file (c_opts c) with
  | _ :: _ => aret tt
  | [] =>
    _ <== a_write (query_command (tx "show master status")) 0 ;;
    rows <== read_result_set ;;
    match rows with
    | [row] =>
      match row with
      | [] => alift Panic                                                  (* cells[0] *)
      | file :: r =>
        (* the file name is stored before the position is read *)
        _ <== a_set_client (Client (with_coords (c_opts c) file (o_pos (c_opts c))) (c_txn c) (c_maria c) (c_mysql c)) ;;
        match r with
        | [] => alift Panic                                                (* cells[1] *)
        | p :: _ =>
          pos <== alift (parse_uint u32max1 p) ;;
          a_set_client (Client (with_coords (c_opts c) file pos) (c_txn c) (c_maria c) (c_mysql c))
        end
      end
    | _ => alift (Err (EString no_position))
    end
  end.

(* a statement whose only answer is checked for an error *)
Definition statement (sql : text) (message : text) : act unit :=
  _ <== a_write (query_command sql) 0 ;;
  r <== a_read ;;
  alift (check_error_packet (fst r) message).

(* configure.rs:37-46; as_millis truncates *)
Definition heartbeat_period (heartbeat : N) : N := heartbeat / 1000000 * 1000 * 1000.
Definition heartbeat_sql (heartbeat : N) : text := tx "set @master_heartbeat_period=" ++ dec_text (heartbeat_period heartbeat).
Definition set_master_heartbeat (st : settings) : act unit :=
  statement (heartbeat_sql (s_heartbeat st)) (tx "Setting master heartbeat error.").

(* configure.rs:48-65 *)
Definition set_master_binlog_checksum : act checksum :=
  _ <== statement (tx "SET @master_binlog_checksum= @@global.binlog_checksum") (tx "Setting master_binlog_checksum error.") ;;
  _ <== a_write (query_command (tx "SELECT @master_binlog_checksum")) 0 ;;
  rows <== read_result_set ;;
  match rows with
  | (name :: _) :: _ => alift (checksum_from_name name)
  | _ => alift Panic                                                        (* result_set[0].cells[0] *)
  end.

(* providers/mysql/mysql_provider.rs:8-33 *)
Definition no_gtid_set : text := tx "GtidSet was not specified".
Definition replicate_mysql (bl : build) (ev : env) (server_id : N) : act unit :=
  c <== a_client ;;
  let o := c_opts c in
  if strategy_eqb (o_strategy o) FromGtid then
    match o_set o with
    | Some s =>
      p <== alift (dump_gtid_command bl server_id (o_file o) (o_pos o) (e_order ev s)) ;;
      a_write p 0
    | None => alift (Err (EString no_gtid_set))
    end
  else a_write (dump_command server_id (o_file o) (o_pos o)) 0.

(* providers/mariadb/mariadb_provider.rs:37-62 *)
Definition connect_state_sql (l : gtid_list) : text := tx "SET @slave_connect_state='" ++ gtid_list_text l ++ tx "'".
Definition register_gtid_slave (server_id : N) (l : gtid_list) : act unit :=
  _ <== statement (connect_state_sql l) (tx "Setting @slave_connect_state error.") ;;
  _ <== statement (tx "SET @slave_gtid_strict_mode=0") (tx "Setting @slave_gtid_strict_mode error.") ;;
  _ <== statement (tx "SET @slave_gtid_ignore_duplicates=0") (tx "Setting @slave_gtid_ignore_duplicates error.") ;;
  _ <== a_write (register_command server_id) 0 ;;
  r <== a_read ;;
  alift (check_error_packet (fst r) (tx "Registering slave error.")).
(* mariadb_provider.rs:10-35 *)
Definition no_gtid_list : text := tx "GtidList was not specified".
Definition replicate_mariadb (st : settings) (server_id : N) : act unit :=
  _ <== statement (tx "SET @mariadb_slave_capability=4") (tx "Setting @mariadb_slave_capability error.") ;;
  c <== a_client ;;
  let o := c_opts c in
  _ <== (if strategy_eqb (o_strategy o) FromGtid then
          match o_list o with
          | Some l => register_gtid_slave (s_server_id st) l
          | None => alift (Err (EString no_gtid_list))
          end
        else aret tt) ;;
  a_write (dump_command server_id (o_file o) (o_pos o)) 0.

(* binlog_client.rs:37-61; the result is the checksum type of the BinlogEvents, which goes on with the same connection *)
Definition replicate (bl : build) (ev : env) (st : settings) : act checksum :=
  pr <== connect bl ev st ;;
  c <== a_client ;;
  _ <== a_set_client (client_reset c) ;;
  _ <== adjust_starting_position ;;
  _ <== set_master_heartbeat st ;;
  ck <== set_master_binlog_checksum ;;
  let server_id := if s_blocking st then s_server_id st else 0 in
  _ <== match pr with
       | MariaDB => replicate_mariadb st server_id
       | MySQL => replicate_mysql bl ev server_id
       end ;;
  aret ck.
