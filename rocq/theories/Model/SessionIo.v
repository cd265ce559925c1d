(* BinlogClient::replicate over a connection whose writes fail, block or take only part of the bytes: the functions of
   [Model.Session] that write, again, with [Channel.write_packet] in place of a write that takes everything.  What does
   not write is taken from there. *)
From Coq Require Import Strings.String.
From Verif Require Import Base.Tac Base.Bytes Base.Text Base.Res Base.Str Base.Parse Model.Codec Model.Gtid Model.GtidMaria Model.Events Model.Client
  Model.Commands Model.Responses Model.Channel Model.Session.
Local Open Scope N_scope.

(* the operating system's answers to come, and the bytes it has taken *)
Record sock := Sock { k_world : world; k_os : list wrote; k_out : list byte }.
Definition io_act (A : Type) := sock -> res A * sock.
Definition io_ret {A} (a : A) : io_act A := fun x => (Ok a, x).
Definition io_lift {A} (r : res A) : io_act A := fun x => (r, x).
Definition io_bind {A B} (p : io_act A) (f : A -> io_act B) : io_act B :=
  fun x => match p x with
           | (Ok a, x') => f a x'
           | (Err e, x') => (Err e, x')
           | (Panic, x') => (Panic, x')
           | (Diverge, x') => (Diverge, x')
           end.
Notation "x <=! p ;; q" := (io_bind p (fun x => q))
  (at level 100, p at next level, right associativity).
(* a computation without writes *)
Definition io_of {A} (m : act A) : io_act A := fun x => let '(r, w) := m (k_world x) in (r, Sock w (k_os x) (k_out x)).
Definition io_read : io_act (list byte * N) := io_of a_read.
Definition io_client : io_act client := io_of a_client.
Definition io_set_client (c : client) : io_act unit := io_of (a_set_client c).
(* configure.rs:67-92 *)
Definition io_result_set : io_act (list (list text)) := io_of read_result_set.
(* packet_channel.rs:34-40; the packet is in the log when the call returned Ok *)
Definition io_write (packet : list byte) (seq : N) : io_act unit :=
  fun x => let '(r, bs, os) := write_packet packet seq (k_os x) in
           let w := k_world x in
           (r, Sock (match r with Ok _ => World (w_client w) (w_in w) (w_log w ++ [Sent packet seq]) | _ => w end) os (k_out x ++ bs)).

(* connect.rs:110-156 *)
Definition io_authenticate_sha_256 (bl : build) (ev : env) (st : settings) (packet : list byte) (scramble : text) (seq : N) (use_ssl : bool) : io_act unit :=
  b0 <=! io_lift (byte_at packet 0) ;;
  done <=! (if b0 =? 1 then b1 <=! io_lift (byte_at packet 1) ;; io_ret (b1 =? 3) else io_ret false) ;;
  if (done : bool) then io_ret tt
  else
    let password := utf8_encode (s_password st) ++ [n2b 0] in
    if use_ssl then
      _ <=! io_write password seq ;;
      r <=! io_read ;;
      io_lift (check_error_packet (fst r) (tx "Sending clear password error."))
    else
      _ <=! io_write [n2b 2] seq ;;
      r <=! io_read ;;
      _ <=! io_lift (check_error_packet (fst r) (tx "Requesting caching_sha2_password public key.")) ;;
      let key := skipn 1 (fst r) in
      x <=! io_lift (xor_bytes password (utf8_encode scramble)) ;;
      e <=! io_lift (rsa (e_crypto ev) key x) ;;
      s <=! io_lift (uadd 256 bl (snd r) 1) ;;
      _ <=! io_write e s ;;
      r <=! io_read ;;
      io_lift (check_error_packet (fst r) (tx "Authentication error.")).

(* connect.rs:80-108 *)
Definition io_handle_switch (bl : build) (ev : env) (st : settings) (sw : text * text) (seq : N) (use_ssl : bool) : io_act unit :=
  p <=! io_lift (get_auth_plugin (fst sw)) ;;
  c <=! io_lift (auth_switch_command (e_crypto ev) (s_password st) (snd sw) p) ;;
  _ <=! io_write c seq ;;
  r <=! io_read ;;
  _ <=! io_lift (check_error_packet (fst r) (tx "Authentication switch error.")) ;;
  if text_eqb (fst sw) caching_name then
    s <=! io_lift (uadd 256 bl (snd r) 1) ;;
    io_authenticate_sha_256 bl ev st (fst r) (snd sw) s use_ssl
  else io_ret tt.

(* connect.rs:30-78; upgrade_to_ssl is unimplemented!() *)
Definition io_authenticate (bl : build) (ev : env) (st : settings) (hs : handshake) (p : auth_plugin) (seq : N) : io_act unit :=
  _ <=! (if ssl_code (s_ssl st) =? 0 then io_ret tt
        else if N.land (hs_capabilities hs) cap_ssl =? 0 then
          if 2 <=? ssl_code (s_ssl st) then io_lift (Err (EString no_ssl)) else io_ret tt
        else
          _ <=! io_write (ssl_request_command utf8_mb4_general_ci) seq ;;
          _ <=! io_lift (uadd 256 bl seq 1) ;;
          io_lift Panic) ;;
  c <=! io_lift (authenticate_command (e_crypto ev) (s_user st) (s_password st) (s_database st) (hs_scramble hs) p (hs_plugin hs) utf8_mb4_general_ci) ;;
  _ <=! io_write c seq ;;
  r <=! io_read ;;
  _ <=! io_lift (check_error_packet (fst r) (tx "Authentication error.")) ;;
  b <=! io_lift (byte_at (fst r) 0) ;;
  if b =? resp_ok then io_ret tt
  else if b =? resp_switch then
    sw <=! io_lift (parse_auth_switch (skipn 1 (fst r))) ;;
    s <=! io_lift (uadd 256 bl (snd r) 1) ;;
    io_handle_switch bl ev st sw s false
  else
    s <=! io_lift (uadd 256 bl (snd r) 1) ;;
    io_authenticate_sha_256 bl ev st (fst r) (hs_scramble hs) s false.

(* connect.rs:19-28; opening the connection (packet_channel.rs:13-19) is in Model/Open.v *)
Definition io_connect (bl : build) (ev : env) (st : settings) : io_act provider :=
  r <=! io_read ;;
  _ <=! io_lift (check_error_packet (fst r) (tx "Initial handshake error.")) ;;
  hs <=! io_lift (parse_handshake (fst r)) ;;
  p <=! io_lift (get_auth_plugin (hs_plugin hs)) ;;
  s <=! io_lift (uadd 256 bl (snd r) 1) ;;
  _ <=! io_authenticate bl ev st hs p s ;;
  io_ret (provider_from (hs_version hs)).

(* configure.rs:12-35 *)
Definition io_adjust_starting_position : io_act unit :=
  c <=! io_client ;;
  if negb (strategy_eqb (o_strategy (c_opts c)) FromEnd) then io_ret tt
  else match o_file (c_opts c) with
  | _ :: _ => io_ret tt
  | [] =>
    _ <=! io_write (query_command (tx "show master status")) 0 ;;
    rows <=! io_result_set ;;
    match rows with
    | [row] =>
      match row with
      | [] => io_lift Panic                                                  (* cells[0] *)
      | file :: r =>
        (* the file name is stored before the position is read *)
        _ <=! io_set_client (Client (with_coords (c_opts c) file (o_pos (c_opts c))) (c_txn c) (c_maria c) (c_mysql c)) ;;
        match r with
        | [] => io_lift Panic                                                (* cells[1] *)
        | p :: _ =>
          pos <=! io_lift (parse_uint u32max1 p) ;;
          io_set_client (Client (with_coords (c_opts c) file pos) (c_txn c) (c_maria c) (c_mysql c))
        end
      end
    | _ => io_lift (Err (EString no_position))
    end
  end.

(* a statement whose only answer is checked for an error *)
Definition io_statement (sql : text) (message : text) : io_act unit :=
  _ <=! io_write (query_command sql) 0 ;;
  r <=! io_read ;;
  io_lift (check_error_packet (fst r) message).

(* configure.rs:37-46 *)
Definition io_set_master_heartbeat (st : settings) : io_act unit :=
  io_statement (heartbeat_sql (s_heartbeat st)) (tx "Setting master heartbeat error.").

(* configure.rs:48-65 *)
Definition io_set_master_binlog_checksum : io_act checksum :=
  _ <=! io_statement (tx "SET @master_binlog_checksum= @@global.binlog_checksum") (tx "Setting master_binlog_checksum error.") ;;
  _ <=! io_write (query_command (tx "SELECT @master_binlog_checksum")) 0 ;;
  rows <=! io_result_set ;;
  match rows with
  | (name :: _) :: _ => io_lift (checksum_from_name name)
  | _ => io_lift Panic                                                        (* result_set[0].cells[0] *)
  end.

(* providers/mysql/mysql_provider.rs:8-33 *)
Definition io_replicate_mysql (bl : build) (ev : env) (server_id : N) : io_act unit :=
  c <=! io_client ;;
  let o := c_opts c in
  if strategy_eqb (o_strategy o) FromGtid then
    match o_set o with
    | Some s =>
      p <=! io_lift (dump_gtid_command bl server_id (o_file o) (o_pos o) (e_order ev s)) ;;
      io_write p 0
    | None => io_lift (Err (EString no_gtid_set))
    end
  else io_write (dump_command server_id (o_file o) (o_pos o)) 0.

(* providers/mariadb/mariadb_provider.rs:37-62 *)
Definition io_register_gtid_slave (server_id : N) (l : gtid_list) : io_act unit :=
  _ <=! io_statement (connect_state_sql l) (tx "Setting @slave_connect_state error.") ;;
  _ <=! io_statement (tx "SET @slave_gtid_strict_mode=0") (tx "Setting @slave_gtid_strict_mode error.") ;;
  _ <=! io_statement (tx "SET @slave_gtid_ignore_duplicates=0") (tx "Setting @slave_gtid_ignore_duplicates error.") ;;
  _ <=! io_write (register_command server_id) 0 ;;
  r <=! io_read ;;
  io_lift (check_error_packet (fst r) (tx "Registering slave error.")).
(* mariadb_provider.rs:10-35 *)
Definition io_replicate_mariadb (st : settings) (server_id : N) : io_act unit :=
  _ <=! io_statement (tx "SET @mariadb_slave_capability=4") (tx "Setting @mariadb_slave_capability error.") ;;
  c <=! io_client ;;
  let o := c_opts c in
  _ <=! (if strategy_eqb (o_strategy o) FromGtid then
          match o_list o with
          | Some l => io_register_gtid_slave (s_server_id st) l
          | None => io_lift (Err (EString no_gtid_list))
          end
        else io_ret tt) ;;
  io_write (dump_command server_id (o_file o) (o_pos o)) 0.

(* binlog_client.rs:37-61; the result is the checksum type of the BinlogEvents, which goes on with the same connection *)
Definition io_replicate (bl : build) (ev : env) (st : settings) : io_act checksum :=
  pr <=! io_connect bl ev st ;;
  c <=! io_client ;;
  _ <=! io_set_client (client_reset c) ;;
  _ <=! io_adjust_starting_position ;;
  _ <=! io_set_master_heartbeat st ;;
  ck <=! io_set_master_binlog_checksum ;;
  let server_id := if s_blocking st then s_server_id st else 0 in
  _ <=! match pr with
       | MariaDB => io_replicate_mariadb st server_id
       | MySQL => io_replicate_mysql bl ev server_id
       end ;;
  io_ret ck.
