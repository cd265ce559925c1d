(* Packets sent by the client: src/commands/*.rs, and the password functions of src/extensions.rs.
   Writing to a Cursor<&mut Vec<u8>> never fails, so the serializers return their bytes. *)
From Coq Require Import Strings.String.
From Verif Require Import Base.Tac Base.Bytes Base.Text Base.Res Base.Str Model.Codec Model.Gtid.
Local Open Scope N_scope.

(* commands/command_type.rs:7,22-25 *)
Definition cmd_query : N := 3.
Definition cmd_binlog_dump : N := 18.
Definition cmd_register_slave : N := 21.
Definition cmd_binlog_dump_gtid : N := 30.

(* constants/capability_flags.rs *)
Definition cap_long_flag : N := 4.
Definition cap_connect_with_db : N := 8.
Definition cap_protocol_41 : N := 512.
Definition cap_ssl : N := 2048.
Definition cap_secure_connection : N := 32768.
Definition cap_plugin_auth : N := 524288.

(* commands/query_command.rs:16-24 *)
Definition query_command (sql : text) : list byte := n2b cmd_query :: utf8_encode sql.

(* commands/dump_binlog_command.rs:15-35 *)
Definition dump_command (server_id : N) (file : text) (pos : N) : list byte :=
  [n2b cmd_binlog_dump] ++ le_enc 4 pos ++ le_enc 2 0 ++ le_enc 4 server_id ++ utf8_encode file.

(* commands/register_slave_command.rs:17-33 *)
Definition register_command (server_id : N) : list byte :=
  [n2b cmd_register_slave] ++ le_enc 4 server_id ++ [n2b 0] ++ [n2b 0] ++ [n2b 0] ++ le_enc 2 0 ++ le_enc 4 0 ++ le_enc 4 0.

(* dump_binlog_gtid_command.rs:54-57: one uuid set's intervals; `interval.end + 1` is checked u64 arithmetic *)
Fixpoint dump_intervals (bl : build) (ivs : list interval) : res (list byte) :=
  match ivs with
  | [] => Ok []
  | i :: r =>
    let? e := uadd u64max1 bl (iend i) 1 in
    let? bs := dump_intervals bl r in
    Ok (le_enc 8 (istart i) ++ le_enc 8 e ++ bs)
  end.
(* dump_binlog_gtid_command.rs:50-58 *)
Fixpoint dump_sets (bl : build) (order : gtid_set) : res (list byte) :=
  match order with
  | [] => Ok []
  | e :: r =>
    let us := snd e in
    let? ivs := dump_intervals bl (us_ivs us) in
    let? bs := dump_sets bl r in
    Ok (udata (us_source us) ++ le_enc 8 (N.of_nat (length (us_ivs us))) ++ ivs ++ bs)
  end.
(* dump_binlog_gtid_command.rs:40-45 (usize; does not overflow for sets that fit in memory) *)
Definition dump_data_length (order : gtid_set) : N :=
  fold_left (fun n e => n + 16 + 8 + N.of_nat (length (us_ivs (snd e))) * (8 + 8)) order 8.
(* dump_binlog_gtid_command.rs:25-61.  [order]: the entries as the hash map's iterator yields them; the map is not
   changed between the two loops, so both see the same order. `as u32` truncates (le_enc keeps the low bytes). *)
Definition dump_gtid_command (bl : build) (server_id : N) (file : text) (pos : N) (order : gtid_set) : res (list byte) :=
  let? body := dump_sets bl order in
  Ok ([n2b cmd_binlog_dump_gtid] ++ le_enc 2 0 ++ le_enc 4 server_id
      ++ le_enc 4 (N.of_nat (length (utf8_encode file))) ++ utf8_encode file ++ le_enc 8 pos
      ++ le_enc 4 (dump_data_length order) ++ le_enc 8 (N.of_nat (length order)) ++ body).

(* extensions.rs:38-44: `i % slice2.len()` panics when slice2 is empty and slice1 is not *)
Fixpoint xor_from (i : nat) (a b : list byte) : list byte :=
  match a with
  | [] => []
  | x :: r => n2b (N.lxor (b2n x) (b2n (nth (i mod length b) b (n2b 0)))) :: xor_from (S i) r b
  end.
Definition xor_bytes (a b : list byte) : res (list byte) :=
  match a, b with
  | _ :: _, [] => Panic
  | _, _ => Ok (xor_from 0 a b)
  end.

(* constants/auth_plugin_names.rs *)
Inductive auth_plugin := NativePassword | CachingSha2.
Definition native_name : text := tx "mysql_native_password".
Definition caching_name : text := tx "caching_sha2_password".

(* Hash functions and RSA-OAEP encryption are those of external crates: parameters of the model.
   [rsa pem plain] is Rsa::public_key_from_pem + public_encrypt (connect.rs:144-150) *)
Record crypto := Crypto { sha1 : list byte -> list byte; sha256 : list byte -> list byte; rsa : list byte -> list byte -> res (list byte) }.

(* extensions.rs:11-24 *)
Definition hashed (h : list byte -> list byte) (password scramble : text) : res (list byte) :=
  let password_hash := h (utf8_encode password) in
  xor_bytes password_hash (h (utf8_encode scramble ++ h password_hash)).
Definition encrypt_password (cr : crypto) (password scramble : text) (p : auth_plugin) : res (list byte) :=
  match p with
  | NativePassword => hashed (sha1 cr) password scramble
  | CachingSha2 => hashed (sha256 cr) password scramble
  end.

(* authenticate_command.rs:31-40 *)
Definition client_capabilities (database : option text) : N :=
  let c := N.lor (N.lor (N.lor cap_long_flag cap_protocol_41) cap_secure_connection) cap_plugin_auth in
  match database with Some _ => N.lor c cap_connect_with_db | None => c end.
(* authenticate_command.rs:55-81; max_packet_size is 0; `len() as u8` truncates *)
Definition authenticate_command (cr : crypto) (user password : text) (database : option text) (scramble : text)
    (p : auth_plugin) (plugin_name : text) (collation : N) : res (list byte) :=
  let? e := encrypt_password cr password scramble p in
  Ok (le_enc 4 (client_capabilities database) ++ le_enc 4 0 ++ le_enc 1 collation ++ repeat (n2b 0) 23
      ++ write_null_term_string user ++ le_enc 1 (N.of_nat (length e)) ++ e
      ++ match database with Some d => write_null_term_string d | None => [] end
      ++ write_null_term_string plugin_name).
(* auth_plugin_switch_command.rs:26-35 *)
Definition auth_switch_command (cr : crypto) (password scramble : text) (p : auth_plugin) : res (list byte) :=
  encrypt_password cr password scramble p.

(* ssl_request_command.rs:15-45 *)
Definition ssl_capabilities : N :=
  N.lor (N.lor (N.lor (N.lor cap_long_flag cap_protocol_41) cap_secure_connection) cap_ssl) cap_plugin_auth.
Definition ssl_request_command (collation : N) : list byte :=
  le_enc 4 ssl_capabilities ++ le_enc 4 0 ++ le_enc 1 collation ++ repeat (n2b 0) 23.
