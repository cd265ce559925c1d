(* Building a client and opening the connection: src/binlog_client.rs, src/packet_channel.rs, src/replica_options.rs *)
From Coq Require Import Strings.String.
From Verif Require Import Base.Tac Base.Bytes Base.Text Base.Res Base.Str Model.Events Model.Client Model.Channel Model.Session.
Local Open Scope N_scope.

(* replica_options.rs:8, 11: the part of ReplicaOptions that only PacketChannel::new uses; the port is a u16 *)
Record endpoint := Endpoint { p_host : text; p_port : N }.
(* replica_options.rs:44-59, in three parts *)
Definition default_endpoint : endpoint := Endpoint (tx "localhost") 3306.
Definition default_settings : settings := Settings Disabled [] [] None 65535 true (30 * nanos).
Definition default_binlog : options := from_end.

(* binlog_client.rs:23-34: unimplemented! unless SSL is disabled *)
Definition new_client (st : settings) (o : options) : res client :=
  match s_ssl st with Disabled => Ok (client_new o) | _ => Panic end.

(* packet_channel.rs:14: format!("{}:{}", …) *)
Definition address (p : endpoint) : text := p_host p ++ tx ":" ++ dec_text (p_port p).
(* What the operating system makes of an attempt to connect: TcpStream::connect fails, or there is a connection and setting its
   time-out may fail.  How names are resolved is not modelled. *)
Inductive dialled := NoRoute (k : iokind) | Line (refused : option iokind).
(* packet_channel.rs:13-19; the result is the time-out set *)
Definition channel_new (dial : text -> dialled) (p : endpoint) (heartbeat : N) : res N :=
  match dial (address p) with
  | NoRoute k => Err (EIo k)
  | Line refused =>
    let? t := read_timeout heartbeat in
    match refused with Some k => Err (EIo k) | None => Ok t end
  end.
(* binlog_client.rs:37-61 with connect.rs:20; [w_in] of the world is what arrives on the new connection *)
Definition replicate_at (bl : build) (ev : env) (dial : text -> dialled) (p : endpoint) (st : settings) : act checksum :=
  _ <== alift (channel_new dial p (s_heartbeat st)) ;;
  replicate bl ev st.
