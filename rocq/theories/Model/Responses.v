(* Packets received by the client: src/responses/*.rs, check_error_packet of src/extensions.rs, src/constants/database_provider.rs *)
From Coq Require Import Strings.String.
From Verif Require Import Base.Tac Base.Bytes Base.Text Base.Res Base.Str Base.Parse Model.Codec Model.Events Model.Commands.
Local Open Scope N_scope.

(* responses/response_type.rs *)
Definition resp_ok : N := 0x00.
Definition resp_error : N := 0xFF.
Definition resp_eof : N := 0xFE.
Definition resp_switch : N := 0xFE.

(* run a parser on a slice from its start *)
Definition on_slice {A} (p : parser A) (bs : list byte) : res A :=
  match p bs 0%nat with Ok (a, _) => Ok a | Err e => Err e | Panic => Panic | Diverge => Diverge end.
(* packet[i]: panics when the packet is too short *)
Definition byte_at (bs : list byte) (i : nat) : res N :=
  match nth_error bs i with Some b => Ok (b2n b) | None => Panic end.

(* responses/error_packet.rs:7-11 *)
Record error_packet := ErrorPacket { ep_code : N; ep_message : text; ep_state : option text }.
(* responses/error_packet.rs:14-33 *)
Definition error_packet_parser : parser error_packet :=
  code <- read_u16 ;;
  m <- read_to_string ;;
  match m with
  | c :: r => if c =? 35 then ret (ErrorPacket code (skipn 6 m) (Some (firstn 5 (skipn 1 m)))) else ret (ErrorPacket code m None)
  | [] => ret (ErrorPacket code m None)
  end.
Definition parse_error_packet (bs : list byte) : res error_packet := on_slice error_packet_parser bs.

(* extensions.rs:139-146 *)
Definition check_error_packet (packet : list byte) (message : text) : res unit :=
  let? b := byte_at packet 0 in
  if b =? resp_error then
    let? e := parse_error_packet (skipn 1 packet) in
    Err (EServer message (ep_code e) (ep_message e) (ep_state e))
  else Ok tt.

(* responses/handshake_packet.rs:10-21 *)
Record handshake := Handshake {
  hs_protocol : N; hs_version : text; hs_connection : N; hs_scramble : text; hs_capabilities : N; hs_collation : N;
  hs_status : N; hs_filler : text; hs_plugin_length : N; hs_plugin : text }.
(* responses/handshake_packet.rs:24-75 *)
Definition handshake_parser : parser handshake :=
  pv <- read_u8 ;;
  sv <- read_null_term_string ;;
  ci <- read_u32 ;;
  sc <- read_null_term_string ;;
  c1 <- read_bytes 2 ;;
  co <- read_u8 ;;
  sf <- read_u16 ;;
  c2 <- read_bytes 2 ;;
  al <- read_u8 ;;
  fi <- read_string 6 ;;
  c3 <- read_bytes 4 ;;
  let caps := le_dec (c1 ++ c2 ++ c3) in
  sc <- (if 0 <? N.land caps cap_secure_connection then s2 <- read_null_term_string ;; ret (sc ++ s2) else ret sc) ;;
  pn <- (if 0 <? N.land caps cap_plugin_auth then read_null_term_string else ret []) ;;
  ret (Handshake pv sv ci sc caps co sf fi al pn).
Definition parse_handshake (bs : list byte) : res handshake := on_slice handshake_parser bs.

(* responses/auth_switch_packet.rs:13-23 *)
Definition auth_switch_parser : parser (text * text) :=
  n <- read_null_term_string ;; d <- read_null_term_string ;; ret (n, d).
Definition parse_auth_switch (bs : list byte) : res (text * text) := on_slice auth_switch_parser bs.

(* responses/result_set_row_packet.rs:12-23 *)
Definition parse_row_packet (bs : list byte) : res (list text) := on_slice (pwhile read_len_enc_str) bs.

(* responses/end_of_file_packet.rs:13-23 *)
Definition parse_eof_packet (bs : list byte) : res (N * N) := on_slice (w <- read_u16 ;; s <- read_u16 ;; ret (w, s)) bs.

(* str::starts_with / str::contains *)
Fixpoint starts_with (p t : text) : bool :=
  match p, t with
  | [], _ => true
  | x :: p', y :: t' => (x =? y) && starts_with p' t'
  | _, _ => false
  end.
Fixpoint contains (p t : text) : bool :=
  starts_with p t || match t with [] => false | _ :: r => contains p r end.
(* constants/database_provider.rs *)
Inductive provider := MariaDB | MySQL.
Definition provider_from (server : text) : provider := if contains (tx "MariaDB") server then MariaDB else MySQL.
