(* src/packet_channel.rs over a socket, and src/binlog_events.rs *)
From Coq Require Import Strings.String.
From Verif Require Import Base.Tac Base.Bytes Base.Text Base.Res Base.Str Base.Parse Model.Codec Model.Events Model.Responses.
Local Open Scope N_scope.

(* What the socket still delivers: bytes in the portions in which they arrive, and in between read time-outs and other
   errors of read(2) (connection reset, ...).  No bytes stand for an interrupted call, which read_exact repeats.
   When nothing is left the peer has closed the connection. *)
Inductive portion := Got (bs : list byte) | Stall | Broke.
(* Read::read_exact on the socket; at an error the bytes read so far are lost *)
Fixpoint recv_exact (n : nat) (cs : list portion) (acc : list byte) : res (list byte) * list portion :=
  match n with
  | O => (Ok acc, cs)
  | S _ =>
    match cs with
    | [] => (Err (EIo UnexpectedEof), [])
    | Stall :: r => (Err (EIo TimedOut), r)
    | Broke :: r => (Err (EIo OtherIo), r)
    | Got bs :: r =>
      if (length bs <=? n)%nat then recv_exact (n - length bs) r (acc ++ bs)
      else (Ok (acc ++ firstn n bs), Got (skipn n bs) :: r)
    end
  end.

(* packet_channel.rs:21-32 *)
Definition read_packet (cs : list portion) : res (list byte * N) * list portion :=
  match recv_exact 4 cs [] with
  | (Ok h, cs) =>
    let size := le_dec (firstn 3 h) in
    let seq := le_dec (skipn 3 h) in
    match recv_exact (N.to_nat size) cs [] with
    | (Ok p, cs) => (Ok (p, seq), cs)
    | (Err e, cs) => (Err e, cs)
    | (Panic, cs) => (Panic, cs)
    | (Diverge, cs) => (Diverge, cs)
    end
  | (Err e, cs) => (Err e, cs)
  | (Panic, cs) => (Panic, cs)
  | (Diverge, cs) => (Diverge, cs)
  end.

(* The operating system's answer to one write(2): it took that many bytes, or the call was interrupted (EINTR), or
   another error. *)
Inductive wrote := Took (n : nat) | Signal | Failed.
(* Write::write: some of the bytes, at most all; an interrupted call is an error (io::ErrorKind::Interrupted) *)
Definition sock_write (bs : list byte) (os : list wrote) : res nat * list byte * list wrote :=
  match os with
  | Took n :: r => (Ok (Nat.min n (length bs)), firstn n bs, r)
  | Signal :: r => (Err (EIo OtherIo), [], r)
  | Failed :: r => (Err (EIo OtherIo), [], r)
  | [] => (Diverge, [], [])                                            (* blocked for ever *)
  end.
(* Write::write_all; a write of 0 bytes is an error, an interrupted one is repeated *)
Fixpoint sock_write_all (bs : list byte) (os : list wrote) : res unit * list byte * list wrote :=
  match bs with
  | [] => (Ok tt, [], os)
  | _ =>
    match os with
    | Took O :: r => (Err (EIo OtherIo), [], r)
    | Took n :: r =>
      let '(x, sent, r') := sock_write_all (skipn n bs) r in (x, firstn n bs ++ sent, r')
    | Signal :: r => sock_write_all bs r
    | Failed :: r => (Err (EIo OtherIo), [], r)
    | [] => (Diverge, [], [])
    end
  end.
(* packet_channel.rs:34-40: result, bytes handed to the operating system.  write_u24 (byteorder) panics from 2^24 on;
   the number of bytes written by the last `write` is not looked at. *)
Definition write_packet (packet : list byte) (seq : N) (os : list wrote) : res unit * list byte * list wrote :=
  let n := N.of_nat (length packet) mod u32max1 in
  if 16777216 <=? n then (Panic, [], os)
  else
    let '(r1, b1, os) := sock_write_all (le_enc 3 n) os in
    match r1 with
    | Ok _ =>
      let '(r2, b2, os) := sock_write_all (le_enc 1 seq) os in
      match r2 with
      | Ok _ =>
        let '(r3, b3, os) := sock_write packet os in
        match r3 with
        | Ok _ => (Ok tt, b1 ++ b2 ++ b3, os)
        | Err e => (Err e, b1 ++ b2 ++ b3, os)
        | Panic => (Panic, b1 ++ b2 ++ b3, os)
        | Diverge => (Diverge, b1 ++ b2 ++ b3, os)
        end
      | Err e => (Err e, b1 ++ b2, os)
      | Panic => (Panic, b1 ++ b2, os)
      | Diverge => (Diverge, b1 ++ b2, os)
      end
    | Err e => (Err e, b1, os)
    | Panic => (Panic, b1, os)
    | Diverge => (Diverge, b1, os)
    end.

(* binlog_events.rs:12-23 *)
Record stream := Stream { sm_in : list portion; sm_parser : pstate }.
Definition stream_new (cs : list portion) (ck : checksum) : stream := Stream cs (PState ck []).

(* binlog_events.rs:25-30.  &packet[20..] is only reached when the header parsed, so the packet has 20 bytes. *)
Definition stream_event (bl : build) (st : pstate) (packet : list byte) : res (header * event * pstate) :=
  let? h := parse_header (skipn 1 packet) in
  if (length packet <? 20)%nat then Panic
  else
    let? r := parse_event bl st h (skipn 20 packet) in
    Ok (h, fst r, snd r).
(* binlog_events.rs:32-35; the text format!("Event stream error. {:?}", error) is kept structured as in Base/Res.v *)
Definition stream_message : text := tx "Event stream error.".
Definition stream_error (packet : list byte) : res (header * event) :=
  let? e := parse_error_packet (skipn 1 packet) in
  Err (EServer stream_message (ep_code e) (ep_message e) (ep_state e)).
Definition unknown_status : text := tx "Unknown network stream status".

Definition some_item {A} (r : res A) : res (option (A + error)) :=
  match r with Ok a => Ok (Some (inl a)) | Err e => Ok (Some (inr e)) | Panic => Panic | Diverge => Diverge end.
(* binlog_events.rs:43-59 *)
Definition stream_next (bl : build) (s : stream) : res (option (header * event + error)) * stream :=
  match read_packet (sm_in s) with
  | (Ok (packet, _), cs) =>
    match byte_at packet 0 with
    | Ok b =>
      if b =? resp_ok then
        match stream_event bl (sm_parser s) packet with
        | Ok (h, e, st) => (Ok (Some (inl (h, e))), Stream cs st)
        | Err e => (Ok (Some (inr e)), Stream cs (sm_parser s))
        | Panic => (Panic, Stream cs (sm_parser s))
        | Diverge => (Diverge, Stream cs (sm_parser s))
        end
      else if b =? resp_error then (some_item (stream_error packet), Stream cs (sm_parser s))
      else if b =? resp_eof then (Ok None, Stream cs (sm_parser s))      (* the parsed EOF packet is dropped *)
      else (Ok (Some (inr (EString unknown_status))), Stream cs (sm_parser s))
    | _ => (Panic, Stream cs (sm_parser s))
    end
  | (Err e, cs) => (Ok (Some (inr e)), Stream cs (sm_parser s))
  | (Panic, cs) => (Panic, Stream cs (sm_parser s))
  | (Diverge, cs) => (Diverge, Stream cs (sm_parser s))
  end.
