(* src/binlog_reader.rs.  The file is the list of its unread bytes; I/O errors other than reaching its end are not modelled. *)
From Coq Require Import Strings.String.
From Verif Require Import Base.Tac Base.Bytes Base.Text Base.Res Base.Str Base.Parse Model.Events.
Local Open Scope N_scope.

(* `==` of byte arrays *)
Fixpoint bytes_eqb (a b : list byte) : bool :=
  match a, b with
  | [], [] => true
  | x :: a', y :: b' => byte_eqb x y && bytes_eqb a' b'
  | _, _ => false
  end.
(* binlog_reader.rs:10 *)
Definition magic_number : list byte := [n2b 0xFE; n2b 0x62; n2b 0x69; n2b 0x6E].
(* constants/mod.rs:16-17 *)
Definition event_header_size : N := 19.
Definition payload_buffer_size : N := 32768.

(* Read::read_exact for File: at the end of the file the remaining bytes have been consumed *)
Definition read_exact (n : N) (file : list byte) : res (list byte) * list byte :=
  if N.of_nat (length file) <? n then (Err (EIo UnexpectedEof), [])
  else (Ok (firstn (N.to_nat n) file), skipn (N.to_nat n) file).

(* binlog_reader.rs:13-17.  read_events (35-37) is the identity. *)
Record reader := Reader { rd_file : list byte; rd_parser : pstate; rd_buffer : list byte }.

(* binlog_reader.rs:20-33 *)
Definition bad_magic : text := tx "Invalid binary log file header".
Definition reader_new (file : list byte) : res reader :=
  match read_exact 4 file with
  | (Ok h, rest) =>
    if bytes_eqb h magic_number then Ok (Reader rest pstate_new (repeat (n2b 0) (N.to_nat payload_buffer_size)))
    else Err (EString bad_magic)
  | (Err e, _) => Err e
  | (Panic, _) => Panic
  | (Diverge, _) => Diverge
  end.

(* the `?` and result construction after parse_event, lines 50-51 and 56-57 *)
Definition with_event (h : header) (r : res (event * pstate)) (rd : reader) : res (header * event) * reader :=
  match r with
  | Ok (e, st) => (Ok (h, e), Reader (rd_file rd) st (rd_buffer rd))
  | Err e => (Err e, rd)
  | Panic => (Panic, rd)
  | Diverge => (Diverge, rd)
  end.
(* binlog_reader.rs:39-59.  read_exact into &mut payload_buffer[0..n] leaves the tail of the buffer as it was;
   after a short read the buffer's contents (unspecified in Rust, never read again) are left alone. *)
Definition read_event (bl : build) (rd : reader) : res (header * event) * reader :=
  match read_exact event_header_size (rd_file rd) with
  | (Ok hb, rest) =>
    let rd1 := Reader rest (rd_parser rd) (rd_buffer rd) in
    match parse_header hb with
    | Ok h =>
      match usub u64max1 bl (h_length h) event_header_size with
      | Ok n =>
        if payload_buffer_size <? n then
          match alloc n with
          | Ok _ =>
            match read_exact n rest with
            | (Ok vec, rest') => with_event h (parse_event bl (rd_parser rd) h vec) (Reader rest' (rd_parser rd) (rd_buffer rd))
            | (Err e, rest') => (Err e, Reader rest' (rd_parser rd) (rd_buffer rd))
            | (_, rest') => (Panic, Reader rest' (rd_parser rd) (rd_buffer rd))
            end
          | _ => (Panic, rd1)
          end
        else
          match read_exact n rest with
          | (Ok bs, rest') =>
            let buf := bs ++ skipn (N.to_nat n) (rd_buffer rd) in
            with_event h (parse_event bl (rd_parser rd) h (firstn (N.to_nat n) buf)) (Reader rest' (rd_parser rd) buf)
          | (Err e, rest') => (Err e, Reader rest' (rd_parser rd) (rd_buffer rd))
          | (_, rest') => (Panic, Reader rest' (rd_parser rd) (rd_buffer rd))
          end
      | Err e => (Err e, rd1)
      | Panic => (Panic, rd1)
      | Diverge => (Diverge, rd1)
      end
    | Err e => (Err e, rd1)
    | Panic => (Panic, rd1)
    | Diverge => (Diverge, rd1)
    end
  | (Err e, rest) => (Err e, Reader rest (rd_parser rd) (rd_buffer rd))
  | (_, rest) => (Panic, Reader rest (rd_parser rd) (rd_buffer rd))
  end.

(* what the iterator hands out *)
Definition item := ((header * event) + error)%type.
(* binlog_reader.rs:65-75 *)
Definition next (bl : build) (rd : reader) : res (option item) * reader :=
  match read_event bl rd with
  | (Err (EIo UnexpectedEof), rd') => (Ok None, rd')
  | (Err e, rd') => (Ok (Some (inr e)), rd')
  | (Ok x, rd') => (Ok (Some (inl x)), rd')
  | (Panic, rd') => (Panic, rd')
  | (Diverge, rd') => (Diverge, rd')
  end.
