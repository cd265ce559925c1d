(* src/binlog_reader.rs again, over the operating system's answers to read(2) instead of over a finished file (Model/Reader):
   short reads, interrupted and failing reads, and files that are still being written. *)
From Verif Require Import Base.Tac Base.Bytes Base.Text Base.Res Base.Str Base.Parse Model.Events Model.Reader.
Local Open Scope N_scope.

(* The answers to the reads to come.  [Gave bs]: these bytes are there to be taken (a read that asks for fewer leaves the
   rest for the next one); [Gave []] is an answer of 0 bytes, the end of the file as it is at that moment.
   [Interrupted]: EINTR.  [Faulted]: any other error.  After the last answer the file is at its end for good. *)
Inductive answer := Gave (bs : list byte) | Interrupted | Faulted.
(* Read::read_exact for File (std::io::default_read_exact), used in binlog_reader.rs:22, 42, 49, 55: repeats short and interrupted
   reads; 0 bytes is UnexpectedEof; at an error the bytes taken so far are lost *)
Fixpoint file_exact (n : nat) (rs : list answer) (acc : list byte) : res (list byte) * list answer :=
  match n with
  | O => (Ok acc, rs)
  | S _ =>
    match rs with
    | [] => (Err (EIo UnexpectedEof), [])
    | Interrupted :: r => file_exact n r acc
    | Faulted :: r => (Err (EIo OtherIo), r)
    | Gave [] :: r => (Err (EIo UnexpectedEof), r)
    | Gave bs :: r =>
      if (length bs <=? n)%nat then file_exact (n - length bs) r (acc ++ bs)
      else (Ok (acc ++ firstn n bs), Gave (skipn n bs) :: r)
    end
  end.

(* binlog_reader.rs:13-17 *)
Record freader := FReader { fr_file : list answer; fr_parser : pstate; fr_buffer : list byte }.
(* binlog_reader.rs:20-33 *)
Definition freader_new (file : list answer) : res freader :=
  match file_exact 4 file [] with
  | (Ok h, rest) =>
    if bytes_eqb h magic_number then Ok (FReader rest pstate_new (repeat (n2b 0) (N.to_nat payload_buffer_size)))
    else Err (EString bad_magic)
  | (Err e, _) => Err e
  | (Panic, _) => Panic
  | (Diverge, _) => Diverge
  end.
(* lines 50-51 and 56-57 *)
Definition fwith_event (h : header) (r : res (event * pstate)) (rd : freader) : res (header * event) * freader :=
  match r with
  | Ok (e, st) => (Ok (h, e), FReader (fr_file rd) st (fr_buffer rd))
  | Err e => (Err e, rd)
  | Panic => (Panic, rd)
  | Diverge => (Diverge, rd)
  end.
(* binlog_reader.rs:39-59, as read_event in Model/Reader *)
Definition fread_event (bl : build) (rd : freader) : res (header * event) * freader :=
  match file_exact (N.to_nat event_header_size) (fr_file rd) [] with
  | (Ok hb, rest) =>
    let rd1 := FReader rest (fr_parser rd) (fr_buffer rd) in
    match parse_header hb with
    | Ok h =>
      match usub u64max1 bl (h_length h) event_header_size with
      | Ok n =>
        if payload_buffer_size <? n then
          match alloc n with
          | Ok _ =>
            match file_exact (N.to_nat n) rest [] with
            | (Ok vec, rest') => fwith_event h (parse_event bl (fr_parser rd) h vec) (FReader rest' (fr_parser rd) (fr_buffer rd))
            | (Err e, rest') => (Err e, FReader rest' (fr_parser rd) (fr_buffer rd))
            | (_, rest') => (Panic, FReader rest' (fr_parser rd) (fr_buffer rd))
            end
          | _ => (Panic, rd1)
          end
        else
          match file_exact (N.to_nat n) rest [] with
          | (Ok bs, rest') =>
            let buf := bs ++ skipn (N.to_nat n) (fr_buffer rd) in
            fwith_event h (parse_event bl (fr_parser rd) h (firstn (N.to_nat n) buf)) (FReader rest' (fr_parser rd) buf)
          | (Err e, rest') => (Err e, FReader rest' (fr_parser rd) (fr_buffer rd))
          | (_, rest') => (Panic, FReader rest' (fr_parser rd) (fr_buffer rd))
          end
      | Err e => (Err e, rd1)
      | Panic => (Panic, rd1)
      | Diverge => (Diverge, rd1)
      end
    | Err e => (Err e, rd1)
    | Panic => (Panic, rd1)
    | Diverge => (Diverge, rd1)
    end
  | (Err e, rest) => (Err e, FReader rest (fr_parser rd) (fr_buffer rd))
  | (_, rest) => (Panic, FReader rest (fr_parser rd) (fr_buffer rd))
  end.
(* binlog_reader.rs:65-75 *)
Definition fnext (bl : build) (rd : freader) : res (option item) * freader :=
  match fread_event bl rd with
  | (Err (EIo UnexpectedEof), rd') => (Ok None, rd')
  | (Err e, rd') => (Ok (Some (inr e)), rd')
  | (Ok x, rd') => (Ok (Some (inl x)), rd')
  | (Panic, rd') => (Panic, rd')
  | (Diverge, rd') => (Diverge, rd')
  end.
