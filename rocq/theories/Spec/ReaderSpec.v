(* Binlog files: the magic number and events, one after the other. *)
From Verif Require Import Base.Tac Base.Bytes Base.Text Base.Res Model.Events Model.Reader Spec.EventSpec.
Local Open Scope N_scope.

Definition file_magic : list byte := map n2b [254; 98; 105; 110].    (* 0xFE 'b' 'i' 'n' *)
(* an event of a file: header and everything after it; event_length counts both *)
Notation framed := (header * list byte)%type.
Definition framed_ok (f : framed) : Prop := header_ok (fst f) /\ h_length (fst f) = 19 + N.of_nat (length (snd f)).
Definition frame (f : framed) : list byte := header_bytes (fst f) ++ snd f.
Definition file_of (fs : list framed) : list byte := file_magic ++ flat_map frame fs.

(* the events of [fs], decoded one after the other; a failing event does not change the decoder.
   A decoder's "unexpected end" error is left out. *)
Inductive decoded (bl : build) : pstate -> list framed -> list item -> Prop :=
| de_nil st : decoded bl st [] []
| de_ok st h p e st' fs is : parse_event bl st h p = Ok (e, st') -> decoded bl st' fs is -> decoded bl st ((h, p) :: fs) (inl (h, e) :: is)
| de_err st h p er fs is : parse_event bl st h p = Err er -> er <> EIo UnexpectedEof -> decoded bl st fs is ->
    decoded bl st ((h, p) :: fs) (inr er :: is).

(* the events that lie completely within the first k bytes *)
Fixpoint complete (k : nat) (fs : list framed) : list framed :=
  match fs with
  | [] => []
  | f :: r => if (length (frame f) <=? k)%nat then f :: complete (k - length (frame f)) r else []
  end.

(* the iterator: items handed out until the first None, and nothing but None from then on *)
Fixpoint nones (bl : build) (n : nat) (rd : reader) : Prop :=
  match n with O => True | S n' => exists rd', next bl rd = (Ok None, rd') /\ nones bl n' rd' end.
Inductive yields (bl : build) : reader -> list item -> Prop :=
| yi_end rd : (forall n, nones bl n rd) -> yields bl rd []
| yi_item rd i rd' is : next bl rd = (Ok (Some i), rd') -> yields bl rd' is -> yields bl rd (i :: is).

(* a complete event is in front of the reader *)
Definition at_event (bytes : list byte) : Prop := exists f tail, framed_ok f /\ bytes = frame f ++ tail.
