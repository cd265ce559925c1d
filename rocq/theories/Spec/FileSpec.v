(* Binlog files of any contents (C21, C22), and files read while they are written or from a failing disk (C94). *)
From Verif Require Import Base.Tac Base.Bytes Base.Text Base.Res Model.Events Model.Reader Model.FileIo Spec.EventSpec Spec.ReaderSpec.
Local Open Scope N_scope.

(* ---- any bytes ---- *)
(* how an iteration ends: None (with what is left in the file), a panic, or never *)
Inductive ending := Ended (rest : list byte) | Panicked | Hung.
(* The bytes behind the magic number, taken event by event: the items, and how it ends *)
Inductive swept (bl : build) : pstate -> list byte -> list item -> ending -> Prop :=
  (* less than a header *)
| sw_short st bs : (length bs < 19)%nat -> swept bl st bs [] (Ended [])
  (* less than the length in the header *)
| sw_cut st h t : header_ok h -> 19 + N.of_nat (length t) < h_length h -> swept bl st (header_bytes h ++ t) [] (Ended [])
  (* a length less than the header's own *)
| sw_tiny st h t : header_ok h -> h_length h < 19 -> swept bl st (header_bytes h ++ t) [] Panicked
| sw_event st f t e st' is x : framed_ok f -> parse_event bl st (fst f) (snd f) = Ok (e, st') -> swept bl st' t is x ->
    swept bl st (frame f ++ t) (inl (fst f, e) :: is) x
| sw_error st f t er is x : framed_ok f -> parse_event bl st (fst f) (snd f) = Err er -> er <> EIo UnexpectedEof -> swept bl st t is x ->
    swept bl st (frame f ++ t) (inr er :: is) x
  (* too short a payload *)
| sw_stop st f t : framed_ok f -> parse_event bl st (fst f) (snd f) = Err (EIo UnexpectedEof) -> swept bl st (frame f ++ t) [] (Ended t)
| sw_panic st f t : framed_ok f -> parse_event bl st (fst f) (snd f) = Panic -> swept bl st (frame f ++ t) [] Panicked
| sw_hang st f t : framed_ok f -> parse_event bl st (fst f) (snd f) = Diverge -> swept bl st (frame f ++ t) [] Hung.
(* a file of whole events *)
Inductive over (bl : build) : pstate -> list framed -> list item -> ending -> Prop :=
| ov_end st : over bl st [] [] (Ended [])
| ov_event st f fs e st' is x : parse_event bl st (fst f) (snd f) = Ok (e, st') -> over bl st' fs is x -> over bl st (f :: fs) (inl (fst f, e) :: is) x
| ov_error st f fs er is x : parse_event bl st (fst f) (snd f) = Err er -> er <> EIo UnexpectedEof -> over bl st fs is x -> over bl st (f :: fs) (inr er :: is) x
| ov_stop st f fs : parse_event bl st (fst f) (snd f) = Err (EIo UnexpectedEof) -> over bl st (f :: fs) [] (Ended (flat_map frame fs))
| ov_panic st f fs : parse_event bl st (fst f) (snd f) = Panic -> over bl st (f :: fs) [] Panicked
| ov_hang st f fs : parse_event bl st (fst f) (snd f) = Diverge -> over bl st (f :: fs) [] Hung.
(* alike but for what is left in the file *)
Definition alike (x y : ending) : Prop :=
  match x, y with Ended _, Ended _ => True | Panicked, Panicked => True | Hung, Hung => True | _, _ => False end.
(* the program: calls next() until None *)
Inductive iterates (bl : build) : reader -> list item -> ending -> Prop :=
| it_none rd rd' : next bl rd = (Ok None, rd') -> iterates bl rd [] (Ended (rd_file rd'))
| it_panic rd rd' : next bl rd = (Panic, rd') -> iterates bl rd [] Panicked
| it_hang rd rd' : next bl rd = (Diverge, rd') -> iterates bl rd [] Hung
| it_item rd i rd' is x : next bl rd = (Ok (Some i), rd') -> iterates bl rd' is x -> iterates bl rd (i :: is) x.

(* ---- what a read sees, byte by byte: bytes, the end of the file at that moment, errors ---- *)
Inductive seen := Byte (b : byte) | AtEnd | AtFault.
Definition sees (rs : list answer) : list seen :=
  flat_map (fun a => match a with Gave [] => [AtEnd] | Gave bs => map Byte bs | Interrupted => [] | Faulted => [AtFault] end) rs.
(* what happens to a file between the calls: an event is there, the end, an error *)
Inductive turn := Event (f : header * list byte) | TheEnd | AnError.
Definition turn_ok (t : turn) : Prop := match t with Event f => framed_ok f | _ => True end.
Definition turn_seen (t : turn) : list seen := match t with Event f => map Byte (frame f) | TheEnd => [AtEnd] | AnError => [AtFault] end.
(* what the calls must return: at every end None and at every error the error, and no event lost *)
Inductive follows (bl : build) : pstate -> list turn -> list (option item) -> pstate -> Prop :=
| fo_nil st : follows bl st [] [] st
| fo_event st f e st' ts os st2 : parse_event bl st (fst f) (snd f) = Ok (e, st') -> follows bl st' ts os st2 -> follows bl st (Event f :: ts) (Some (inl (fst f, e)) :: os) st2
| fo_error st f er ts os st2 : parse_event bl st (fst f) (snd f) = Err er -> er <> EIo UnexpectedEof -> follows bl st ts os st2 -> follows bl st (Event f :: ts) (Some (inr er) :: os) st2
  (* the decoder's "unexpected end" is taken for the end of the file *)
| fo_short st f ts os st2 : parse_event bl st (fst f) (snd f) = Err (EIo UnexpectedEof) -> follows bl st ts os st2 -> follows bl st (Event f :: ts) (None :: os) st2
| fo_end st ts os st2 : follows bl st ts os st2 -> follows bl st (TheEnd :: ts) (None :: os) st2
| fo_fault st ts os st2 : follows bl st ts os st2 -> follows bl st (AnError :: ts) (Some (inr (EIo OtherIo)) :: os) st2.
(* calls of next() one after the other *)
Inductive fcalls (bl : build) : freader -> list (option item) -> freader -> Prop :=
| fc_nil rd : fcalls bl rd [] rd
| fc_call rd o rd' os rd2 : fnext bl rd = (Ok o, rd') -> fcalls bl rd' os rd2 -> fcalls bl rd (o :: os) rd2.
