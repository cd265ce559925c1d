(* Connections one after the other by file and position, in bytes. *)
From Verif Require Import Base.Tac Base.Bytes Base.Text Base.Res Model.Events Model.Client Model.Channel Model.Session
  Spec.ClientSpec Spec.CommandSpec Spec.ChannelSpec Spec.SessionSpec Spec.PipelineSpec.
Local Open Scope N_scope.

(* [sends] of ClientSpec with a mark at every event: whether it is from the log (true) or artificial (false) *)
Inductive marked : text -> N -> bool -> list located -> list (hev * bool) -> Prop :=
| mk_stop f p tm todo : marked f p tm todo []
| mk_log f p tm l todo xs :
    marked (match lo_event l with EvRotate r => ro_file r | _ => lo_file l end)
           (match lo_event l with EvRotate r => ro_pos r | _ => lo_end l end)
           (is_table_map (lo_event l)) todo xs ->
    marked f p tm (l :: todo) ((lo_hev l, true) :: xs)
| mk_zero f p tm todo h e xs : h_next h = 0 -> is_rotate e = false -> marked f p tm todo xs -> marked f p tm todo (((h, e), false) :: xs)
| mk_rotate f p todo h xs : marked f p false todo xs -> marked f p false todo (((h, EvRotate (Rotate f p)), false) :: xs)
| mk_heartbeat f p todo h n xs : h_next h = p -> marked f p false todo xs -> marked f p false todo (((h, EvHeartbeat n), false) :: xs).
(* how many are from the log *)
Definition logged (xs : list (hev * bool)) : nat := length (filter snd xs).

(* where the server starts, by the name and position in the request: without a name at the first file *)
Definition reads_from (fs : list blfile) (nm : list byte) (pos : N) (f : text) (p : N) : Prop :=
  (nm = [] /\ pos = 4 /\ p = 4 /\ exists g r, fs = g :: r /\ f = bf_name g) \/ (nm <> [] /\ utf8_decode nm = Some f /\ p = pos).
(* the stream begins with an artificial rotate event that says where it starts *)
Definition opens_with (f : text) (p : N) (xs : list (hev * bool)) : Prop := exists h r, xs = ((h, EvRotate (Rotate f p)), false) :: r.

(* the result: for every connection the log events taken *)
Inductive pcontacts (bl : build) (ev : env) (st : settings) (fs : list blfile) : client -> list (list located) -> client -> Prop :=
| pc_nil c : pcontacts bl ev st fs c [] c
| pc_failed c cs e w' ds c2 : replicate bl ev st (World c cs []) = (Err e, w') -> pcontacts bl ev st fs (w_client w') ds c2 -> pcontacts bl ev st fs c ds c2
  (* the server goes by the last packet sent to it; n bytes of what it writes arrive; the program takes some of the
     events that arrive and commits each *)
| pc_stream c cs ck w' ps q pos fl id nm f p xs its pk w2 n evs s c' ds c2 :
    replicate bl ev st (World c cs []) = (Ok ck, w') -> sent (w_log w') = ps ++ [(q, 0)] -> srv_dump q = Some (pos, fl, id, nm) -> reads_from fs nm pos f p ->
    opens_with f p xs -> marked f p false (log_from f p (locate_files fs)) xs -> log_sent (Writer ck []) (map fst xs) its pk w2 ->
    flowing (w_in w') -> in_bytes (w_in w') = firstn n (flat_map wire pk) ->
    takes bl (stream_new (w_in w') ck) (map inl evs) s -> commit_all bl (w_client w') evs = Ok c' ->
    pcontacts bl ev st fs c' ds c2 ->
    pcontacts bl ev st fs c (firstn (logged (firstn (length evs) xs)) (log_from f p (locate_files fs)) :: ds) c2.

Definition named (t : text) : Prop := valid_text t /\ t <> [].
(* the client is at (f, p): saved, or at the first event of the first file with nothing saved yet *)
Definition stands_at (fs : list blfile) (c : client) (f : text) (p : N) : Prop :=
  o_strategy (c_opts c) <> FromGtid /\ p < 4294967296 /\ named f /\
  (o_file (c_opts c) = f /\ o_pos (c_opts c) = p \/
   o_strategy (c_opts c) <> FromEnd /\ o_file (c_opts c) = [] /\ o_pos (c_opts c) = 4 /\ p = 4 /\ exists g r, fs = g :: r /\ f = bf_name g).
