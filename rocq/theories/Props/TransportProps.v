(* Properties C86 and C87, and what a time-out inside a packet does (C58). *)
From Coq Require Import Strings.String.
From Verif Require Import Base.Tac Base.Bytes Base.Text Base.Res Base.Str Base.Parse Model.Gtid Model.GtidMaria Model.Rows Model.Events Model.Reader Model.Responses Model.Channel
  Model.Client Model.Commands Model.Session Spec.EventSpec Spec.ReaderSpec Spec.ChannelSpec Spec.SessionSpec Spec.TransportSpec Proofs.TransportProofs Props.SessionProps.
Local Open Scope N_scope.

(* ---- C58 ---- *)
(* A time-out (or another error of read(2)) after k bytes of a packet, wherever that is: the error is handed out and reading goes on with the byte
   behind, as if a packet began there. *)
Theorem C58_timeout_exact : forall bl st p k a x e rest, trouble x = Some e -> packet_ok p -> (k < length (wire p))%nat -> flowing a -> in_bytes a = firstn k (wire p) ->
  stream_next bl (Stream (a ++ x :: rest) st) = (Ok (Some (inr (EIo e))), Stream rest st) /\
  forall n more, arrivals rest = map Arrived (skipn k (wire p)) ++ more ->
    calls (stream_next bl) n (Stream rest st) = calls (stream_next bl) n (Stream (Got (skipn k (wire p)) :: map (fun x => match x with Arrived b => Got [b] | Late => Stall | Lost => Broke end) more) st).
Proof.
  intros bl st p k a x e rest X P L F B. split.
  - unfold stream_next. cbn [sm_in sm_parser]. now rewrite (packet_trouble x e p k a rest X P L F B).
  - intros n more H. apply (calls_same ssim); [apply stream_same|]. split; [|reflexivity]. cbn [sm_in]. rewrite H. unfold arrivals. cbn [flat_map]. f_equal.
    clear H. induction more as [|[b| |] more IH]; [reflexivity| | |]; cbn [map flat_map app]; f_equal; exact IH.
Qed.
Print Assumptions C58_timeout_exact.

(* ---- C86 ---- *)
Theorem C86_stream : forall bl st n cs1 cs2, arrivals cs1 = arrivals cs2 ->
  calls (stream_next bl) n (Stream cs1 st) = calls (stream_next bl) n (Stream cs2 st).
Proof. intros bl st n cs1 cs2 H. apply (calls_same ssim); [apply stream_same|]. split; [exact H|reflexivity]. Qed.
Print Assumptions C86_stream.
(* the set-up, and the events behind it *)
Theorem C86_session : forall bl ev st c log n cs1 cs2, arrivals cs1 = arrivals cs2 ->
  let '(r1, w1) := replicate bl ev st (World c cs1 log) in
  let '(r2, w2) := replicate bl ev st (World c cs2 log) in
  r1 = r2 /\ w_client w1 = w_client w2 /\ w_log w1 = w_log w2 /\
  forall ck, calls (stream_next bl) n (stream_new (w_in w1) ck) = calls (stream_next bl) n (stream_new (w_in w2) ck).
Proof.
  intros bl ev st c log n cs1 cs2 H. destruct (sim_replicate bl ev st (World c cs1 log) (World c cs2 log)) as [R (S1 & S2 & S3)]; [split; [reflexivity|split; [exact H|reflexivity]]|].
  destruct (replicate bl ev st (World c cs1 log)) as [r1 w1], (replicate bl ev st (World c cs2 log)) as [r2 w2]. cbn [fst snd] in *.
  split; [exact R|]. split; [exact S1|]. split; [exact S3|]. intros ck. now apply C86_stream.
Qed.
Print Assumptions C86_session.
(* one byte at a time, or all at once *)
Definition slowly (bs : list byte) : list portion := map (fun b => Got [b]) bs.
Definition hello_and_more : list byte := flat_map wire (number ([mysql_hello; okp] ++ good_answers ++ [n2b 0 :: header_bytes (Header 0 16 1 27 200 0) ++ le_enc 8 77])).
Example C86_example : arrivals (slowly hello_and_more) = arrivals [Got hello_and_more] /\
  let '(r, w) := replicate Release env0 st0 (World (client_new (from_position (tx "bin.7") 120)) (slowly hello_and_more) []) in
  r = Ok CkCrc32 /\ calls (stream_next Release) 1 (stream_new (w_in w) CkNone) = [Ok (Some (inl (Header 0 16 1 27 200 0, EvXid 77)))].
Proof. split; [vm_compute; reflexivity|]. vm_compute. auto. Qed.

(* ---- C87 ---- *)
(* Events of a binlog file, whatever their payloads, against the same events sent one per packet: the iterators hand out
   the same, except that the file iterator takes the decoder's "unexpected end" for the end of the file (C23). *)
Theorem C87_same_events : forall bl st fs tail buf qs cs rest,
  Forall framed_ok fs -> length qs = length fs -> Forall packet_ok (combine (map (fun f => n2b 0 :: frame f) fs) qs) ->
  flowing cs -> in_bytes cs = flat_map wire (combine (map (fun f => n2b 0 :: frame f) fs) qs) ->
  calls (next bl) (length fs) (Reader (flat_map frame fs ++ tail) st buf) =
  map as_file (calls (stream_next bl) (length fs) (Stream (cs ++ rest) st)).
Proof. intros bl st fs tail buf qs cs rest H1 H2 H3 H4 H5. eapply both_calls; eauto. rewrite H5. now rewrite app_nil_r. Qed.
Print Assumptions C87_same_events.
Definition three_events : list framed := [(Header 0 16 1 27 200 0, le_enc 8 77); (Header 0 23 1 22 230 0, map n2b [1; 2; 3]); (Header 0 4 1 29 0 0, le_enc 8 4 ++ map n2b [98; 255])].
Example C87_example : Forall framed_ok three_events /\
  calls (stream_next Release) 3 (Stream [Got (flat_map wire (map (fun f => (n2b 0 :: frame f, 9)) three_events))] pstate_new) =
    [Ok (Some (inl (Header 0 16 1 27 200 0, EvXid 77))); Ok (Some (inr (EIo UnexpectedEof))); Ok (Some (inr (EIo InvalidData)))] /\
  calls (next Release) 3 (Reader (flat_map frame three_events) pstate_new []) =
    [Ok (Some (inl (Header 0 16 1 27 200 0, EvXid 77))); Ok None; Ok (Some (inr (EIo InvalidData)))].
Proof.
  split; [|split; vm_compute; reflexivity].
  repeat (apply Forall_cons; [split; [unfold header_ok; cbn; unfold u32, u16, u8; lia|reflexivity]|]). apply Forall_nil.
Qed.
