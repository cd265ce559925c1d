(* C21 - C24: reading binlog files *)
From Coq Require Import Strings.String.
From Verif Require Import Base.Tac Base.Bytes Base.Text Base.Res Base.Str Base.Parse Model.Values Model.Events Model.Reader
  Spec.EventSpec Spec.ReaderSpec Proofs.EventProofs Proofs.ReaderProofs.
Local Open Scope N_scope.

(* an example file: a rotate event, an event of 40 kB, a transaction end, an undecodable event *)
Definition ev (ty : N) (p : list byte) : framed := (Header 1700000000 ty 3 (19 + N.of_nat (length p)) 1000 0, p).
Definition ex_rotate : framed := ev 4 (le_enc 8 4 ++ utf8_encode (tx "binlog.000002")).
Definition ex_big : framed := ev 200 (repeat (n2b 7) (N.to_nat 40000)).
Definition ex_xid : framed := ev 16 (le_enc 8 77).
Definition ex_bad : framed := ev 4 (le_enc 8 4 ++ [n2b 255]).
Definition ex_short : framed := ev 16 (le_enc 4 77).
Lemma ev_ok ty p : ty < 256 -> N.of_nat (length p) < 1000000 -> framed_ok (ev ty p).
Proof. intros H1 H2. split; [|reflexivity]. unfold ev, header_ok. cbn [fst h_timestamp h_type h_server h_length h_next h_flags]. unfold u32, u16, u8; repeat split; try assumption; lia. Qed.

(* ---- C24 ---- *)
Theorem C24_magic : forall bytes,
  (exists rd, reader_new bytes = Ok rd) <-> (exists rest, bytes = map n2b [0xFE; 0x62; 0x69; 0x6E] ++ rest).
Proof.
  intros bytes. split.
  - intros [rd H]. unfold reader_new in H. destruct (read_exact 4 bytes) as [[hd|e| |] rest] eqn:E; try discriminate.
    destruct (bytes_eqb_spec hd magic_number) as [->|]; [|discriminate]. apply read_exact_ok in E. exists rest. apply E.
  - intros [rest ->]. unfold reader_new. rewrite (read_exact_app (map n2b [0xFE; 0x62; 0x69; 0x6E]) rest) by reflexivity. eexists. reflexivity.
Qed.
Print Assumptions C24_magic.
Theorem C24_otherwise_an_error : forall bytes, (exists rd, reader_new bytes = Ok rd) \/ (exists e, reader_new bytes = Err e).
Proof.
  intros bytes. unfold reader_new, read_exact. destruct (_ <? _); [eauto|]. destruct (bytes_eqb _ _); eauto.
Qed.
Print Assumptions C24_otherwise_an_error.
Example C24_example : (exists rd, reader_new (file_of [ex_rotate; ex_xid]) = Ok rd) /\
  reader_new (map n2b [0xFE; 0x62; 0x69; 0x6F; 0; 0]) = Err (EString (tx "Invalid binary log file header")) /\
  reader_new (map n2b [0xFE; 0x62; 0x69]) = Err (EIo UnexpectedEof).
Proof. split; [eexists; reflexivity|]. split; reflexivity. Qed.

Lemma reader_new_file fs k : exists buf, reader_new (firstn (4 + k) (file_of fs)) = Ok (Reader (firstn k (flat_map frame fs)) pstate_new buf).
Proof.
  unfold reader_new, file_of. rewrite firstn_app. change (length file_magic) with 4%nat.
  rewrite firstn_all2 by (change (length file_magic) with 4%nat; lia). replace (4 + k - 4)%nat with k by lia.
  rewrite (read_exact_app file_magic) by reflexivity. eexists. reflexivity.
Qed.

(* ---- C21 ---- *)
(* Full statement: for all sequences of events.  Missing: events whose payload is cut short (an "unexpected end" error of the
   decoder, C23_short_payload_ends_iteration_refuted), and panics (C33). *)
Theorem C21_events_in_order_partial : forall bl fs items, Forall framed_ok fs -> decoded bl pstate_new fs items ->
  exists rd, reader_new (file_of fs) = Ok rd /\ yields bl rd items.
Proof.
  intros bl fs items H D. destruct (reader_new_file fs (length (flat_map frame fs))) as [buf E].
  rewrite firstn_all2 in E by (unfold file_of; rewrite app_length; change (length file_magic) with 4%nat; lia).
  rewrite E. eexists. split; [reflexivity|]. apply yields_cut; [exact H|]. now rewrite complete_all.
Qed.
Print Assumptions C21_events_in_order_partial.
(* every single call, for any event, any decoder state, any content of the reused buffer *)
Theorem C21_each_call : forall bl f tail st buf, framed_ok f ->
  exists buf', next bl (Reader (frame f ++ tail) st buf) =
    match parse_event bl st (fst f) (snd f) with
    | Ok (e, st') => (Ok (Some (inl (fst f, e))), Reader tail st' buf')
    | Err (EIo UnexpectedEof) => (Ok None, Reader tail st buf')
    | Err er => (Ok (Some (inr er)), Reader tail st buf')
    | Panic => (Panic, Reader tail st buf')
    | Diverge => (Diverge, Reader tail st buf')
    end.
Proof. intros bl f tail st buf H. apply (next_frame bl (Reader (frame f ++ tail) st buf) f tail H eq_refl). Qed.
Print Assumptions C21_each_call.
Lemma ex_decoded bl : decoded bl pstate_new [ex_rotate; ex_big; ex_bad; ex_xid]
  [inl (fst ex_rotate, EvRotate (Rotate (tx "binlog.000002") 4)); inl (fst ex_big, EvUnknown); inr (EIo InvalidData); inl (fst ex_xid, EvXid 77)].
Proof.
  unfold ex_rotate, ex_big, ex_bad, ex_xid, ev. eapply de_ok; [destruct bl; vm_compute; reflexivity|].
  eapply de_ok; [unfold parse_event; cbn [event_payload ps_checksum]; reflexivity|].
  eapply de_err; [destruct bl; vm_compute; reflexivity|discriminate|]. eapply de_ok; [destruct bl; vm_compute; reflexivity|]. apply de_nil.
Qed.
Example C21_example : forall bl, exists rd, reader_new (file_of [ex_rotate; ex_big; ex_bad; ex_xid]) = Ok rd /\
  yields bl rd [inl (fst ex_rotate, EvRotate (Rotate (tx "binlog.000002") 4)); inl (fst ex_big, EvUnknown); inr (EIo InvalidData); inl (fst ex_xid, EvXid 77)].
Proof.
  intros bl. apply C21_events_in_order_partial; [|apply ex_decoded].
  repeat apply Forall_cons; try apply Forall_nil; apply ev_ok; try lia; try (rewrite repeat_length; lia); vm_compute; reflexivity.
Qed.

(* ---- C22 ---- *)
(* Full statement: for all files and cuts.  Missing: as for C21. *)
Theorem C22_cut_file_partial : forall bl fs k items, Forall framed_ok fs -> decoded bl pstate_new (complete k fs) items ->
  exists rd, reader_new (firstn (4 + k) (file_of fs)) = Ok rd /\ yields bl rd items.
Proof. intros bl fs k items H D. destruct (reader_new_file fs k) as [buf E]. rewrite E. eexists. split; [reflexivity|]. now apply yields_cut. Qed.
Print Assumptions C22_cut_file_partial.
(* one byte missing: the last event is not delivered, the others are *)
Example C22_example : forall bl, exists rd, reader_new (firstn (4 + (40 + 27 - 1)) (file_of [ex_rotate; ex_xid; ex_bad])) = Ok rd /\
  yields bl rd [inl (fst ex_rotate, EvRotate (Rotate (tx "binlog.000002") 4))].
Proof.
  intros bl. apply C22_cut_file_partial.
  - repeat apply Forall_cons; try apply Forall_nil; apply ev_ok; try lia; vm_compute; reflexivity.
  - change (complete (40 + 27 - 1) [ex_rotate; ex_xid; ex_bad]) with [ex_rotate].
    unfold ex_rotate, ev. eapply de_ok; [destruct bl; vm_compute; reflexivity|]. apply de_nil.
Qed.

(* ---- C23 ---- *)
(* Full statement: None only if no complete event remains.  Missing: the case of the second disjunct, which is real: *)
Theorem C23_end_means_end_partial : forall bl rd rd', next bl rd = (Ok None, rd') ->
  ~ at_event (rd_file rd) \/
  exists f tail, framed_ok f /\ rd_file rd = frame f ++ tail /\ parse_event bl (rd_parser rd) (fst f) (snd f) = Err (EIo UnexpectedEof).
Proof. exact next_none. Qed.
Print Assumptions C23_end_means_end_partial.
(* ... an event with a short payload ends the iteration although two complete events remain in the file *)
Theorem C23_short_payload_ends_iteration_refuted : forall bl, exists fs rd rd', Forall framed_ok fs /\ length fs = 3%nat /\
  reader_new (file_of fs) = Ok rd /\ next bl rd = (Ok None, rd') /\ at_event (rd_file rd) /\ at_event (rd_file rd').
Proof.
  intros bl. assert (F : forall ty p, ty < 256 -> N.of_nat (length p) < 1000000 -> framed_ok (ev ty p)) by exact ev_ok.
  exists [ex_short; ex_xid; ex_rotate].
  destruct (reader_new_file [ex_short; ex_xid; ex_rotate] 200) as [buf E].
  change (firstn (4 + 200) (file_of [ex_short; ex_xid; ex_rotate])) with (file_of [ex_short; ex_xid; ex_rotate]) in E.
  change (firstn 200 (flat_map frame [ex_short; ex_xid; ex_rotate])) with (frame ex_short ++ flat_map frame [ex_xid; ex_rotate]) in E.
  destruct (next_frame bl (Reader (frame ex_short ++ flat_map frame [ex_xid; ex_rotate]) pstate_new buf) ex_short (flat_map frame [ex_xid; ex_rotate])) as [buf' X].
  { apply ev_ok; vm_compute; reflexivity. }
  { reflexivity. }
  cbn [rd_parser] in X. replace (parse_event bl pstate_new (fst ex_short) (snd ex_short)) with (@Err (event * pstate) (EIo UnexpectedEof)) in X
    by (destruct bl; vm_compute; reflexivity).
  eexists. exists (Reader (flat_map frame [ex_xid; ex_rotate]) pstate_new buf').
  split. { repeat apply Forall_cons; try apply Forall_nil; apply ev_ok; vm_compute; reflexivity. }
  split; [reflexivity|]. split; [exact E|]. split; [exact X|]. cbn [rd_file]. split.
  - exists ex_short, (flat_map frame [ex_xid; ex_rotate]). split; [apply ev_ok; vm_compute; reflexivity|reflexivity].
  - exists ex_xid, (flat_map frame [ex_rotate]). split; [apply ev_ok; vm_compute; reflexivity|reflexivity].
Qed.
Print Assumptions C23_short_payload_ends_iteration_refuted.
(* the first disjunct: a cut event *)
Example C23_example : forall bl, exists rd', next bl (Reader (firstn 20 (frame ex_xid)) pstate_new []) = (Ok None, rd').
Proof. intros bl. destruct (next_partial bl pstate_new [] ex_xid 20) as [b E]; [apply ev_ok; vm_compute; reflexivity|vm_compute; lia|eauto]. Qed.
