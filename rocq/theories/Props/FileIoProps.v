(* C21 and C22 for files of any contents; C94: files read while they are written, and failing reads. *)
From Coq Require Import Strings.String.
From Verif Require Import Base.Tac Base.Bytes Base.Text Base.Res Base.Str Base.Parse Model.Events Model.Reader Model.FileIo Spec.EventSpec Spec.ReaderSpec Spec.TransportSpec Spec.FileSpec
  Proofs.EventProofs Proofs.ReaderProofs Proofs.FileProofs Props.ReaderProps.
Local Open Scope N_scope.

(* ---- C21 ---- *)
(* all files, whatever they contain: what calling next() until None hands out and how that ends *)
Theorem C21_any_bytes : forall bl bytes rd, reader_new bytes = Ok rd -> forall is x, iterates bl rd is x <-> swept bl (PState CkNone []) (skipn 4 bytes) is x.
Proof.
  intros bl bytes rd E is x. unfold reader_new in E. generalize dependent (repeat (n2b 0) (N.to_nat payload_buffer_size)). intros buf E. destruct (read_exact 4 bytes) as [[hd|e| |] rest] eqn:R; try discriminate. destruct (bytes_eqb _ _); [|discriminate].
  injection E as <-. destruct (read_exact_ok _ _ _ _ R) as [-> L]. rewrite skipn_app. replace (length hd) with 4%nat by lia. rewrite skipn_all2 by lia. apply iterates_iff.
Qed.
Print Assumptions C21_any_bytes.
(* ... and there is always exactly one such outcome *)
Theorem C21_one_outcome : forall bl rd, exists is x, iterates bl rd is x /\ forall is' x', iterates bl rd is' x' -> is' = is /\ x' = x.
Proof.
  intros bl [bs st buf]. destruct (swept_total bl (length bs) bs (Nat.le_refl _) st) as (is & x & S). exists is, x. pose proof (swept_iterates bl _ _ _ _ S buf) as I. split; [exact I|].
  intros is' x' J. destruct (iterates_unique bl _ _ _ I _ _ J) as [-> ->]. auto.
Qed.
Print Assumptions C21_one_outcome.
(* files of whole events: exact, short payloads and panics included *)
Theorem C21_whole_file : forall bl fs rd, Forall framed_ok fs -> reader_new (file_of fs) = Ok rd -> forall is x, iterates bl rd is x <-> over bl (PState CkNone []) fs is x.
Proof.
  intros bl fs rd F E is x. rewrite (C21_any_bytes bl _ _ E). change (skipn 4 (file_of fs)) with (flat_map frame fs). split; [|intros O; now apply over_swept].
  intros S. destruct (over_total bl fs pstate_new) as (is' & x' & O). pose proof (over_swept bl _ _ _ _ O F) as S'.
  rewrite <- (iterates_iff bl _ _ []) in S, S'. destruct (iterates_unique bl _ _ _ S _ _ S') as [-> ->]. exact O.
Qed.
Print Assumptions C21_whole_file.
(* ---- C22 ---- *)
(* files cut anywhere: what comes out is what the complete events give *)
Theorem C22_any_cut : forall bl fs k rd, Forall framed_ok fs -> reader_new (firstn (4 + k) (file_of fs)) = Ok rd ->
  forall is x, iterates bl rd is x -> exists y, over bl pstate_new (complete k fs) is y /\ alike x y.
Proof.
  intros bl fs k rd F E is x I. rewrite (C21_any_bytes bl _ _ E) in I. destruct (over_total bl (complete k fs) pstate_new) as (is' & y & O).
  destruct (over_cut bl fs F k _ _ _ O) as (x' & S & A). replace (skipn 4 (firstn (4 + k) (file_of fs))) with (firstn k (flat_map frame fs)) in I by reflexivity.
  rewrite <- (iterates_iff bl _ _ []) in I, S. destruct (iterates_unique bl _ _ _ I _ _ S) as [-> ->]. exists y. split; [exact O|]. destruct y, x'; cbn in *; tauto.
Qed.
Print Assumptions C22_any_cut.
(* a complete event, one too short for its type, and one more; cut in the header of a fourth *)
Definition file21 : list framed := [ex_rotate; ex_short; ex_xid; ex_xid].
Example C21_exact_example : forall bl, exists rd, Forall framed_ok file21 /\ reader_new (firstn (4 + 100) (file_of file21)) = Ok rd /\
  iterates bl rd [inl (fst ex_rotate, EvRotate (Rotate (tx "binlog.000002") 4))] (Ended (frame ex_xid ++ firstn 10 (frame ex_xid))).
Proof.
  intros bl. destruct (reader_new_file file21 100) as [buf E]. eexists. split; [|split; [exact E|]].
  - repeat apply Forall_cons; try apply Forall_nil; apply ev_ok; vm_compute; reflexivity.
  - apply iterates_iff. change (firstn 100 (flat_map frame file21)) with (frame ex_rotate ++ frame ex_short ++ frame ex_xid ++ firstn 10 (frame ex_xid)).
    eapply sw_event; [apply ev_ok; vm_compute; reflexivity|destruct bl; vm_compute; reflexivity|]. apply sw_stop; [apply ev_ok; vm_compute; reflexivity|destruct bl; vm_compute; reflexivity].
Qed.

(* ---- C94 ---- *)
(* a finished file and no errors: how the bytes are handed over, and interruptions, make no difference to any sequence of calls *)
Theorem C94_finished_file : forall bl rs bytes, sees rs = map Byte bytes ->
  match freader_new rs, reader_new bytes with
  | Ok a, Ok b => forall n, calls (fnext bl) n a = calls (next bl) n b
  | Err e, Err e' => e = e'
  | _, _ => False
  end.
Proof.
  intros bl rs bytes S. unfold freader_new, reader_new. destruct (file_exact_sim 4 rs bytes S) as (r & x & y & E1 & E2 & S2). change (N.to_nat 4) with 4%nat in E1. rewrite E1, E2. clear E1.
  unfold read_exact in E2. destruct r as [h|e| |]; [|reflexivity|destruct (_ <? _); discriminate..]. destruct (bytes_eqb h magic_number); [|reflexivity]. intros n. apply fcalls_sim. unfold fsim. auto.
Qed.
Print Assumptions C94_finished_file.
(* Full statement: whenever the file ends for now or a read fails, None or the error is returned, and the calls after it go on
   without losing an event.  Missing: ends and errors inside an event, for which it is false. *)
Theorem C94_between_events_partial : forall bl ts os st st2 rs buf t, Forall turn_ok ts -> follows bl st ts os st2 -> sees rs = flat_map turn_seen ts ++ t ->
  exists rs2 buf2, fcalls bl (FReader rs st buf) os (FReader rs2 st2 buf2) /\ sees rs2 = t.
Proof. intros bl ts os st st2 rs buf t K F S. exact (follow bl st ts os st2 F K rs buf t S). Qed.
Print Assumptions C94_between_events_partial.
(* inside an event, exactly: the part that was there is gone; the next call takes what follows it for the beginning of an event *)
Theorem C94_inside_event : forall bl f k st rs buf t, framed_ok f -> (k < length (frame f))%nat ->
  (sees rs = map Byte (firstn k (frame f)) ++ AtEnd :: t -> exists rs', fnext bl (FReader rs st buf) = (Ok None, FReader rs' st buf) /\ sees rs' = t) /\
  (sees rs = map Byte (firstn k (frame f)) ++ AtFault :: t -> exists rs', fnext bl (FReader rs st buf) = (Ok (Some (inr (EIo OtherIo))), FReader rs' st buf) /\ sees rs' = t).
Proof.
  intros bl f k st rs buf t F L. split; intros S; [destruct (fnext_cut bl (FReader rs st buf) f k _ _ _ F L S (st_end t)) as (rs' & S' & E)|destruct (fnext_cut bl (FReader rs st buf) f k _ _ _ F L S (st_fault t)) as (rs' & S' & E)];
    exists rs'; auto.
Qed.
Print Assumptions C94_inside_event.
(* the server writes an event in two pieces and another one; the program looks between the pieces: neither is ever handed out *)
Lemma fcalls_nothing bl n : forall st buf, calls (fnext bl) n (FReader [] st buf) = repeat (Ok None) n.
Proof. induction n as [|n IH]; intros st buf; [reflexivity|]. cbn [calls repeat]. change (fnext bl (FReader [] st buf)) with (@Ok (option item) None, FReader [] st buf). cbv iota beta. now rewrite IH. Qed.
Theorem C94_grown_file_refuted : forall bl, exists fs rs rd, Forall framed_ok fs /\ length fs = 2%nat /\ over bl pstate_new fs (map (fun f => inl (fst f, EvXid 77)) fs) (Ended []) /\
  filter (fun s => match s with Byte _ => true | _ => false end) (sees rs) = map Byte (file_of fs) /\ freader_new rs = Ok rd /\
  forall n, calls (fnext bl) n rd = repeat (Ok None) n.
Proof.
  intros bl. exists [ex_xid; ex_xid], [Gave (file_magic ++ firstn 20 (frame ex_xid)); Gave []; Gave (skipn 20 (frame ex_xid) ++ frame ex_xid)].
  exists (FReader [Gave (firstn 20 (frame ex_xid)); Gave []; Gave (skipn 20 (frame ex_xid) ++ frame ex_xid)] pstate_new (repeat (n2b 0) (N.to_nat payload_buffer_size))).
  assert (F : framed_ok ex_xid) by (apply ev_ok; vm_compute; reflexivity).
  split; [auto|]. split; [reflexivity|]. split; [|split; [vm_compute; reflexivity|split]].
  - do 2 (eapply ov_event; [destruct bl; vm_compute; reflexivity|]). constructor.
  - unfold freader_new. generalize (repeat (n2b 0) (N.to_nat payload_buffer_size)). intros buf. vm_compute. reflexivity.
  - generalize (repeat (n2b 0) (N.to_nat payload_buffer_size)). intros buf [|[|n]]; [reflexivity|cbn [calls repeat]..].
    + assert (E : fst (fnext bl (FReader [Gave (firstn 20 (frame ex_xid)); Gave []; Gave (skipn 20 (frame ex_xid) ++ frame ex_xid)] pstate_new buf)) = Ok None) by (destruct bl; vm_compute; reflexivity).
      destruct (fnext _ _) as [r s]. cbn [fst] in E. now rewrite E.
    + assert (E : fnext bl (FReader [Gave (firstn 20 (frame ex_xid)); Gave []; Gave (skipn 20 (frame ex_xid) ++ frame ex_xid)] pstate_new buf) =
        (Ok None, FReader [Gave (skipn 20 (frame ex_xid) ++ frame ex_xid)] pstate_new buf)) by (destruct bl; vm_compute; reflexivity). rewrite E. cbv iota beta.
      assert (E2 : fnext bl (FReader [Gave (skipn 20 (frame ex_xid) ++ frame ex_xid)] pstate_new buf) = (Ok None, FReader [] pstate_new buf)) by (destruct bl; vm_compute; reflexivity).
      rewrite E2. cbv iota beta. now rewrite fcalls_nothing.
Qed.
Print Assumptions C94_grown_file_refuted.
(* a log that is followed: an event, the end, an interrupted read, a failed read, another event in two portions, one that does not decode, the end, an event *)
Definition followed : list answer :=
  [Gave (firstn 30 (frame ex_rotate)); Gave (skipn 30 (frame ex_rotate)); Gave []; Gave []; Interrupted; Faulted; Gave (firstn 5 (frame ex_xid)); Interrupted; Gave (skipn 5 (frame ex_xid) ++ frame ex_bad);
   Gave []; Gave (frame ex_xid)].
Example C94_example : forall bl buf, exists rs2 buf2, sees rs2 = [] /\ fcalls bl (FReader followed pstate_new buf)
  [Some (inl (fst ex_rotate, EvRotate (Rotate (tx "binlog.000002") 4))); None; None; Some (inr (EIo OtherIo)); Some (inl (fst ex_xid, EvXid 77)); Some (inr (EIo InvalidData)); None; Some (inl (fst ex_xid, EvXid 77))]
  (FReader rs2 pstate_new buf2).
Proof.
  intros bl buf. destruct (C94_between_events_partial bl [Event ex_rotate; TheEnd; TheEnd; AnError; Event ex_xid; Event ex_bad; TheEnd; Event ex_xid]
    [Some (inl (fst ex_rotate, EvRotate (Rotate (tx "binlog.000002") 4))); None; None; Some (inr (EIo OtherIo)); Some (inl (fst ex_xid, EvXid 77)); Some (inr (EIo InvalidData)); None; Some (inl (fst ex_xid, EvXid 77))]
    pstate_new pstate_new followed buf []) as (rs2 & b2 & C & S).
  - repeat constructor; try (apply ev_ok; vm_compute; reflexivity).
  - eapply fo_event; [destruct bl; vm_compute; reflexivity|]. apply fo_end, fo_end, fo_fault. eapply fo_event; [destruct bl; vm_compute; reflexivity|].
    eapply fo_error; [destruct bl; vm_compute; reflexivity|discriminate|]. apply fo_end. eapply fo_event; [destruct bl; vm_compute; reflexivity|]. constructor.
  - vm_compute. reflexivity.
  - exists rs2, b2. auto.
Qed.
