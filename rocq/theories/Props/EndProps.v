(* Claimed properties of how the iteration over a connection ends: C103. *)
From Coq Require Import Strings.String.
From Verif Require Import Base.Tac Base.Bytes Base.Text Base.Res Base.Str Base.Parse Model.Events Model.Responses Model.Channel
  Spec.EventSpec Spec.ChannelSpec Spec.TransportSpec Spec.PipelineSpec Proofs.EventProofs Proofs.ChannelProofs Proofs.PipelineProofs Props.EventProps Props.ChannelProps Props.RowProps Props.SessionProps Props.PlaceProps Props.AnyStreamProps.
Local Open Scope N_scope.

(* ---- what has been read when a read succeeds, and what is left when it fails ---- *)
Lemma recv_sound cs : forall n acc r cs', recv_exact n cs acc = (Ok r, cs') ->
  exists x, r = acc ++ x /\ length x = n /\ in_bytes cs = x ++ in_bytes cs' /\ (flowing cs -> flowing cs').
Proof.
  induction cs as [|[bs| |] cs IH]; intros [|n] acc r cs' E; cbn [recv_exact] in E; try discriminate E;
    try (injection E as <- <-; exists []; rewrite app_nil_r; now repeat split).
  destruct (Nat.leb_spec (length bs) (S n)) as [L|L].
  - apply IH in E. destruct E as (x & -> & X & B & F). exists (bs ++ x). rewrite app_length, <- !app_assoc. cbn [in_bytes flat_map]. fold (in_bytes cs). rewrite B.
    repeat split; [lia|]. intros K. inversion K; auto.
  - injection E as <- <-. exists (firstn (S n) bs). split; [reflexivity|]. split; [rewrite firstn_length; lia|]. split.
    + cbn [in_bytes flat_map]. now rewrite app_assoc, firstn_skipn.
    + intros K. inversion K; subst. constructor; [split; discriminate|assumption].
Qed.
Lemma recv_fails cs : forall n acc, flowing cs -> (exists r cs', recv_exact n cs acc = (Ok r, cs')) \/ recv_exact n cs acc = (Err (EIo UnexpectedEof), []).
Proof.
  induction cs as [|[bs| |] cs IH]; intros [|n] acc F; cbn [recv_exact]; eauto; inversion F as [|? ? [H1 H2] F']; subst; try (now destruct H1); try (now destruct H2).
  destruct (Nat.leb_spec (length bs) (S n)); eauto.
Qed.
Lemma packet_sound cs p cs' : read_packet cs = (Ok p, cs') -> packet_ok p /\ in_bytes cs = wire p ++ in_bytes cs' /\ (flowing cs -> flowing cs').
Proof.
  unfold read_packet. destruct (recv_exact 4 cs []) as [[hd| | |] c1] eqn:E1; try discriminate.
  destruct (recv_exact _ c1 []) as [[b| | |] c2] eqn:E2; try discriminate. intros E. injection E as <- <-.
  apply recv_sound in E1. destruct E1 as (x & -> & X & B1 & F1). apply recv_sound in E2. destruct E2 as (y & -> & Y & B2 & F2). cbn [app] in *.
  destruct x as [|b1 [|b2 [|b3 [|b4 [|]]]]]; try discriminate X. cbn [firstn skipn] in *.
  pose proof (le_dec_lt [b1; b2; b3]) as L3. pose proof (le_dec_lt [b4]) as L1. cbn [length] in L3, L1. change (256 ^ N.of_nat 3) with 16777216 in L3. change (256 ^ N.of_nat 1) with 256 in L1.
  assert (NL : N.of_nat (length y) = le_dec [b1; b2; b3]) by lia. unfold packet_ok, wire. cbn [fst snd]. rewrite NL.
  split; [auto|]. split; [|auto]. rewrite B1, B2. rewrite (le_enc_dec [b1; b2; b3] : le_enc 3 _ = _). cbn [app].
  assert (Z : n2b (le_dec [b4]) = b4) by (cbn [le_dec]; rewrite N.mul_0_r, N.add_0_r; apply n2b_b2n). now rewrite Z.
Qed.
Lemma packet_fails cs : flowing cs -> (exists p cs', read_packet cs = (Ok p, cs')) \/ read_packet cs = (Err (EIo UnexpectedEof), []).
Proof.
  intros F. unfold read_packet. destruct (recv_fails cs 4 [] F) as [(hd & c1 & E1)|E1]; rewrite E1; [|now right].
  destruct (recv_sound _ _ _ _ _ E1) as (_ & _ & _ & _ & F1).
  destruct (recv_fails c1 (N.to_nat (le_dec (firstn 3 hd))) [] (F1 F)) as [(b & c2 & E2)|E2]; rewrite E2; [left; eauto|now right].
Qed.

(* ---- when next() says that there is nothing more ---- *)
(* [None] means that a whole packet that begins with 254 has arrived; any connection, whatever goes wrong on it *)
Lemma next_none bl cs st s' : stream_next bl (Stream cs st) = (Ok None, s') ->
  exists d sq, packet_ok (n2b 254 :: d, sq) /\ in_bytes cs = wire (n2b 254 :: d, sq) ++ in_bytes (sm_in s').
Proof.
  unfold stream_next. cbn [sm_in sm_parser]. destruct (read_packet cs) as [[[b sq]| | |] c1] eqn:E; try discriminate.
  apply packet_sound in E. destruct E as (P & B & _). destruct b as [|x b]; [discriminate|]. cbn [byte_at nth_error].
  destruct (b2n x =? resp_ok). { destruct (stream_event bl st (x :: b)) as [[[? ?] ?]| | |]; discriminate. }
  destruct (b2n x =? resp_error). { destruct (stream_error (x :: b)); discriminate. }
  destruct (N.eqb_spec (b2n x) resp_eof) as [X|]; [|discriminate]. intros H. injection H as <-.
  exists b, sq. assert (Z : n2b 254 = x) by (rewrite <- (n2b_b2n x), X; reflexivity). rewrite Z. auto.
Qed.
Theorem C103_none : forall bl st cs, flowing cs ->
  fst (stream_next bl (Stream cs st)) = Ok None <-> exists d sq t, packet_ok (n2b 254 :: d, sq) /\ in_bytes cs = wire (n2b 254 :: d, sq) ++ t.
Proof.
  intros bl st cs F. split.
  - destruct (stream_next bl (Stream cs st)) as [r s'] eqn:E. cbn [fst]. intros ->. apply next_none in E. destruct E as (d & sq & E). eauto.
  - intros (d & sq & t & P & B). destruct (stream_eof bl st cs t [] d sq P F B) as (c & E & _). rewrite !app_nil_r in E. now rewrite E.
Qed.
Print Assumptions C103_none.

(* ---- a loop that goes on after errors ---- *)
Lemma calls_closed bl st n : calls (stream_next bl) n (Stream [] st) = repeat (Ok (Some (inr (EIo UnexpectedEof)))) n.
Proof. induction n; cbn [calls repeat]; [reflexivity|]. cbn. now rewrite IHn. Qed.
(* It ends exactly if among the packets that arrive as a whole there is one that begins with 254 (a closed connection
   does not end it).  Calls after a panic are counted too. *)
Theorem C103_ends_iff : forall bl cs st, flowing cs ->
  (exists n, In (Ok None) (calls (stream_next bl) n (Stream cs st))) <->
  exists ps d sq t, Forall packet_ok ps /\ packet_ok (n2b 254 :: d, sq) /\ in_bytes cs = flat_map wire ps ++ wire (n2b 254 :: d, sq) ++ t.
Proof.
  intros bl cs st F. split.
  - intros [n H]. revert cs st F H. induction n as [|n IH]; intros cs st F H; [destruct H|]. cbn [calls] in H.
    destruct (stream_next bl (Stream cs st)) as [r s'] eqn:E. destruct H as [H|H].
    + subst r. apply next_none in E. destruct E as (d & sq & P & B). exists [], d, sq, (in_bytes (sm_in s')). auto.
    + destruct (packet_fails cs F) as [(p & c1 & R)|R].
      * destruct (packet_sound _ _ _ R) as (P & B & F1). destruct s' as [c2 st2].
        assert (c2 = c1) as ->.
        { unfold stream_next in E. cbn [sm_in sm_parser] in E. rewrite R in E. destruct p as [b sq]. destruct (byte_at b 0) as [x| | |]; [|now injection E..].
          destruct (x =? resp_ok). { destruct (stream_event bl st b) as [[[? ?] ?]| | |]; now injection E. }
          destruct (x =? resp_error); [now injection E|]. destruct (x =? resp_eof); now injection E. }
        destruct (IH c1 st2 (F1 F) H) as (ps & d & sq & t & A1 & A2 & A3). exists (p :: ps), d, sq, t. split; [now constructor|]. split; [exact A2|].
        cbn [flat_map]. now rewrite B, A3, <- app_assoc.
      * assert (s' = Stream [] st) as ->. { unfold stream_next in E. cbn [sm_in sm_parser] in E. rewrite R in E. now injection E. }
        rewrite calls_closed in H. apply repeat_spec in H. discriminate.
  - intros (ps & d & sq & t & A1 & A2 & A3). revert cs st F A3. induction A1 as [|p ps P A1 IH]; intros cs st F B.
    + destruct (stream_eof bl st cs t [] d sq A2 F B) as (c & E & _). rewrite !app_nil_r in E. exists 1%nat. cbn [calls]. rewrite E. now left.
    + cbn [flat_map] in B. rewrite <- app_assoc in B. destruct (read_packet_ok cs p _ [] P F B) as (c1 & R & F1 & B1). rewrite !app_nil_r in R.
      destruct (stream_next bl (Stream cs st)) as [r [c2 st2]] eqn:E.
      assert (c2 = c1) as ->.
      { unfold stream_next in E. cbn [sm_in sm_parser] in E. rewrite R in E. destruct p as [b sq']. destruct (byte_at b 0) as [x| | |]; [|now injection E..].
        destruct (x =? resp_ok). { destruct (stream_event bl st b) as [[[? ?] ?]| | |]; now injection E. }
        destruct (x =? resp_error); [now injection E|]. destruct (x =? resp_eof); now injection E. }
      destruct (IH c1 st2 F1 B1) as [n H]. exists (S n). cbn [calls]. rewrite E. now right.
Qed.
Print Assumptions C103_ends_iff.

Lemma takes_calls bl s is s' : takes bl s is s' -> forall k, calls (stream_next bl) (length is + k) s = map (fun i => Ok (Some i)) is ++ calls (stream_next bl) k s'.
Proof. induction 1 as [|s i s1 is s2 E T IH]; intros k; [reflexivity|]. cbn [length Nat.add calls map app]. rewrite E. cbv iota. now rewrite IH. Qed.
(* Full statement: when the server's log has been delivered and the connection is closed, iteration is over.  False: the
   same error comes again and again, however often one asks, wherever the log was cut. *)
Theorem C103_closed_for_ever : forall bl ck evs its ps w cs n k, log_sent (Writer ck []) evs its ps w -> flowing cs -> in_bytes cs = firstn n (flat_map wire ps) ->
  let got := firstn (arrived n ps) its in
  calls (stream_next bl) (length got + k) (stream_new cs ck) = map (fun i => Ok (Some i)) got ++ repeat (Ok (Some (inr (EIo UnexpectedEof)))) k.
Proof.
  intros bl ck evs its ps w cs n k L F B got. destruct (pipeline_any bl _ _ _ _ _ L n cs (PState ck []) (mirrors_new ck) F B) as (c' & st' & T & X).
  fold got in T. rewrite (takes_calls _ _ _ _ T). f_equal. destruct k as [|k]; [reflexivity|]. cbn [calls repeat]. rewrite X. cbv iota. f_equal. apply calls_closed.
Qed.
Print Assumptions C103_closed_for_ever.
Definition xid_packet : packet := (said_body (SEvent h16 (le_enc 8 77)), 1).
Theorem C103_ends_refuted : forall bl, exists cs, flowing cs /\ in_bytes cs = wire xid_packet /\
  forall n r, In r (calls (stream_next bl) n (stream_new cs CkNone)) -> exists i, r = Ok (Some i).
Proof.
  intros bl. exists [Got (wire xid_packet)]. split; [repeat constructor; discriminate|]. split; [apply app_nil_r|]. intros [|n] r H; [destruct H|].
  assert (E : stream_next bl (stream_new [Got (wire xid_packet)] CkNone) = (Ok (Some (inl (h16, EvXid 77))), stream_new [] CkNone)) by (destruct bl; vm_compute; reflexivity).
  cbn [calls] in H. rewrite E in H. destruct H as [<-|H]; [eauto|]. unfold stream_new in H. rewrite calls_closed in H. apply repeat_spec in H. subst r. eauto.
Qed.
Print Assumptions C103_ends_refuted.

(* ---- a server that does not wait at the end of its log (asked for with server id 0, `dump_id` in SessionProps) sends an EOF packet there ---- *)
Lemma whole_then bl w evs its ps w' : log_sent w evs its ps w' -> forall c st t, mirrors w st -> flowing c -> in_bytes c = flat_map wire ps ++ t ->
  exists c' st', takes bl (Stream c st) its (Stream c' st') /\ flowing c' /\ in_bytes c' = t.
Proof.
  induction 1 as [w|w h e bs w1 es its s ps w2 Hh W P L IH]; intros c st t M F B.
  - exists c, st. split; [constructor|auto].
  - set (p := (n2b 0 :: header_bytes h ++ bs, s)) in *. cbn [flat_map] in B. rewrite <- app_assoc in B.
    pose proof (emits_shows bl _ _ _ _ _ _ M W) as E. destruct (shown w (h, e)) as [[h' e']|er].
    + destruct E as (-> & st1 & E & M1). destruct (stream_packet bl c p st _ h e' bs s st1 eq_refl Hh P F B E) as (c1 & E1 & F1 & B1).
      destruct (IH _ _ _ M1 F1 B1) as (c' & st' & T & X). exists c', st'. split; [|exact X]. eapply ta_item; eauto.
    + destruct E as (E & M1). destruct (read_packet_ok c p _ [] P F B) as (c1 & E1 & F1 & B1). rewrite !app_nil_r in E1.
      destruct (IH _ _ _ M1 F1 B1) as (c' & st' & T & X). exists c', st'. split; [|exact X]. eapply ta_item; [|exact T].
      unfold stream_next. cbn [sm_in sm_parser]. rewrite E1. unfold p at 1. cbn [fst]. rewrite byte_at_head by lia. change (0 =? resp_ok) with true. cbv iota.
      unfold p. cbn [fst]. rewrite stream_event_ok by exact Hh. rewrite E. reflexivity.
Qed.
(* then the iteration hands out the log and ends there *)
Theorem C103_end_of_log : forall bl ck evs its ps w cs d sq t, log_sent (Writer ck []) evs its ps w -> packet_ok (n2b 254 :: d, sq) -> flowing cs ->
  in_bytes cs = flat_map wire ps ++ wire (n2b 254 :: d, sq) ++ t ->
  calls (stream_next bl) (length its + 1) (stream_new cs ck) = map (fun i => Ok (Some i)) its ++ [Ok None].
Proof.
  intros bl ck evs its ps w cs d sq t L P F B. destruct (whole_then bl _ _ _ _ _ L cs (PState ck []) _ (mirrors_new ck) F B) as (c & st & T & F1 & B1).
  rewrite (takes_calls _ _ _ _ T). f_equal. destruct (stream_eof bl st c t [] d sq P F1 B1) as (c' & E & _). rewrite !app_nil_r in E. cbn [calls]. now rewrite E.
Qed.
Print Assumptions C103_end_of_log.
(* [None] is not final: what follows the EOF packet is handed out by further calls *)
Theorem C103_final_refuted : forall bl, exists cs, flowing cs /\ in_bytes cs = wire ([n2b 254], 1) ++ wire xid_packet /\
  calls (stream_next bl) 2 (stream_new cs CkNone) = [Ok None; Ok (Some (inl (h16, EvXid 77)))].
Proof.
  intros bl. exists [Got (wire ([n2b 254], 1) ++ wire xid_packet)]. split; [repeat constructor; discriminate|]. split; [apply app_nil_r|]. destruct bl; vm_compute; reflexivity.
Qed.
Print Assumptions C103_final_refuted.

(* ---- a loop that stops at the first error ---- *)
(* every event has cost 24 bytes at least: 4 before the packet, the status, 19 of the header *)
Lemma event_cost bl s x s' : stream_next bl s = (Ok (Some (inl x)), s') -> (24 + length (in_bytes (sm_in s')) <= length (in_bytes (sm_in s)))%nat.
Proof.
  unfold stream_next. destruct (read_packet (sm_in s)) as [[[b sq]| | |] c1] eqn:E; try discriminate. apply packet_sound in E. destruct E as (_ & B & _).
  destruct (byte_at b 0) as [y| | |]; try discriminate. destruct (y =? resp_ok).
  - destruct (stream_event bl (sm_parser s) b) as [[[h e] st]| | |] eqn:V; try discriminate. intros H. injection H as _ <-. cbn [sm_in]. rewrite B.
    unfold wire. rewrite !app_length, le_enc_length. cbn [fst length]. unfold stream_event in V.
    destruct (Nat.ltb_spec (length (skipn 1 b)) 19) as [L|L]; [rewrite header_short in V by exact L; discriminate|]. rewrite skipn_length in L. lia.
  - destruct (y =? resp_error). { destruct (stream_error b) as [v| | |] eqn:V; try discriminate. unfold stream_error in V. destruct (parse_error_packet (skipn 1 b)); discriminate. }
    destruct (y =? resp_eof); discriminate.
Qed.
Theorem C103_cost : forall bl s evs s', takes bl s (map inl evs) s' -> (24 * length evs + length (in_bytes (sm_in s')) <= length (in_bytes (sm_in s)))%nat.
Proof.
  intros bl s evs. revert s. induction evs as [|x evs IH]; intros s s' T; inversion T as [|? ? s1 ? ? E T']; subst; cbn [length]; [lia|].
  apply event_cost in E. apply IH in T'. lia.
Qed.
Print Assumptions C103_cost.
(* whatever arrives, in whatever portions and with whatever errors, such a loop ends *)
Theorem C103_stops : forall bl s, exists evs s', takes bl s (map inl evs) s' /\ (24 * length evs <= length (in_bytes (sm_in s)))%nat /\
  forall x, fst (stream_next bl s') <> Ok (Some (inl x)).
Proof.
  intros bl s. remember (length (in_bytes (sm_in s))) as n eqn:H. revert s H. induction n as [n IH] using lt_wf_ind. intros s H.
  destruct (stream_next bl s) as [r s1] eqn:E. assert (K : (exists x, r = Ok (Some (inl x))) \/ forall x, r <> Ok (Some (inl x))).
  { destruct r as [[[x|x]|]| | |]; eauto; right; discriminate. }
  destruct K as [[x ->]|K].
  - pose proof (event_cost _ _ _ _ E) as C. destruct (IH (length (in_bytes (sm_in s1))) ltac:(lia) s1 eq_refl) as (evs & s' & T & C' & X).
    exists (x :: evs), s'. split; [cbn [map]; eapply ta_item; eauto|]. split; [cbn [length]; lia|exact X].
  - exists [], s. split; [constructor|]. split; [cbn; lia|]. now rewrite E.
Qed.
Print Assumptions C103_stops.
(* one event, an error packet, one event, an EOF packet, one event, and then a closed connection *)
Definition end_bytes : list byte := wire xid_packet ++ wire (said_body (SError 1236 (Some (tx "HY000")) (tx "gone")), 2) ++ wire xid_packet ++ wire ([n2b 254], 3) ++ wire xid_packet ++ [n2b 1].
Example C103_example : forall bl, calls (stream_next bl) 7 (stream_new [Got (firstn 40 end_bytes); Got (skipn 40 end_bytes)] CkNone) =
  [Ok (Some (inl (h16, EvXid 77))); Ok (Some (inr (EServer (tx "Event stream error.") 1236 (tx "gone") (Some (tx "HY000"))))); Ok (Some (inl (h16, EvXid 77)));
   Ok None; Ok (Some (inl (h16, EvXid 77))); Ok (Some (inr (EIo UnexpectedEof))); Ok (Some (inr (EIo UnexpectedEof)))].
Proof. intros bl. destruct bl; vm_compute; reflexivity. Qed.
(* a table map, two row events with checksums, an EOF packet with warnings and status, and something after it *)
Example C103_example_log : exists its w, log_sent (Writer CkCrc32 []) [x84_t; x84_r; x85_r2] its pk_rest85 w /\ packet_ok (n2b 254 :: le_enc 2 0 ++ le_enc 2 2, 4) /\
  forall bl, calls (stream_next bl) 4 (stream_new [Got (flat_map wire pk_rest85 ++ wire (n2b 254 :: le_enc 2 0 ++ le_enc 2 2, 4) ++ [n2b 9])] CkCrc32) =
    [Ok (Some (inl x84_t)); Ok (Some (inl x84_r)); Ok (Some (inl x85_r2)); Ok None].
Proof.
  exists (map inl [x84_t; x84_r; x85_r2]), (Writer CkCrc32 [ex_table]). pose proof (sent_written _ _ _ _ w_rest85) as L. split; [exact L|].
  split; [split; vm_compute; reflexivity|]. intros bl.
  refine (C103_end_of_log bl CkCrc32 _ _ _ _ [Got _] (le_enc 2 0 ++ le_enc 2 2) 4 [n2b 9] L _ _ _); [split; vm_compute; reflexivity|repeat constructor; discriminate|apply app_nil_r].
Qed.
