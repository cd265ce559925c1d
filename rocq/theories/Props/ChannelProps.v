(* Claimed properties of packets and of the network event stream (C55-C60, C70). *)
From Coq Require Import Strings.String.
From Verif Require Import Base.Tac Base.Bytes Base.Text Base.Res Base.Str Base.Parse Model.Events Model.Responses Model.Channel
  Spec.EventSpec Spec.ChannelSpec Proofs.EventProofs Proofs.ChannelProofs Props.EventProps.
Local Open Scope N_scope.

(* ---- C55 ---- *)
(* however the bytes are cut into portions on their way; [t] is what follows *)
Theorem C55_read_back : forall ps cs t, Forall packet_ok ps -> flowing cs -> in_bytes cs = flat_map wire ps ++ t ->
  exists cs', read_many (length ps) cs = (Ok ps, cs') /\ flowing cs' /\ in_bytes cs' = t.
Proof.
  intros ps cs t P F B. destruct (read_many_ok ps cs t [] P F B) as (c & E & X). rewrite !app_nil_r in E. exists c. auto.
Qed.
Print Assumptions C55_read_back.
(* what write_packet hands to an operating system that takes every buffer as a whole *)
Theorem C55_written : forall p s k os, packet_ok (p, s) -> (4 + length p <= k)%nat ->
  write_packet p s (Took k :: Took k :: Took k :: os) = (Ok tt, wire (p, s), os).
Proof. intros p s k os [P1 P2] K. rewrite write_packet_whole; [reflexivity|exact P1|lia|lia]. Qed.
Print Assumptions C55_written.
Definition pk1 : packet := (map n2b [1; 2; 3], 0).
Definition pk2 : packet := ([], 255).
Definition pk3 : packet := (repeat (n2b 7) 300, 1).
Example C55_example : Forall packet_ok [pk1; pk2; pk3] /\
  read_many 3 [Got (firstn 2 (wire pk1)); Got []; Got (skipn 2 (wire pk1) ++ wire pk2 ++ firstn 100 (wire pk3)); Got (skipn 100 (wire pk3))] = (Ok [pk1; pk2; pk3], []).
Proof. split; [repeat constructor; cbn; lia|]. vm_compute. reflexivity. Qed.
(* from 16 MiB on write_packet panics *)
Example C55_example_long : forall p s os, N.of_nat (length p) = 16777216 -> fst (fst (write_packet p s os)) = Panic.
Proof. intros p s os H. unfold write_packet. rewrite H. reflexivity. Qed.

(* ---- C56 ---- *)
(* a short write of the body: Ok, but two bytes of the packet were not sent *)
Theorem C56_short_write_refuted : exists p s os sent os', packet_ok (p, s) /\ write_packet p s os = (Ok tt, sent, os') /\ sent <> wire (p, s).
Proof.
  exists (map n2b [3; 65; 66]), 0, [Took 3; Took 1; Took 1]. eexists. eexists. split; [split; cbn; lia|]. split; [vm_compute; reflexivity|]. discriminate.
Qed.
Print Assumptions C56_short_write_refuted.
(* Full statement: Ok implies sent = wire (p, s).  Missing: the length of the body, which is what the last write took. *)
Theorem C56_header_and_prefix_partial : forall p s os sent os', packet_ok (p, s) -> write_packet p s os = (Ok tt, sent, os') ->
  exists u1 u2 n, os = u1 ++ u2 ++ Took n :: os' /\ gone 3 u1 /\ gone 1 u2 /\ sent = firstn (4 + n) (wire (p, s)) /\ ((length p <= n)%nat -> sent = wire (p, s)).
Proof.
  intros p s os sent os' [P1 P2] H. destruct (write_packet_ok p s os sent os' P1 H) as (u1 & u2 & n & E & G1 & G2 & S'). exists u1, u2, n. split; [exact E|]. split; [exact G1|]. split; [exact G2|].
  split; [exact S'|]. intros L. rewrite S'. apply firstn_all2. unfold wire. rewrite !app_length, le_enc_length. cbn [length fst]. lia.
Qed.
Print Assumptions C56_header_and_prefix_partial.
(* exactly, for all answers of the operating system: interrupted calls are repeated in the header, but not in the body; an error ends it, with
   the bytes taken until then; the body gets one write, and whatever that takes is taken for all of it *)
Theorem C56_exact : forall p s os r bs os', packet_ok (p, s) ->
  write_packet p s os = (r, bs, os') <->
  exists u f n, os = u ++ os' /\ written u f n /\ bs = firstn n (wire (p, s)) /\
    match f with Whole => r = Ok tt | Refused => r = Err (EIo OtherIo) | Blocked => r = Diverge /\ os' = [] end.
Proof.
  intros p s os r bs os' [P1 P2]. cbn [fst] in P1.
  assert (B : (16777216 <=? N.of_nat (length p) mod u32max1) = false) by (rewrite N.mod_small by (unfold u32max1; lia); apply N.leb_gt; lia).
  assert (M : le_enc 3 (N.of_nat (length p) mod u32max1) = le_enc 3 (N.of_nat (length p))) by (now rewrite N.mod_small by (unfold u32max1; lia)).
  split.
  - intros H. destruct (written_some os) as (u & r0 & f & n & -> & W & Z). pose proof (writes_went p s u n r0 B M f W) as X. exists u, f, n.
    destruct f; [rewrite X in H; injection H as <- <- <-; auto|rewrite X in H; injection H as <- <- <-; auto|]. rewrite (Z eq_refl) in *. rewrite app_nil_r in H. rewrite X in H. injection H as <- <- <-. auto.
  - intros (u & f & n & -> & W & -> & R). pose proof (writes_went p s u n os' B M f W) as X. destruct f; [now subst r|now subst r|]. destruct R as [-> ->]. now rewrite app_nil_r.
Qed.
Print Assumptions C56_exact.
Example C56_example_signals : write_packet (map n2b [3; 65; 66]) 7 [Took 1; Signal; Took 9; Signal; Signal; Took 1; Signal; Took 5] = (Err (EIo OtherIo), firstn 4 (wire (map n2b [3; 65; 66], 7)), [Took 5]) /\
  written [Took 1; Signal; Took 9; Signal; Signal; Took 1; Signal] Refused 4.
Proof.
  split; [vm_compute; reflexivity|]. apply (wp_body [Took 1; Signal; Took 9] [Signal; Signal; Took 1] Signal); [|repeat constructor|now left].
  apply g_part; [lia|]. apply g_again, g_last. lia.
Qed.
Example C56_example : write_packet (map n2b [3; 65; 66]) 7 [Took 2; Took 1; Took 9; Took 2] = (Ok tt, firstn 6 (wire (map n2b [3; 65; 66], 7)), []).
Proof. vm_compute. reflexivity. Qed.

(* ---- C57 ---- *)
(* Full statement: for all packet sequences.  Missing: events on which the decoder panics (C33) and empty packets (below). *)
Theorem C57_stream_in_order_partial : forall bl st ss is st' ps cs t,
  streamed bl st ss is st' -> Forall said_ok ss -> map fst ps = map said_body ss -> Forall packet_ok ps ->
  flowing cs -> in_bytes cs = flat_map wire ps ++ t ->
  exists cs', takes bl (Stream cs st) is (Stream cs' st') /\ flowing cs' /\ in_bytes cs' = t.
Proof.
  intros bl st ss is st' ps cs t S O M P F B. destruct (stream_takes bl st ss is st' S cs t [] ps O M P F B) as (c & T & X).
  rewrite !app_nil_r in T. exists c. auto.
Qed.
Print Assumptions C57_stream_in_order_partial.
Theorem C57_eof_ends : forall bl st d sq cs t, packet_ok (n2b 254 :: d, sq) -> flowing cs -> in_bytes cs = wire (n2b 254 :: d, sq) ++ t ->
  exists cs', stream_next bl (Stream cs st) = (Ok None, Stream cs' st) /\ flowing cs' /\ in_bytes cs' = t.
Proof.
  intros bl st d sq cs t P F B. destruct (stream_eof bl st cs t [] d sq P F B) as (c & E & X). rewrite !app_nil_r in E. exists c. auto.
Qed.
Print Assumptions C57_eof_ends.
(* what such a packet carries (read and dropped by the library): warnings and status *)
Theorem C57_eof_fields : forall w s, w < 65536 -> s < 65536 -> parse_eof_packet (le_enc 2 w ++ le_enc 2 s) = Ok (w, s).
Proof.
  intros w s W S. unfold parse_eof_packet, on_slice.
  assert (R : runs (a <- read_u16 ;; b <- read_u16 ;; ret (a, b)) (le_enc 2 w ++ le_enc 2 s) (w, s)).
  { eapply runs_bind; [now apply runs_u16|]. eapply runs_bind_last; [now apply runs_u16|]. apply runs_ret. }
  specialize (R [] []). rewrite app_nil_r in R. cbn [app length] in R. now rewrite R.
Qed.
Print Assumptions C57_eof_fields.
(* a closed connection, or one that closes within a packet header: an error, not the end of the iteration *)
Theorem C57_closed_is_an_error : forall bl st cs, flowing cs -> (length (in_bytes cs) < 4)%nat ->
  stream_next bl (Stream cs st) = (Ok (Some (inr (EIo UnexpectedEof))), Stream [] st).
Proof. intros bl st cs F B. unfold stream_next. cbn [sm_in sm_parser]. now rewrite read_packet_end. Qed.
Print Assumptions C57_closed_is_an_error.
(* an empty packet is not an error but a panic *)
Theorem C57_empty_packet_refuted : forall bl st, exists cs, flowing cs /\ in_bytes cs = wire ([], 3) /\ fst (stream_next bl (Stream cs st)) = Panic.
Proof. intros bl st. exists [Got (wire ([], 3))]. split; [repeat constructor; discriminate|]. split; [apply app_nil_r|]. reflexivity. Qed.
Print Assumptions C57_empty_packet_refuted.
Definition h16 : header := Header 1700000000 16 3 31 1000 0.
Definition h4 : header := Header 1700000000 4 3 45 1000 0.
Definition said1 : list said := [SEvent h16 (le_enc 8 77); SError 1236 (Some (tx "HY000")) (tx "gone"); SOther 7 []; SEvent h4 [n2b 1]].
Definition seen1 : list seen :=
  [inl (h16, EvXid 77); inr (EServer (tx "Event stream error.") 1236 (tx "gone") (Some (tx "HY000"))); inr (EString (tx "Unknown network stream status")); inr (EIo UnexpectedEof)].
Lemma said1_ok : Forall said_ok said1.
Proof.
  unfold said1. repeat apply Forall_cons; try apply Forall_nil; cbn [said_ok]; try lia; unfold header_ok, h16, h4; cbn [h_timestamp h_type h_server h_length h_next h_flags];
    try (unfold u32, u16, u8; lia). unfold error_ok. split; [lia|]. split; [repeat constructor|]. split; [repeat constructor|reflexivity].
Qed.
(* Exactly when the iterator panics: on an empty packet, and on an event packet on which the decoder panics *)
Lemma recv_no_panic n cs : forall acc, fst (recv_exact n cs acc) <> Panic.
Proof. revert n. induction cs as [|[bs| |] cs IH]; intros n acc; destruct n as [|n]; cbn [recv_exact]; try discriminate. destruct (_ <=? _)%nat; [apply IH|discriminate]. Qed.
Lemma read_no_panic cs : fst (read_packet cs) <> Panic.
Proof.
  unfold read_packet. pose proof (recv_no_panic 4 cs []) as G1. destruct (recv_exact 4 cs []) as [[h|?| |] c]; try discriminate; [|now destruct G1].
  pose proof (recv_no_panic (N.to_nat (le_dec (firstn 3 h))) c []) as G2. destruct (recv_exact _ c []) as [[x|?| |] c']; try discriminate. now destruct G2.
Qed.
Lemma header_no_panic bs : parse_header bs <> Panic.
Proof.
  unfold parse_header. assert (S : psafe header_parser) by (unfold header_parser; repeat (apply psafe_bind; [apply psafe_read_le; unfold isize_max; lia|intros ?]); apply psafe_ret).
  specialize (S bs 0%nat). destruct (header_parser bs 0%nat) as [[? ?]|?| |]; discriminate || contradiction.
Qed.
Theorem C57_panics_iff : forall bl st cs, fst (stream_next bl (Stream cs st)) = Panic <->
  exists p sq cs', read_packet cs = (Ok (p, sq), cs') /\
    (p = [] \/ exists d h, p = n2b 0 :: d /\ parse_header d = Ok h /\ parse_event bl st h (skipn 19 d) = Panic).
Proof.
  intros bl st cs. unfold stream_next. cbn [sm_in sm_parser]. pose proof (read_no_panic cs) as RP. destruct (read_packet cs) as [[[p sq]|e| |] c]; cbn [fst] in *.
  2: split; [discriminate|intros (p & sq & c' & E & _); discriminate E]. 2: now destruct RP. 2: split; [discriminate|intros (p & sq & c' & E & _); discriminate E].
  destruct p as [|b d].
  { split; [intros _; exists [], sq, c; auto|reflexivity]. }
  unfold byte_at. cbn [nth_error]. destruct (N.eqb_spec (b2n b) resp_ok) as [B|B].
  - assert (b = n2b 0) as -> by (rewrite <- (n2b_b2n b), B; reflexivity). unfold stream_event. change (skipn 1 (n2b 0 :: d)) with d. change (skipn 20 (n2b 0 :: d)) with (skipn 19 d).
    pose proof (header_no_panic d) as HN. destruct (Nat.ltb_spec (length d) 19) as [L|L].
    + rewrite header_short by exact L. cbn [rbind fst]. split; [discriminate|]. intros (p & s & c' & E & [->|(d' & h & -> & Q & _)]); [discriminate E|].
      assert (d' = d) as -> by congruence. rewrite header_short in Q by exact L. discriminate Q.
    + destruct (parse_header d) as [h|e| |] eqn:EH; cbn [rbind fst]; try (split; [discriminate|]; intros (p & s & c' & E & [->|(d' & h & -> & Q & _)]); [discriminate E|]; assert (d' = d) as -> by congruence; congruence); [|now destruct HN].
      cbn [length]. destruct (Nat.ltb_spec (S (length d)) 20); [lia|]. destruct (parse_event bl st h (skipn 19 d)) as [[e s']|e| |] eqn:EP; cbn [rbind fst snd].
      3: split; [intros _; exists (n2b 0 :: d), sq, c; split; [reflexivity|]; right; exists d, h; auto|reflexivity].
      all: split; [discriminate|]; intros (p & s & c' & E & [->|(d' & h' & -> & Q & R)]); [discriminate E|]; assert (d' = d) as -> by congruence; assert (h' = h) as -> by congruence; congruence.
  - assert (N0 : ~ exists p s c', (Ok (b :: d, sq), c) = (Ok (p, s), c') /\ (p = [] \/ exists d h, p = n2b 0 :: d /\ parse_header d = Ok h /\ parse_event bl st h (skipn 19 d) = Panic)).
    { intros (p & s & c' & E & [->|(d' & h & -> & _)]); [discriminate E|]. apply B. assert (b = n2b 0) as -> by congruence. reflexivity. }
    destruct (b2n b =? resp_error).
    + cbn [fst]. split; [|intros X; now destruct N0]. unfold stream_error. change (skipn 1 (b :: d)) with d. pose proof (error_packet_total d) as R.
      destruct (parse_error_packet d); cbn [rbind some_item]; discriminate || contradiction.
    + destruct (b2n b =? resp_eof); cbn [fst]; (split; [discriminate|intros X; now destruct N0]).
Qed.
Print Assumptions C57_panics_iff.
Example C57_example : forall bl, streamed bl pstate_new said1 seen1 pstate_new /\ Forall said_ok said1.
Proof.
  intros bl. split; [|exact said1_ok]. unfold said1, seen1.
  eapply st_event; [destruct bl; vm_compute; reflexivity|]. apply st_error, st_other. eapply st_bad; [destruct bl; vm_compute; reflexivity|]. apply st_nil.
Qed.
Example C57_example_run : forall bl, exists s, takes bl (stream_new [Got (flat_map (fun x => wire (said_body x, 9)) said1)] CkNone) seen1 s.
Proof.
  intros bl. destruct (C57_stream_in_order_partial bl pstate_new said1 seen1 pstate_new (map (fun x => (said_body x, 9)) said1)
    [Got (flat_map (fun x => wire (said_body x, 9)) said1)] []) as (cs & T & _).
  - apply C57_example.
  - exact said1_ok.
  - rewrite map_map. reflexivity.
  - unfold said1. repeat constructor; vm_compute; reflexivity.
  - repeat constructor; discriminate.
  - vm_compute. reflexivity.
  - eexists. exact T.
Qed.

(* ---- C58 ---- *)
(* A time-out inside a packet loses the bytes read so far: three events are sent and arrive completely, the reader
   delivers the time-out and then nothing but errors. *)
Definition frozen (bl : build) (s : stream) : Prop := stream_next bl s = (Ok (Some (inr (EIo UnexpectedEof))), s).
Theorem C58_timeout_inside_packet_refuted : forall bl, exists ps cs s' s2, Forall packet_ok ps /\ length ps = 3%nat /\
  in_bytes cs = flat_map wire ps /\ Forall (fun p => exists x, streamed bl (PState CkNone []) [SEvent h16 x] [inl (h16, EvXid 77)] (PState CkNone []) /\ fst p = said_body (SEvent h16 x)) ps /\
  stream_next bl (stream_new cs CkNone) = (Ok (Some (inr (EIo TimedOut))), s') /\
  stream_next bl s' = (Ok (Some (inr (EIo UnexpectedEof))), s2) /\ frozen bl s2.
Proof.
  intros bl. set (p := (said_body (SEvent h16 (le_enc 8 77)), 5)).
  exists [p; p; p], [Got (firstn 8 (wire p)); Stall; Got (skipn 8 (wire p) ++ wire p ++ wire p)]. eexists. eexists.
  split; [repeat constructor; vm_compute; reflexivity|]. split; [reflexivity|]. split; [vm_compute; reflexivity|]. split.
  { repeat constructor; exists (le_enc 8 77); (split; [eapply st_event; [destruct bl; vm_compute; reflexivity|apply st_nil]|reflexivity]). }
  split; [vm_compute; reflexivity|]. split; [vm_compute; reflexivity|]. reflexivity.
Qed.
Print Assumptions C58_timeout_inside_packet_refuted.
(* Full statement: wherever the time-out happens.  Missing: time-outs inside a packet (refuted above).  Proved: after a
   time-out (or another error of read(2)) between two packets the reader goes on exactly there; [rest], with further time-outs or not, is untouched. *)
Theorem C58_timeout_between_packets_partial : forall bl st ss is st' ps a x e rest, trouble x = Some e ->
  streamed bl st ss is st' -> Forall said_ok ss -> map fst ps = map said_body ss -> Forall packet_ok ps ->
  flowing a -> in_bytes a = flat_map wire ps ->
  takes bl (Stream (a ++ x :: rest) st) (is ++ [inr (EIo e)]) (Stream rest st').
Proof.
  intros bl st ss is st' ps a x e rest X S O M P F B. rewrite <- (app_nil_r (flat_map wire ps)) in B.
  destruct (stream_takes bl st ss is st' S a [] (x :: rest) ps O M P F B) as (c & T & F' & B').
  eapply takes_app; [exact T|]. eapply ta_item; [|apply ta_nil]. unfold stream_next. cbn [sm_in sm_parser]. now rewrite (read_packet_trouble c x e).
Qed.
Print Assumptions C58_timeout_between_packets_partial.
Example C58_example : forall bl, takes bl (stream_new ([Got (wire (said_body (SEvent h16 (le_enc 8 77)), 1))] ++ Stall :: [Got (wire (said_body (SEvent h16 (le_enc 8 78)), 2))]) CkNone)
  [inl (h16, EvXid 77); inr (EIo TimedOut)] (stream_new [Got (wire (said_body (SEvent h16 (le_enc 8 78)), 2))] CkNone).
Proof.
  intros bl. apply (C58_timeout_between_packets_partial bl (PState CkNone []) [SEvent h16 (le_enc 8 77)] [inl (h16, EvXid 77)] (PState CkNone []) [(said_body (SEvent h16 (le_enc 8 77)), 1)]).
  - reflexivity.
  - eapply st_event; [destruct bl; vm_compute; reflexivity|apply st_nil].
  - repeat constructor; cbn; unfold u32, u16, u8; lia.
  - reflexivity.
  - repeat constructor; vm_compute; reflexivity.
  - repeat constructor; discriminate.
  - reflexivity.
Qed.

(* ---- C59 (every command: SessionProps) ---- *)
Theorem C59_decoded : forall code state msg, error_ok code state msg ->
  exists e, parse_error_packet (error_body code state msg) = Ok e /\ ep_code e = code /\ ep_state e = state /\ ep_message e = msg.
Proof. intros code state msg H. eexists. split; [now apply parse_error_ok|]. auto. Qed.
Print Assumptions C59_decoded.
Theorem C59_check_fails : forall code state msg message, error_ok code state msg ->
  check_error_packet (n2b 255 :: error_body code state msg) message = Err (EServer message code msg state).
Proof. exact check_error_ok. Qed.
Print Assumptions C59_check_fails.
(* whatever else starts with 0xFF fails as well, or the decoding of the error does *)
Theorem C59_never_accepted : forall d message, exists e, check_error_packet (n2b 255 :: d) message = Err e.
Proof.
  intros d message. unfold check_error_packet. rewrite byte_at_head by lia. cbn [rbind]. change (255 =? resp_error) with true. cbv iota. cbn [skipn].
  pose proof (error_packet_total d) as R. destruct (parse_error_packet d) as [e|e| |]; cbn [rbind]; eauto; destruct R.
Qed.
Print Assumptions C59_never_accepted.
Example C59_example : error_ok 1045 (Some (tx "28000")) (tx "Access denied") /\ error_ok 1130 None (tx "Host 'x' is not allowed") .
Proof.
  split; (split; [lia|]; split; [repeat constructor|]); [split; [repeat constructor|reflexivity]|]. intros m. discriminate.
Qed.

(* ---- C60 ---- *)
(* [post]: whatever follows in the packet *)
Theorem C60_handshake : forall h post, hello_ok h -> exists hs, parse_handshake (hello_bytes h ++ post) = Ok hs /\
  hs_version hs = he_version h /\ hs_connection hs = he_id h /\ hs_scramble hs = he_part1 h ++ (if secure h then he_part2 h else []) /\
  hs_plugin hs = (if plugin_auth h then he_plugin h else []) /\ hs_protocol hs = he_protocol h /\ hs_collation hs = he_charset h /\
  hs_status hs = he_status h /\ hs_filler hs = he_reserved h /\ hs_plugin_length hs = he_length h /\
  hs_capabilities hs = he_caps h + 4294967296 * he_more h.
Proof. intros h post H. eexists. split; [now apply handshake_ok|]. repeat split. Qed.
Print Assumptions C60_handshake.
(* the flags of the first four bytes, bit by bit *)
Theorem C60_capability_bits : forall h post hs i, hello_ok h -> parse_handshake (hello_bytes h ++ post) = Ok hs -> i < 32 ->
  N.testbit (hs_capabilities hs) i = N.testbit (he_caps h) i.
Proof.
  intros h post hs i H E I. rewrite handshake_ok in E by exact H. injection E as <-. cbn [hs_capabilities]. apply high_caps; [|exact I]. apply H.
Qed.
Print Assumptions C60_capability_bits.
Definition hello1 : hello := Hello 10 (tx "8.0.34") 4242 (tx "abcdefgh") 0xDFFFF7FF 255 2 21 (repeat 0 6) 0 (tx "ijklmnopqrst") (tx "caching_sha2_password").
Example C60_example : hello_ok hello1 /\ secure hello1 = true /\ plugin_auth hello1 = true.
Proof.
  split; [|split; reflexivity]. unfold hello_ok, hello1, cstring_ok. cbn [he_protocol he_version he_id he_part1 he_caps he_charset he_status he_length he_reserved he_more he_part2 he_plugin].
  repeat split; try lia; try (repeat constructor; fail); try (cbn; intuition discriminate).
Qed.

(* ---- C70: a packet holds at most 16777215 bytes; longer events are sent in several packets ---- *)
Definition max_packet : nat := N.to_nat 16777215.
(* the body of the event packet, cut by the server; the second packet is the last one when it is shorter than the maximum *)
Definition cut_body (body : list byte) : list (list byte) := [firstn max_packet body; skipn max_packet body].
Lemma utf8_as n : utf8_encode (repeat 97 n) = repeat (n2b 97) n.
Proof. induction n as [|n IH]; [reflexivity|]. unfold utf8_encode in *. cbn [repeat flat_map]. now rewrite IH. Qed.
Lemma valid_as n : valid_text (repeat 97 n).
Proof. induction n; constructor; [reflexivity|assumption]. Qed.
Lemma firstn_rep {A} (x : A) n k : (k <= n)%nat -> firstn k (repeat x n) = repeat x k.
Proof. revert n. induction k; intros n H; [reflexivity|]. destruct n; [lia|]. cbn. f_equal. apply IHk. lia. Qed.
Lemma skipn_rep {A} (x : A) n k : (k <= n)%nat -> skipn k (repeat x n) = repeat x (n - k).
Proof. revert n. induction k; intros n H; [now rewrite Nat.sub_0_r|]. destruct n; [lia|]. cbn [repeat skipn Nat.sub]. apply IHk. lia. Qed.
(* a statement of 2^24 characters: the iterator hands out a shorter statement, then an error *)
Theorem C70_long_event_refuted : forall bl, exists h payload e ps s,
  header_ok h /\ parse_event bl pstate_new h payload = Ok (e, pstate_new) /\
  map fst ps = cut_body (n2b 0 :: header_bytes h ++ payload) /\ Forall packet_ok ps /\
  exists e', takes bl (stream_new [Got (flat_map wire ps)] CkNone) [inl (h, e'); inr (EString (tx "Unknown network stream status"))] s /\ e' <> e.
Proof.
  intros bl. assert (K : exists k, N.of_nat k = 16777194) by (exists (N.to_nat 16777194); apply N2Nat.id). destruct K as [k K].
  assert (MP : max_packet = S (19 + S k)) by (unfold max_packet; lia).
  assert (N0 : exists n, n = (k + 22)%nat) by eauto. destruct N0 as [n N0]. set (h := Header 1700000000 29 3 16777236 16777240 0).
  exists h, (n2b 0 :: utf8_encode (repeat 97 n)), (EvRowsQuery (repeat 97 n)).
  assert (HH : header_ok h) by (unfold header_ok, h; cbn [h_timestamp h_type h_server h_length h_next h_flags]; unfold u32, u16, u8; lia).
  assert (HL : length (header_bytes h) = 19%nat) by (unfold header_bytes; rewrite !app_length, !le_enc_length; reflexivity).
  assert (D : forall m, parse_event bl pstate_new h (n2b 0 :: utf8_encode (repeat 97 m)) = Ok (EvRowsQuery (repeat 97 m), pstate_new)).
  { intros m. rewrite <- (app_nil_r (n2b 0 :: _)). apply (C29_service_events bl pstate_new h _ 29); [constructor; apply valid_as|reflexivity|reflexivity]. }
  assert (C1 : firstn max_packet (n2b 0 :: header_bytes h ++ n2b 0 :: utf8_encode (repeat 97 n)) = n2b 0 :: header_bytes h ++ n2b 0 :: utf8_encode (repeat 97 k)).
  { rewrite MP. cbn [firstn]. f_equal. rewrite firstn_app, HL.
    rewrite firstn_all2 by lia. f_equal. replace (19 + S k - 19)%nat with (S k) by lia. cbn [firstn]. f_equal. rewrite !utf8_as.
    apply firstn_rep. lia. }
  assert (C2 : skipn max_packet (n2b 0 :: header_bytes h ++ n2b 0 :: utf8_encode (repeat 97 n)) = n2b 97 :: repeat (n2b 97) 21).
  { rewrite MP. cbn [skipn]. rewrite skipn_app, HL.
    rewrite skipn_all2 by lia. replace (19 + S k - 19)%nat with (S k) by lia. cbn [skipn app]. rewrite utf8_as, skipn_rep by lia.
    replace (n - k)%nat with 22%nat by lia. reflexivity. }
  exists [(n2b 0 :: header_bytes h ++ n2b 0 :: utf8_encode (repeat 97 k), 0); (n2b 97 :: repeat (n2b 97) 21, 1)].
  assert (PP : Forall packet_ok [(n2b 0 :: header_bytes h ++ n2b 0 :: utf8_encode (repeat 97 k), 0); (n2b 97 :: repeat (n2b 97) 21, 1)]).
  { repeat apply Forall_cons; try apply Forall_nil; split; cbn [fst snd]; try lia; [|reflexivity].
    cbn [length]. rewrite app_length, HL. cbn [length]. rewrite utf8_as, repeat_length. lia. }
  destruct (C57_stream_in_order_partial bl pstate_new [SEvent h (n2b 0 :: utf8_encode (repeat 97 k)); SOther 97 (repeat (n2b 97) 21)]
    [inl (h, EvRowsQuery (repeat 97 k)); inr (EString (tx "Unknown network stream status"))] pstate_new
    [(n2b 0 :: header_bytes h ++ n2b 0 :: utf8_encode (repeat 97 k), 0); (n2b 97 :: repeat (n2b 97) 21, 1)]
    [Got (flat_map wire [(n2b 0 :: header_bytes h ++ n2b 0 :: utf8_encode (repeat 97 k), 0); (n2b 97 :: repeat (n2b 97) 21, 1)])] []) as (cs & T & _).
  - eapply st_event; [apply D|]. apply st_other, st_nil.
  - repeat constructor; try exact HH; lia.
  - reflexivity.
  - exact PP.
  - repeat constructor; discriminate.
  - reflexivity.
  - exists (Stream cs pstate_new). split; [exact HH|]. split; [apply D|]. split; [unfold cut_body; cbn [map fst]; now rewrite C1, C2|]. split; [exact PP|].
    exists (EvRowsQuery (repeat 97 k)). split; [exact T|]. intros E. injection E as E. apply (f_equal (@length N)) in E. rewrite !repeat_length in E. lia.
Qed.
Print Assumptions C70_long_event_refuted.
(* what happens instead, for every event of that size: its first packet alone is decoded as if it were the whole event
   (what follows in the next packets is then taken for packets of its own, C57) *)
Theorem C70_first_packet_alone : forall bl st h payload sq cs t,
  header_ok h -> (max_packet <= length (n2b 0%N :: header_bytes h ++ payload))%nat -> sq < 256 -> flowing cs ->
  in_bytes cs = wire (firstn max_packet (n2b 0 :: header_bytes h ++ payload), sq) ++ t ->
  (forall e st', parse_event bl st h (firstn (max_packet - 20) payload) = Ok (e, st') ->
     exists cs', flowing cs' /\ in_bytes cs' = t /\ stream_next bl (Stream cs st) = (Ok (Some (inl (h, e))), Stream cs' st')) /\
  (forall er, parse_event bl st h (firstn (max_packet - 20) payload) = Err er ->
     exists cs', flowing cs' /\ in_bytes cs' = t /\ stream_next bl (Stream cs st) = (Ok (Some (inr er)), Stream cs' st)).
Proof.
  intros bl st h payload sq cs t HH HL HS F B.
  assert (L : length (header_bytes h) = 19%nat) by (unfold header_bytes; rewrite !app_length, !le_enc_length; reflexivity).
  assert (C0 : forall m, firstn (20 + m) (n2b 0 :: header_bytes h ++ payload) = n2b 0 :: header_bytes h ++ firstn m payload).
  { intros m. change (20 + m)%nat with (S (19 + m)). rewrite firstn_cons, firstn_app, L, firstn_all2 by lia. do 3 f_equal. lia. }
  assert (C1 : firstn max_packet (n2b 0 :: header_bytes h ++ payload) = n2b 0 :: header_bytes h ++ firstn (max_packet - 20) payload).
  { assert (M : exists m, max_packet = (20 + m)%nat) by (exists (max_packet - 20)%nat; unfold max_packet; lia). destruct M as [m M].
    rewrite M. replace (20 + m - 20)%nat with m by lia. apply C0. }
  assert (PL : (length (firstn max_packet (n2b 0%N :: header_bytes h ++ payload)) <= max_packet)%nat) by apply firstn_le_length.
  rewrite C1 in B, PL. set (q := firstn (max_packet - 20) payload) in *.
  assert (P : packet_ok (n2b 0 :: header_bytes h ++ q, sq)) by (split; cbn [fst snd]; [unfold max_packet in PL; lia|exact HS]).
  assert (ST : forall i st', streamed bl st [SEvent h q] [i] st' -> exists cs', flowing cs' /\ in_bytes cs' = t /\ stream_next bl (Stream cs st) = (Ok (Some i), Stream cs' st')).
  { intros i st' S. destruct (C57_stream_in_order_partial bl st [SEvent h q] [i] st' [(n2b 0 :: header_bytes h ++ q, sq)] cs t S) as (c & T & X1 & X2); auto.
    - cbn [flat_map]. now rewrite app_nil_r.
    - exists c. split; [exact X1|]. split; [exact X2|]. inversion T; subst. match goal with H : takes _ _ [] _ |- _ => inversion H; subst end. assumption. }
  split.
  - intros e st' E. apply ST. eapply st_event; [exact E|constructor].
  - intros er E. apply ST. eapply st_bad; [exact E|constructor].
Qed.
Print Assumptions C70_first_packet_alone.
