(* C25 - C32, C68: event headers, checksums, service events, GTID events *)
From Coq Require Import Strings.String.
From Verif Require Import Base.Tac Base.Bytes Base.Text Base.Res Base.Str Base.Parse Base.Loop Model.Codec Model.Gtid
  Model.GtidMaria Model.Values Model.TableMap Model.Rows Model.Events Spec.CodecSpec Spec.EventSpec Spec.GtidSpec Proofs.CodecProofs Proofs.GtidSetProofs Proofs.EventProofs Proofs.EventSafe.
Local Open Scope N_scope.

(* ---- C25 ---- *)
(* the decoder state after an event, given the one a checksum-less decoder would have *)
Definition with_checksums (e : event) (plain : pstate) : pstate :=
  match e with EvFormat _ => plain | _ => PState CkCrc32 (ps_tables plain) end.
Theorem C25_checksum_never_decoded : forall bl ts h p crc, length crc = 4%nat ->
  parse_event bl (PState CkCrc32 ts) h (p ++ crc) =
  match parse_event bl (PState CkNone ts) h p with
  | Ok (e, st) => Ok (e, with_checksums e st)
  | Err e => Err e
  | Panic => Panic
  | Diverge => Diverge
  end.
Proof.
  intros bl ts h p crc H. unfold parse_event. cbn [ps_checksum ps_tables]. rewrite payload_of by exact H. cbn [event_payload rbind].
  destruct (event_body bl ts h p 0%nat) as [[e pos]|e| |]; try reflexivity. destruct e; reflexivity.
Qed.
Print Assumptions C25_checksum_never_decoded.
Theorem C25_last_four_bytes_irrelevant : forall bl ts h p crc1 crc2, length crc1 = 4%nat -> length crc2 = 4%nat ->
  parse_event bl (PState CkCrc32 ts) h (p ++ crc1) = parse_event bl (PState CkCrc32 ts) h (p ++ crc2).
Proof. intros bl ts h p c1 c2 H1 H2. rewrite !C25_checksum_never_decoded by assumption. reflexivity. Qed.
Print Assumptions C25_last_four_bytes_irrelevant.
Definition hdr (ty : N) : header := Header 1700000000 ty 3 40 1000 0.
Example C25_example :
  parse_event Debug (PState CkCrc32 []) (hdr 4) (le_enc 8 4 ++ utf8_encode (tx "binlog.000002") ++ map n2b [1; 2; 3; 4]) =
    Ok (EvRotate (Rotate (tx "binlog.000002") 4), PState CkCrc32 []) /\
  parse_event Debug (PState CkNone []) (hdr 4) (le_enc 8 4 ++ utf8_encode (tx "binlog.000002")) =
    Ok (EvRotate (Rotate (tx "binlog.000002") 4), PState CkNone []).
Proof. split; vm_compute; reflexivity. Qed.

(* ---- C26 ---- *)
(* whatever checksum function the server uses, an event with a wrong checksum is delivered as valid data *)
Theorem C26_corruption_accepted_refuted : forall sum : list byte -> list byte, exists h p crc e st,
  length crc = 4%nat /\ crc <> sum (header_bytes h ++ p) /\ parse_event Release (PState CkCrc32 []) h (p ++ crc) = Ok (e, st).
Proof.
  intros sum. set (h := hdr 16). set (p := le_enc 8 77).
  assert (E : exists crc, length crc = 4%nat /\ crc <> sum (header_bytes h ++ p)).
  { destruct (list_eq_dec Byte.byte_eq_dec (sum (header_bytes h ++ p)) (map n2b [0; 0; 0; 0])) as [->|Hn].
    - exists (map n2b [1; 0; 0; 0]). split; [reflexivity|]. vm_compute. discriminate.
    - exists (map n2b [0; 0; 0; 0]). split; [reflexivity|congruence]. }
  destruct E as (crc & L & Hn). exists h, p, crc, (EvXid 77), (PState CkCrc32 []). split; [exact L|]. split; [exact Hn|].
  rewrite (C25_checksum_never_decoded Release [] h p crc L). vm_compute. reflexivity.
Qed.
Print Assumptions C26_corruption_accepted_refuted.

(* ---- C27 ---- *)
(* full statement: for all numbers of event types in both builds; in debug builds it is false from 175 event types on *)
Theorem C27_format_description_partial : forall bl st h f, fde_ok f -> h_type h = 15 ->
  h_length h = 19 + N.of_nat (length (fde_wire f)) -> bl = Release \/ h_length h < 256 ->
  ps_checksum st = CkNone \/ f_alg f <> None ->
  parse_event bl st h (fde_wire f) =
    Ok (EvFormat (FormatDescription (f_version f) (f_server f) (fde_checksum f)), PState (fde_checksum f) (ps_tables st)).
Proof.
  intros bl st h f Hf Ht Hl Hb Hc.
  assert (B : forall more, starts (event_body bl (ps_tables st) h) (fde_bytes f ++ more) (EvFormat (FormatDescription (f_version f) (f_server f) (fde_checksum f)))).
  { intros more. unfold event_body. rewrite Ht. cbn [N.eqb Pos.eqb]. apply starts_pmap. now apply runs_fde. }
  unfold fde_wire. destruct (ps_checksum st) eqn:Ec.
  - rewrite <- (app_nil_r (fde_bytes f ++ _)). rewrite (parse_event_starts bl st h _ [] _ ltac:(rewrite Ec; reflexivity) (B _)). reflexivity.
  - destruct Hc as [Hc|Hc]; [discriminate|]. destruct Hf as (_ & _ & _ & _ & _ & _ & _ & Hg). destruct (f_alg f); [|congruence].
    specialize (B []). rewrite app_nil_r in B. rewrite (parse_event_starts bl st h _ (f_crc f) _ ltac:(rewrite Ec; apply Hg) B). reflexivity.
Qed.
Print Assumptions C27_format_description_partial.
(* the events that follow are decoded accordingly: with four bytes cut off exactly when the algorithm is not NONE *)
Theorem C27_following_events_partial : forall bl st h f h2 p crc, fde_ok f -> h_type h = 15 ->
  h_length h = 19 + N.of_nat (length (fde_wire f)) -> bl = Release \/ h_length h < 256 -> ps_checksum st = CkNone ->
  trailer_ok (fde_checksum f) crc ->
  exists e st', parse_event bl st h (fde_wire f) = Ok (e, st') /\
    match parse_event bl st' h2 (p ++ crc), parse_event bl st h2 p with
    | Ok (e1, s1), Ok (e2, s2) => e1 = e2 /\ ps_tables s1 = ps_tables s2
    | Err e1, Err e2 => e1 = e2
    | Panic, Panic => True
    | Diverge, Diverge => True
    | _, _ => False
    end.
Proof.
  intros bl st h f h2 p crc Hf Ht Hl Hb Hc Htr. rewrite C27_format_description_partial by auto. do 2 eexists. split; [reflexivity|].
  destruct st as [ck ts]. cbn [ps_checksum ps_tables] in *. subst ck. destruct (fde_checksum f); cbn [trailer_ok] in Htr.
  - subst crc. rewrite app_nil_r. destruct (parse_event bl (PState CkNone ts) h2 p) as [[e s]|e| |]; auto.
  - rewrite C25_checksum_never_decoded by exact Htr. destruct (parse_event bl (PState CkNone ts) h2 p) as [[e s]|e| |]; auto.
    split; [reflexivity|]. destruct e; reflexivity.
Qed.
Print Assumptions C27_following_events_partial.
Definition fde0 (n : nat) (a : option N) (crc : list byte) : fde :=
  Fde 4 (tx "8.0.33") 0 (repeat (n2b 0) 14 ++ n2b (57 + N.of_nat n) :: repeat (n2b 0) (n - 15)) a crc.
Theorem C27_debug_overflow_refuted : exists f h, fde_ok f /\ h_type h = 15 /\ h_length h = 19 + N.of_nat (length (fde_wire f)) /\
  parse_event Debug pstate_new h (fde_wire f) = Panic.
Proof.
  exists (fde0 180 (Some 1) (map n2b [1; 2; 3; 4])), (Header 0 15 1 261 0 0).
  split; [|split; [reflexivity|split; [vm_compute; reflexivity|vm_compute; reflexivity]]].
  unfold fde_ok. cbn [fde0 f_version f_server f_created f_lengths f_alg f_crc].
  split; [reflexivity|]. split; [repeat constructor|]. split; [vm_compute; intuition discriminate|]. split; [vm_compute; lia|].
  split; [vm_compute; lia|]. split; [vm_compute; reflexivity|]. split; [vm_compute; reflexivity|]. split; [vm_compute; discriminate|reflexivity].
Qed.
Print Assumptions C27_debug_overflow_refuted.
(* debug builds, exactly: the low byte of the event length, less the header length, must not go below zero *)
Lemma format_same h bs pos : 19 <= h_length h mod 256 -> parse_format_description Debug h bs pos = parse_format_description Release h bs pos.
Proof. intros H. unfold parse_format_description, usub. now destruct (N.leb_spec 19 (h_length h mod 256)); [|lia]. Qed.
Lemma format_panics h bs pos v : h_length h mod 256 < 19 -> parse_format_description Release h bs pos = Ok v -> parse_format_description Debug h bs pos = Panic.
Proof.
  intros H. unfold parse_format_description, usub. destruct (N.leb_spec 19 (h_length h mod 256)); [lia|].
  intros R. unfold pbind in R |- *.
  destruct (read_u16 bs pos) as [[x1 p1]| | |]; try discriminate R.
  destruct (read_bytes 50 bs p1) as [[x2 p2]| | |]; try discriminate R.
  destruct (lift (match utf8_decode _ with Some _ => _ | None => _ end) bs p2) as [[x3 p3]| | |]; try discriminate R.
  destruct (seek_cur 5 bs p3) as [[x4 p4]| | |]; try discriminate R.
  destruct (seek_cur 14 bs p4) as [[x5 p5]| | |]; try discriminate R.
  destruct (read_u8 bs p5) as [[x6 p6]| | |]; try discriminate R. reflexivity.
Qed.
Theorem C27_debug_exact : forall st h f, fde_ok f -> h_type h = 15 ->
  h_length h = 19 + N.of_nat (length (fde_wire f)) -> ps_checksum st = CkNone \/ f_alg f <> None ->
  parse_event Debug st h (fde_wire f) =
    if (256 <=? h_length h) && (h_length h <? 275) then Panic
    else Ok (EvFormat (FormatDescription (f_version f) (f_server f) (fde_checksum f)), PState (fde_checksum f) (ps_tables st)).
Proof.
  intros st h f Hf Ht Hl Hc. pose proof (C27_format_description_partial Release st h f Hf Ht Hl (or_introl eq_refl) Hc) as R.
  assert (Hn : h_length h < 512).
  { destruct Hf as (H1 & H2 & H3 & H4 & H5 & H6 & H7 & H8). rewrite Hl. unfold fde_wire, fde_bytes. rewrite !app_length, repeat_length, !le_enc_length. cbn [length].
    unfold u8 in H6. destruct (f_alg f); cbn [length]; rewrite ?le_enc_length; [destruct H8 as [_ ->]|]; lia. }
  assert (Hn2 : 19 <= h_length h) by lia.
  unfold parse_event in *. destruct (event_payload (ps_checksum st) (fde_wire f)) as [pl| | |]; cbn [rbind] in *; try discriminate.
  assert (EB : forall bl, event_body bl (ps_tables st) h = pmap EvFormat (parse_format_description bl h)) by (intros bl; unfold event_body; now rewrite Ht).
  rewrite EB in R |- *. unfold pmap, pbind in R |- *.
  destruct (parse_format_description Release h pl 0%nat) as [[v p]| | |] eqn:E; try discriminate.
  destruct (N.leb_spec 256 (h_length h)), (N.ltb_spec (h_length h) 275); cbn [andb].
  - rewrite (format_panics h pl 0%nat (v, p)); [reflexivity|lia|exact E].
  - rewrite format_same by lia. rewrite E. exact R.
  - rewrite format_same by lia. rewrite E. exact R.
  - lia.
Qed.
Print Assumptions C27_debug_exact.
Example C27_example : let f := fde0 41 (Some 1) (map n2b [1; 2; 3; 4]) in let h := Header 0 15 1 122 0 0 in
  fde_ok f /\ h_length h = 19 + N.of_nat (length (fde_wire f)) /\ fde_checksum f = CkCrc32 /\
  parse_event Debug pstate_new h (fde_wire f) = Ok (EvFormat (FormatDescription 4 (tx "8.0.33") CkCrc32), PState CkCrc32 []).
Proof.
  cbv zeta. split; [|repeat split; vm_compute; reflexivity].
  unfold fde_ok. cbn [fde0 f_version f_server f_created f_lengths f_alg f_crc].
  split; [reflexivity|]. split; [repeat constructor|]. split; [vm_compute; intuition discriminate|]. split; [vm_compute; lia|].
  split; [vm_compute; lia|]. split; [vm_compute; reflexivity|]. split; [vm_compute; reflexivity|]. split; [vm_compute; discriminate|reflexivity].
Qed.

(* ---- C28 ---- *)
Theorem C28_headers : forall h rest, header_ok h -> parse_header (header_bytes h ++ rest) = Ok h.
Proof. exact header_exact. Qed.
Print Assumptions C28_headers.
Theorem C28_all_slices : forall bs,
  ((length bs < 19)%nat -> parse_header bs = Err (EIo UnexpectedEof)) /\
  ((19 <= length bs)%nat -> exists h rest, bs = header_bytes h ++ rest /\ header_ok h /\ parse_header bs = Ok h).
Proof.
  intros bs. split; [apply header_short|]. intros L.
  destruct (header_of_bytes (firstn 19 bs)) as (h & Hh & E); [rewrite firstn_length; lia|].
  exists h, (skipn 19 bs). assert (X : bs = header_bytes h ++ skipn 19 bs) by (rewrite E; symmetry; apply firstn_skipn).
  split; [exact X|]. split; [exact Hh|]. rewrite X. now apply header_exact.
Qed.
Print Assumptions C28_all_slices.
Example C28_example : header_ok (Header 1650000000 2 1 55 20000 8) /\
  parse_header (map n2b [0x80; 0x01; 0x59; 0x62; 2; 1; 0; 0; 0; 55; 0; 0; 0; 0x20; 0x4E; 0; 0; 8; 0; 99]) = Ok (Header 1650000256 2 1 55 20000 8).
Proof. split; [repeat split; reflexivity|vm_compute; reflexivity]. Qed.

(* ---- C29 ---- *)
Theorem C29_service_events : forall bl st h e ty bs crc, service e ty bs -> h_type h = ty -> trailer_ok (ps_checksum st) crc ->
  parse_event bl st h (bs ++ crc) = Ok (e, st).
Proof.
  intros bl st h e ty bs crc Hs Hh Hc. rewrite (parse_event_starts bl st h bs crc e Hc); [|now apply (service_starts _ _ _ _ ty)].
  destruct Hs; reflexivity.
Qed.
Print Assumptions C29_service_events.
Definition query1 : query := Query 12 0 0 (map n2b [0; 1; 0]) (tx "shop") (tx "BEGIN").
Definition uservar1 : uservar := UserVar (tx "x") (Some (VariableValue 0 45 [0xE9; 65] 0)).
Example C29_example : service (EvQuery query1) 2 (query_bytes query1) /\ service (EvUserVar uservar1) 14 (uservar_bytes uservar1) /\
  service (EvRotate (Rotate (tx "log.2") 4)) 4 (rotate_bytes (Rotate (tx "log.2") 4)) /\
  parse_event Debug (PState CkCrc32 []) (hdr 2) (query_bytes query1 ++ map n2b [9; 9; 9; 9]) = Ok (EvQuery query1, PState CkCrc32 []).
Proof.
  split; [constructor; repeat split; try reflexivity; repeat constructor|].
  split; [constructor; repeat split; try reflexivity; repeat constructor|].
  split; [constructor; repeat split; try reflexivity; repeat constructor|]. vm_compute. reflexivity.
Qed.

(* ---- C30 ---- *)
Theorem C30_mysql_gtid : forall bl st h flags u n more crc, u8 flags -> server_id u -> u64 n -> h_type h = 33 -> trailer_ok (ps_checksum st) crc ->
  exists e, parse_event bl st h (mysql_gtid_bytes flags u n more ++ crc) = Ok (EvMySqlGtid e, st) /\
    udata (g_source (me_gtid e)) = u /\ uuid_ok36 (g_source (me_gtid e)) /\ g_txn (me_gtid e) = n /\ me_flags e = flags.
Proof.
  intros bl st h flags u n more crc H1 H2 H3 H4 H5. exists (MySqlGtid (Gtid (uuid_new u) n) flags).
  split; [|repeat split; try reflexivity; now apply uuid_new_ok36].
  rewrite (parse_event_starts bl st h _ crc (EvMySqlGtid (MySqlGtid (Gtid (uuid_new u) n) flags)) H5); [reflexivity|].
  unfold event_body. rewrite H4. cbn [N.eqb Pos.eqb]. apply starts_pmap. unfold mysql_gtid_bytes.
  replace (le_enc 1 flags ++ u ++ le_enc 8 n ++ more) with ((le_enc 1 flags ++ u ++ le_enc 8 n) ++ more) by (now rewrite <- !app_assoc).
  apply runs_starts_more. now apply runs_mysql_gtid.
Qed.
Print Assumptions C30_mysql_gtid.
Theorem C30_previous_gtids : forall bl st h l crc, prev_gtids_ok l -> h_type h = 35 -> trailer_ok (ps_checksum st) crc ->
  exists s, parse_event bl st h (prev_gtids_bytes l ++ crc) = Ok (EvPrevGtids s, st) /\
    (forall u n, set_has s u n <-> prev_has l u n) /\ map (fun x => udata (us_source (snd x))) s = map fst l /\ NoDup (map fst s).
Proof.
  intros bl st h l crc H1 H2 H3. exists (prev_set l). split.
  - rewrite (parse_event_starts bl st h _ crc (EvPrevGtids (prev_set l)) H3); [reflexivity|].
    unfold event_body. rewrite H2. cbn [N.eqb Pos.eqb]. apply starts_pmap. now apply runs_starts, runs_prev_gtids.
  - split; [intros u n; now apply prev_set_has|]. split; [unfold prev_set; rewrite map_map; reflexivity|].
    unfold prev_set. rewrite map_map. cbn [fst]. destruct H1 as (_ & F & Nd). clear H2 H3.
    induction l as [|s l IH]; cbn [map] in *; [constructor|]. apply Forall_cons_iff in F. destruct F as [Fs F]. inversion Nd as [|? ? Hn Hd]; subst.
    constructor; [|now apply IH]. intros Hi. apply in_map_iff in Hi. destruct Hi as (s' & E & Hs'). apply Hn. apply in_map_iff. exists s'. split; [|exact Hs'].
    rewrite Forall_forall in F. destruct (F _ Hs') as (L & _). destruct Fs as (L' & _). apply uuid_new_inj; auto.
Qed.
Print Assumptions C30_previous_gtids.
Theorem C30_maria_gtid : forall bl st h flags g more crc, u8 flags -> mgtid_ok g -> mg_server g = h_server h -> h_type h = 162 ->
  trailer_ok (ps_checksum st) crc ->
  parse_event bl st h (maria_gtid_bytes flags g more ++ crc) = Ok (EvMariaGtid (MariaGtid g flags), st).
Proof.
  intros bl st h flags g more crc H1 H2 H3 H4 H5.
  rewrite (parse_event_starts bl st h _ crc (EvMariaGtid (MariaGtid g flags)) H5); [reflexivity|].
  unfold event_body. rewrite H4. cbn [N.eqb Pos.eqb]. apply starts_pmap. unfold maria_gtid_bytes.
  replace (le_enc 8 (mg_seq g) ++ le_enc 4 (mg_domain g) ++ le_enc 1 flags ++ more)
    with ((le_enc 8 (mg_seq g) ++ le_enc 4 (mg_domain g) ++ le_enc 1 flags) ++ more) by (now rewrite <- !app_assoc).
  apply runs_starts_more. now apply runs_maria_gtid.
Qed.
Print Assumptions C30_maria_gtid.
(* full statement: also for lists with flags set; false, see below *)
Theorem C30_maria_gtid_list_partial : forall bl st h l crc, N.of_nat (length l) < 268435456 -> Forall mgtid_ok l -> h_type h = 163 ->
  trailer_ok (ps_checksum st) crc -> parse_event bl st h (maria_list_bytes 0 l ++ crc) = Ok (EvMariaGtidList l, st).
Proof.
  intros bl st h l crc H1 H2 H3 H4. rewrite (parse_event_starts bl st h _ crc (EvMariaGtidList l) H4); [reflexivity|].
  unfold event_body. rewrite H3. cbn [N.eqb Pos.eqb]. apply starts_pmap. now apply runs_starts, runs_maria_list.
Qed.
Print Assumptions C30_maria_gtid_list_partial.
Theorem C30_list_flags_refuted : exists h flags l, flags < 16 /\ N.of_nat (length l) < 268435456 /\ Forall mgtid_ok l /\ h_type h = 163 /\
  parse_event Release pstate_new h (maria_list_bytes flags l) = Err (EIo UnexpectedEof).
Proof.
  exists (hdr 163), 1, [MGtid 0 1 2]. split; [lia|]. split; [vm_compute; reflexivity|]. split; [repeat constructor|]. split; [reflexivity|].
  vm_compute. reflexivity.
Qed.
Print Assumptions C30_list_flags_refuted.
(* exactly: with any of the four flag bits set, every list fails to decode *)
Theorem C30_list_flags_exact : forall bl st h flags l crc, flags < 16 -> N.of_nat (length l) < 268435456 -> Forall mgtid_ok l -> h_type h = 163 ->
  trailer_ok (ps_checksum st) crc ->
  parse_event bl st h (maria_list_bytes flags l ++ crc) =
    if flags =? 0 then Ok (EvMariaGtidList l, st) else Err (EIo UnexpectedEof).
Proof.
  intros bl st h flags l crc F H1 H2 H3 H4. destruct (N.eqb_spec flags 0) as [->|Hf]; [now apply C30_maria_gtid_list_partial|].
  unfold parse_event. rewrite payload_of by exact H4. cbn [rbind].
  assert (EB : event_body bl (ps_tables st) h = pmap EvMariaGtidList parse_maria_gtid_list) by (unfold event_body; now rewrite H3).
  rewrite EB. unfold pmap, pbind. rewrite maria_list_flags by (auto; lia). reflexivity.
Qed.
Print Assumptions C30_list_flags_exact.
Definition u1 : list byte := repeat (n2b 0xAB) 16.
Definition u2 : list byte := repeat (n2b 0xCD) 16.
Definition prev1 : list prev_server := [(u1, [(1, 5); (7, 8)]); (u2, [])].
Example C30_example : prev_gtids_ok prev1 /\ mgtid_ok (MGtid 0 3 100) /\ h_server (hdr 162) = 3 /\
  parse_event Debug pstate_new (hdr 33) (mysql_gtid_bytes 1 u1 9 [n2b 2]) = Ok (EvMySqlGtid (MySqlGtid (Gtid (uuid_new u1) 9) 1), pstate_new) /\
  parse_event Debug pstate_new (hdr 163) (maria_list_bytes 0 [MGtid 0 1 2; MGtid 1 1 7]) = Ok (EvMariaGtidList [MGtid 0 1 2; MGtid 1 1 7], pstate_new).
Proof.
  split.
  - split; [reflexivity|]. split.
    + repeat (apply Forall_cons || apply Forall_nil || split || reflexivity).
    + constructor; [|constructor; [intros []|constructor]]. cbn [map fst In prev1]. intros [E|[]]. vm_compute in E. discriminate E.
  - split; [repeat split; reflexivity|]. split; [reflexivity|]. split; vm_compute; reflexivity.
Qed.

(* ---- C31 ---- *)
Definition supported : list N := [2; 4; 5; 14; 15; 16; 19; 23; 24; 25; 27; 29; 30; 31; 32; 33; 35; 160; 162; 163].
Theorem C31_unknown_events_skipped : forall bl st h p crc, ~ In (h_type h) supported -> trailer_ok (ps_checksum st) crc ->
  parse_event bl st h (p ++ crc) = Ok (EvUnknown, st).
Proof.
  intros bl st h p crc Hn Hc. rewrite (parse_event_starts bl st h p crc EvUnknown Hc); [reflexivity|].
  exists 0%nat. unfold event_body.
  repeat match goal with |- context [h_type h =? ?k] =>
    destruct (N.eqb_spec (h_type h) k) as [X|_]; [exfalso; apply Hn; rewrite X; unfold supported; cbn [In]; tauto|] end. reflexivity.
Qed.
Print Assumptions C31_unknown_events_skipped.
Example C31_example : ~ In (h_type (hdr 34)) supported /\ ~ In 0 supported /\ ~ In 38 supported /\
  parse_event Debug (PState CkCrc32 []) (hdr 38) (map n2b [1; 2; 3; 4; 5]) = Ok (EvUnknown, PState CkCrc32 []).
Proof. split; [|split; [|split]]; try (vm_compute; intuition discriminate). Qed.

(* ---- C32 ---- *)
(* rotate, xid, intvar, heartbeat, rows-query, annotate-rows, query, user variable, MySQL GTID, MariaDB GTID and GTID list *)
Theorem C32_service_events_never_panic : forall bl st h slice, In (h_type h) [4; 16; 5; 27; 29; 160; 2; 14; 33; 162; 163] ->
  (ps_checksum st = CkNone \/ 4 <= length slice)%nat -> returns (parse_event bl st h slice).
Proof. intros bl st h slice Ht Hc. apply parse_event_returns; [exact Hc|]. intros p. now apply psafe_simple. Qed.
Print Assumptions C32_service_events_never_panic.
Example C32_example : parse_event Debug pstate_new (hdr 163) (map n2b [255; 255; 255; 255; 0]) = Err (EIo UnexpectedEof) /\
  parse_event Debug pstate_new (hdr 14) (map n2b [1; 0; 0; 0; 255; 0]) = Err EFromUtf8 /\
  parse_event Debug pstate_new (hdr 2) [] = Err (EIo UnexpectedEof).
Proof. repeat split; vm_compute; reflexivity. Qed.

(* ---- C68 ---- *)
(* full statement: user variables of every type decode to the bytes of their value.  Proved when these bytes are UTF-8
   (uservar_bytes covers exactly those); integer and real variables are sent in binary *)
Theorem C68_user_variables_partial : forall bl st h name ty co bs fl t crc, valid_text name -> u32 (N.of_nat (length (utf8_encode name))) ->
  u8 ty -> u32 co -> u8 fl -> u32 (N.of_nat (length bs)) -> from_utf8 bs = Ok t -> h_type h = 14 -> trailer_ok (ps_checksum st) crc ->
  parse_event bl st h (uservar_raw name (Some (ty, co, bs, fl)) ++ crc) = Ok (EvUserVar (UserVar name (Some (VariableValue ty co t fl))), st).
Proof.
  intros bl st h name ty co bs fl t crc H1 H2 H3 H4 H5 H6 H7 H8 H9. unfold from_utf8 in H7. destruct (utf8_decode bs) eqn:E; [|discriminate].
  injection H7 as ->. apply utf8_decode_sound in E. destruct E as [Ht <-].
  change (uservar_raw name (Some (ty, co, utf8_encode t, fl))) with (uservar_bytes (UserVar name (Some (VariableValue ty co t fl)))).
  apply (C29_service_events bl st h _ 14); [|exact H8|exact H9]. constructor. unfold uservar_ok. cbn [uv_name uv_value vv_type vv_collation vv_value vv_flags]. auto 10.
Qed.
Print Assumptions C68_user_variables_partial.
(* every value: its text if its bytes are UTF-8, the decoding error otherwise *)
Theorem C68_every_value : forall bl st h name ty co bs fl crc, valid_text name -> u32 (N.of_nat (length (utf8_encode name))) ->
  u8 ty -> u32 co -> u8 fl -> u32 (N.of_nat (length bs)) -> h_type h = 14 -> trailer_ok (ps_checksum st) crc ->
  (exists t, valid_text t /\ utf8_encode t = bs /\
     parse_event bl st h (uservar_raw name (Some (ty, co, bs, fl)) ++ crc) = Ok (EvUserVar (UserVar name (Some (VariableValue ty co t fl))), st)) \/
  ((forall t, valid_text t -> utf8_encode t <> bs) /\ parse_event bl st h (uservar_raw name (Some (ty, co, bs, fl)) ++ crc) = Err EFromUtf8).
Proof.
  intros bl st h name ty co bs fl crc H1 H2 H3 H4 H5 H6 H7 H8. destruct (from_utf8 bs) as [t|e| |] eqn:E.
  - left. exists t. pose proof E as E'. unfold from_utf8 in E'. destruct (utf8_decode bs) eqn:D; [|discriminate]. injection E' as ->.
    apply utf8_decode_sound in D. destruct D as [Ht Hb]. split; [exact Ht|]. split; [exact Hb|]. now apply C68_user_variables_partial.
  - right. split.
    { intros t Ht <-. unfold from_utf8 in E. rewrite utf8_decode_encode in E by exact Ht. discriminate. }
    assert (e = EFromUtf8) as -> by (unfold from_utf8 in E; destruct (utf8_decode bs); congruence).
    pose proof (fails_uservar name ty co bs fl _ H1 H2 H3 H4 H6 E [] []) as F. cbn [app length] in F. rewrite app_nil_r in F.
    unfold parse_event. rewrite payload_of by exact H8. cbn [rbind]. unfold event_body. cbv zeta. rewrite H7. repeat match goal with |- context [14 =? ?k] => let b := eval vm_compute in (14 =? k) in change (14 =? k) with b; cbv iota end. unfold pmap, pbind. now rewrite F.
  - unfold from_utf8 in E. destruct (utf8_decode bs); discriminate.
  - unfold from_utf8 in E. destruct (utf8_decode bs); discriminate.
Qed.
Print Assumptions C68_every_value.
(* SET @a = 200: the value is the little-endian number 200 in 8 bytes (type 2, INT_RESULT) *)
Theorem C68_integer_variable_refuted : exists h, h_type h = 14 /\
  parse_event Release pstate_new h (uservar_raw (tx "a") (Some (2, 33, le_enc 8 200, 0))) = Err EFromUtf8.
Proof. exists (hdr 14). split; [reflexivity|vm_compute; reflexivity]. Qed.
Print Assumptions C68_integer_variable_refuted.
Example C68_example : parse_event Release pstate_new (hdr 14) (uservar_raw (tx "a") (Some (0, 45, map n2b [0xC3; 0xA9], 0))) =
  Ok (EvUserVar (UserVar (tx "a") (Some (VariableValue 0 45 [0xE9] 0))), pstate_new) /\ from_utf8 (map n2b [0xC3; 0xA9]) = Ok [0xE9].
Proof. split; vm_compute; reflexivity. Qed.
