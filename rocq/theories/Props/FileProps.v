(* Claimed properties of binlog files as a server writes them: C78. *)
From Coq Require Import Strings.String.
From Verif Require Import Base.Tac Base.Bytes Base.Text Base.Res Base.Str Base.Parse Model.Events Model.Client Model.Reader Model.Channel
  Spec.ClientSpec Spec.EventSpec Spec.TableSpec Spec.RowSpec Spec.ReaderSpec Spec.ChannelSpec Spec.PipelineSpec
  Proofs.EventProofs Proofs.ReaderProofs Proofs.PipelineProofs Props.ReaderProps Props.EventProps Props.RowProps Props.PipelineProps.
Local Open Scope N_scope.

(* ---- C78 ---- *)
Lemma file_framed w es fs w2 : file_written w es fs w2 -> Forall framed_ok fs.
Proof. induction 1 as [|w h e bs w1 es fs w2 Hh Hl W F IH]; constructor; [split; assumption|exact IH]. Qed.
Lemma file_length w es fs w2 : file_written w es fs w2 -> length es = length fs.
Proof. induction 1 as [|w h e bs w1 es fs w2 Hh Hl W F IH]; cbn [length]; congruence. Qed.
Lemma file_decoded bl w es fs w2 : file_written w es fs w2 -> forall k st, mirrors w st -> decoded bl st (complete k fs) (map inl (firstn (length (complete k fs)) es)).
Proof.
  induction 1 as [w|w h e bs w1 es fs w2 Hh Hl W F IH]; intros k st M; cbn [complete]; [constructor|].
  destruct (_ <=? k)%nat; [|constructor]. cbn [length firstn map].
  destruct (writes_decode bl w st h e bs w1 M W) as (st1 & E & M1). eapply de_ok; [exact E|]. now apply IH.
Qed.
(* the file, cut after any number of bytes: exactly the events that lie completely before the cut, as written *)
Theorem C78_file_partial : forall bl es fs w k, file_written (Writer CkNone []) es fs w ->
  exists rd, reader_new (firstn (4 + k) (file_of fs)) = Ok rd /\ yields bl rd (map inl (firstn (length (complete k fs)) es)).
Proof.
  intros bl es fs w k F. apply C22_cut_file_partial; [now apply (file_framed _ _ _ _ F)|]. apply (file_decoded bl _ _ _ _ F). apply mirrors_new.
Qed.
Print Assumptions C78_file_partial.
Corollary C78_whole_file_partial : forall bl es fs w, file_written (Writer CkNone []) es fs w ->
  exists rd, reader_new (file_of fs) = Ok rd /\ yields bl rd (map inl es).
Proof.
  intros bl es fs w F. destruct (C78_file_partial bl es fs w (length (flat_map frame fs)) F) as (rd & E & Y).
  rewrite firstn_all2 in E by (unfold file_of; rewrite app_length; change (length file_magic) with 4%nat; lia).
  rewrite complete_all in Y by lia. rewrite <- (file_length _ _ _ _ F), firstn_all in Y. eauto.
Qed.
Print Assumptions C78_whole_file_partial.

(* The same events over the network, whatever checksum setting the connection starts with: if the file begins with a
   format description that names the algorithm, as files of all servers since 5.6 do. *)
Definition as_packets (fs : list framed) (s : N) : list packet := map (fun f => (n2b 0 :: frame f, s)) fs.
Lemma as_log w es fs w2 s : file_written w es fs w2 -> Forall packet_ok (as_packets fs s) -> log_written w es (as_packets fs s) w2.
Proof.
  induction 1 as [|w h e bs w1 es fs w2 Hh Hl W F IH]; intros P; [constructor|]. cbn [as_packets map] in *. apply Forall_cons_iff in P. destruct P as [P1 P2].
  unfold frame at 1. cbn [fst snd]. apply (lw_event w h e bs w1); auto.
Qed.
Lemma arrived_all ps : forall n, (length (flat_map wire ps) <= n)%nat -> arrived n ps = length ps.
Proof.
  induction ps as [|p ps IH]; intros n H; cbn [arrived flat_map length] in *; [reflexivity|]. rewrite app_length in H.
  destruct (Nat.ltb_spec n (length (wire p))); [lia|]. f_equal. apply IH. lia.
Qed.
Theorem C78_same_as_network_partial : forall bl h f es fs w ck cs s,
  header_ok h -> h_type h = 15 -> fde_ok f -> f_alg f <> None -> h_length h = 19 + N.of_nat (length (fde_wire f)) -> h_length h < 256 ->
  file_written (Writer (fde_checksum f) []) es fs w -> Forall packet_ok (as_packets ((h, fde_wire f) :: fs) s) ->
  flowing cs -> in_bytes cs = flat_map wire (as_packets ((h, fde_wire f) :: fs) s) ->
  let all := (h, EvFormat (FormatDescription (f_version f) (f_server f) (fde_checksum f))) :: es in
  exists rd sm, reader_new (file_of ((h, fde_wire f) :: fs)) = Ok rd /\ yields bl rd (map inl all) /\ takes bl (stream_new cs ck) (map inl all) sm.
Proof.
  intros bl h f es fs w ck cs s Hh Ht Hf Ha Hl Hs F P C B all.
  assert (A : forall k, file_written (Writer k []) all ((h, fde_wire f) :: fs) w).
  { intros k. unfold all. apply (fw_event (Writer k []) _ _ _ (Writer (fde_checksum f) [])); auto. apply wr_format; auto. }
  destruct (C78_whole_file_partial bl all ((h, fde_wire f) :: fs) w (A CkNone)) as (rd & E & Y).
  destruct (C66_events_partial bl ck all _ w cs (length (in_bytes cs)) (as_log _ _ _ _ s (A ck) P) C) as (sm & T & _).
  { rewrite <- B. now rewrite firstn_all. }
  exists rd, sm. split; [exact E|]. split; [exact Y|]. rewrite B in T. replace (firstn _ all) with all in T; [exact T|].
  rewrite arrived_all by lia. unfold as_packets. rewrite map_length, <- (file_length _ _ _ _ (A ck)). now rewrite firstn_all.
Qed.
Print Assumptions C78_same_as_network_partial.

(* a file: format description (CRC32), table description, two rows deleted, end of transaction *)
Definition fr (ty : N) (bs : list byte) : framed := (Header 1700000000 ty 3 (19 + N.of_nat (length bs)) 0 0, bs).
Definition file78 : list framed := [fr 15 (fde_wire fd66); fr 19 (table_bytes ex_table ++ crc4); fr 32 (rows_bytes ex_table ex_rows ++ crc4); fr 16 (le_enc 8 9 ++ crc4)].
Definition events78 : list hev :=
  [(fst (fr 15 (fde_wire fd66)), EvFormat (FormatDescription 4 (tx "8.0.33") CkCrc32)); (fst (fr 19 (table_bytes ex_table ++ crc4)), EvTableMap (table_map_of ex_table));
   (fst (fr 32 (rows_bytes ex_table ex_rows ++ crc4)), EvDelete (rows_event_of ex_table ex_rows)); (fst (fr 16 (le_enc 8 9 ++ crc4)), EvXid 9)].
Example C78_example : file_written (Writer CkNone []) events78 file78 (Writer CkCrc32 [ex_table]) /\ f_alg fd66 <> None /\
  h_length (fst (fr 15 (fde_wire fd66))) < 256 /\ Forall packet_ok (as_packets file78 7).
Proof.
  split; [|split; [discriminate|split; [vm_compute; reflexivity|]]].
  - unfold events78, file78, fr. cbn [fst].
    apply (fw_event _ _ _ _ (Writer CkCrc32 [])); [head66|reflexivity| |].
    { apply (wr_format (Writer CkNone []) _ fd66); [reflexivity|exact fd66_ok|vm_compute; reflexivity|reflexivity|left; reflexivity]. }
    apply (fw_event _ _ _ _ (Writer CkCrc32 [ex_table])); [head66|reflexivity| |].
    { apply (wr_table (Writer CkCrc32 [])); [reflexivity|exact ex_table_ok|reflexivity]. }
    apply (fw_event _ _ _ _ (Writer CkCrc32 [ex_table])); [head66|reflexivity| |].
    { apply (wr_rows _ _ ex_table); [apply rw_delete2; [exact ex_rows_ok|reflexivity]|now left|reflexivity|reflexivity]. }
    apply (fw_event _ _ _ _ (Writer CkCrc32 [ex_table])); [head66|reflexivity| |constructor].
    apply wr_service; [apply sv_xid; reflexivity|reflexivity].
  - repeat constructor; vm_compute; reflexivity.
Qed.
