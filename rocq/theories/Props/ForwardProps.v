(* Claimed properties about what an event's decoding depends on: C89-C91. *)
From Coq Require Import Strings.String.
From Verif Require Import Base.Tac Base.Bytes Base.Text Base.Res Base.Str Base.Parse Model.Codec Model.TableMap Model.Rows Model.Gtid Model.Events Model.Client
  Spec.GtidSpec Spec.CodecSpec Spec.EventSpec Spec.TableSpec Spec.RowSpec Spec.ForwardSpec Proofs.EventProofs Proofs.ForwardProofs Props.EventProps Props.RowProps Props.ClientProps.
Local Open Scope N_scope.

(* ---- C89 ---- *)
Theorem C89_only_own_table : forall bl st1 st2 h slice, ps_checksum st1 = ps_checksum st2 ->
  (In (h_type h) row_codes -> tables_get (le_dec (firstn 6 slice)) (ps_tables st1) = tables_get (le_dec (firstn 6 slice)) (ps_tables st2)) ->
  decoded (parse_event bl st1 h slice) = decoded (parse_event bl st2 h slice).
Proof.
  intros bl st1 st2 h slice C T. unfold parse_event. rewrite <- C.
  assert (K : forall p, event_payload (ps_checksum st1) slice = Ok p -> event_body bl (ps_tables st1) h p 0%nat = event_body bl (ps_tables st2) h p 0%nat).
  { intros p P. destruct (Nat.le_gt_cases 6 (length p)) as [L|L]; [|now apply body_short]. apply body_table. intros H. specialize (T H).
    assert (E : firstn 6 p = firstn 6 slice); [|now rewrite E].
    unfold event_payload in P. destruct (ps_checksum st1); [now injection P as <-|]. destruct (_ <? _)%nat; [discriminate|]. injection P as <-.
    rewrite firstn_length in L. rewrite firstn_firstn. f_equal. lia. }
  destruct (event_payload (ps_checksum st1) slice) as [p|e| |]; try reflexivity. cbn [rbind]. rewrite <- (K p eq_refl).
  destruct (event_body bl (ps_tables st1) h p 0%nat) as [[e q]|e| |]; reflexivity.
Qed.
Print Assumptions C89_only_own_table.
(* and what it leaves: format descriptions set the checksum algorithm, table maps the entry of their table, nothing else anything *)
Theorem C89_what_is_left : forall bl st h slice e st', parse_event bl st h slice = Ok (e, st') ->
  ps_checksum st' = match e with EvFormat f => fd_checksum f | _ => ps_checksum st end /\
  forall id, tables_get id (ps_tables st') = match e with EvTableMap t => if tb_id t =? id then Some t else tables_get id (ps_tables st) | _ => tables_get id (ps_tables st) end.
Proof.
  intros bl st h slice e st' E. split.
  - unfold parse_event in E. destruct (event_payload (ps_checksum st) slice) as [p|x| |]; try discriminate. cbn [rbind] in E.
    destruct (event_body bl (ps_tables st) h p 0%nat) as [[e0 q]|x| |]; try discriminate. injection E as <- <-. destruct e0; reflexivity.
  - intros id. rewrite (C46_only_table_maps_matter bl st [(h, slice)] [e] st'); [cbn [latest fold_left]; destruct e; reflexivity|].
    econstructor; [exact E|constructor].
Qed.
Print Assumptions C89_what_is_left.
(* so any event that is not a format description or the table map of the same table can come in between *)
Corollary C89_in_between : forall bl st h1 s1 e1 st1 h s, parse_event bl st h1 s1 = Ok (e1, st1) -> (forall f, e1 <> EvFormat f) ->
  (forall t, e1 = EvTableMap t -> tb_id t <> le_dec (firstn 6 s)) -> decoded (parse_event bl st1 h s) = decoded (parse_event bl st h s).
Proof.
  intros bl st h1 s1 e1 st1 h s E F T. destruct (C89_what_is_left _ _ _ _ _ _ E) as [C G]. apply C89_only_own_table.
  - rewrite C. destruct e1; try reflexivity. now destruct (F f).
  - intros _. rewrite G. destruct e1; try reflexivity. destruct (N.eqb_spec (tb_id t) (le_dec (firstn 6 s))) as [X|_]; [|reflexivity]. now destruct (T t eq_refl).
Qed.
Print Assumptions C89_in_between.
(* a rows event of table 108 with the table map of 109 in between *)
Definition other_table : table := Table 109 1 (tx "shop") (tx "other") [Column 3 0 true] [false; false; false; false; false; false; false] [].
Example C89_example : let st := PState CkNone [(108, table_map_of ex_table)] in
  let row := le_enc 6 108 ++ le_enc 2 1 ++ map n2b [4; 8; 1; 0; 153; 171; 127; 126; 250; 0; 0] in
  exists st1 r, parse_event Release st (hd_of 19) (table_bytes other_table) = Ok (EvTableMap (table_map_of other_table), st1) /\
    ps_tables st1 <> ps_tables st /\ decoded (parse_event Release st1 (hd_of 23) row) = Ok (EvWrite r) /\ length (re_rows r) = 2%nat /\
    decoded (parse_event Release (PState CkNone [(109, table_map_of ex_table)]) (hd_of 23) row) = Err (EString documented_error).
Proof. eexists _, _. split; [vm_compute; reflexivity|]. split; [vm_compute; discriminate|]. split; [vm_compute; reflexivity|]. split; vm_compute; reflexivity. Qed.

(* ---- C90 ---- *)
(* integer and user variables, XID, GTID and GTID list events: whatever follows the fields known is not looked at *)
Theorem C90_trailing_ignored : forall bl st h h' bs crc more e st', In (h_type h) [5; 14; 16; 33; 35; 162; 163] -> h_type h' = h_type h -> h_server h' = h_server h ->
  trailer_ok (ps_checksum st) crc -> parse_event bl st h (bs ++ crc) = Ok (e, st') ->
  forall crc', trailer_ok (ps_checksum st) crc' -> parse_event bl st h' (bs ++ more ++ crc') = Ok (e, st').
Proof.
  intros bl st h h' bs crc more e st' T H1 H2 C E crc' C'. unfold parse_event in *. rewrite payload_of in E by exact C. cbn [rbind] in E.
  rewrite app_assoc, payload_of by exact C'. cbn [rbind]. destruct (event_body bl (ps_tables st) h bs 0%nat) as [[e0 q]|x| |] eqn:B; try discriminate.
  rewrite (body_header bl (ps_tables st) h' h) by (auto; rewrite H1; intros X; rewrite X in T; cbn [In] in T; intuition discriminate).
  now rewrite (stable_fixed bl (ps_tables st) h T _ _ _ _ B more).
Qed.
Print Assumptions C90_trailing_ignored.
Example C90_example : exists e, parse_event Debug (PState CkCrc32 []) (hdr 33) (mysql_gtid_bytes 1 e1 7 [] ++ map n2b [1; 2; 3; 4]) = Ok (EvMySqlGtid e, PState CkCrc32 []) /\
  parse_event Debug (PState CkCrc32 []) (hdr 33) (mysql_gtid_bytes 1 e1 7 [] ++ map n2b [2; 0; 0; 9; 9] ++ map n2b [5; 6; 7; 8]) = Ok (EvMySqlGtid e, PState CkCrc32 []).
Proof. eexists. split; vm_compute; reflexivity. Qed.
(* not so for table maps: a metadata field of a type the client does not know is an error, although its length says how to skip it *)
Theorem C90_unknown_metadata_exact : forall bl st h bs crc t st' code more, h_type h = 19 -> trailer_ok (ps_checksum st) crc ->
  parse_event bl st h (bs ++ crc) = Ok (EvTableMap t, st') -> ~ (1 <= b2n code <= 12) ->
  parse_event bl st h (bs ++ (code :: more) ++ crc) = Err (EString (tx "Table metadata type " ++ dec_text (b2n code) ++ tx " is not supported")).
Proof.
  intros bl st h bs crc t st' code more T C E H. unfold parse_event in *. rewrite payload_of in E by exact C. cbn [rbind] in E. rewrite app_assoc, payload_of by exact C. cbn [rbind].
  assert (B : event_body bl (ps_tables st) h = pmap EvTableMap parse_table_map) by (unfold event_body; now rewrite T). rewrite B in *.
  unfold pmap, pbind in E. destruct (parse_table_map bs 0%nat) as [[t0 q]|x| |] eqn:P; try discriminate.
  unfold pmap, pbind. now rewrite (table_map_unknown _ _ _ code more P H).
Qed.
Print Assumptions C90_unknown_metadata_exact.
Theorem C90_unknown_metadata_refuted : exists st h bs more e, h_type h = 19 /\ decoded (parse_event Release st h bs) = Ok e /\
  decoded (parse_event Release st h (bs ++ more)) <> Ok e.
Proof.
  exists pstate_new, (hd_of 19), (table_bytes ex_table), (map n2b [13; 1; 3]). eexists. split; [reflexivity|]. split; [vm_compute; reflexivity|]. vm_compute. discriminate.
Qed.
Print Assumptions C90_unknown_metadata_refuted.

(* ---- C91 ---- *)
(* the type code decides what comes out *)
Theorem C91_type_decides : forall bl st h slice e st', parse_event bl st h slice = Ok (e, st') -> code_of e (h_type h).
Proof.
  intros bl st h slice e st' E. unfold parse_event in E. destruct (event_payload (ps_checksum st) slice) as [p|x| |]; try discriminate. cbn [rbind] in E.
  destruct (event_body bl (ps_tables st) h p 0%nat) as [[e0 q]|x| |] eqn:B; try discriminate. injection E as <- <-. now apply body_code in B.
Qed.
Print Assumptions C91_type_decides.
(* of the events carrying row changes exactly those of six types come out with rows *)
Theorem C91_changes_exact : forall bl st h slice e st', In (h_type h) change_codes -> parse_event bl st h slice = Ok (e, st') ->
  (In (h_type h) row_codes -> has_rows e) /\ (~ In (h_type h) row_codes -> e = EvUnknown /\ st' = st).
Proof.
  intros bl st h slice e st' T E. pose proof (C91_type_decides _ _ _ _ _ _ E) as K.
  assert (S : e = EvUnknown -> st' = st).
  { intros ->. unfold parse_event in E. destruct (event_payload (ps_checksum st) slice) as [p|x| |]; try discriminate. cbn [rbind] in E.
    destruct (event_body bl (ps_tables st) h p 0%nat) as [[e0 q]|x| |]; try discriminate. injection E as -> <-. reflexivity. }
  unfold change_codes, row_codes in *. cbn [In] in T. split; intros H; cbn [In] in H.
  - destruct e; cbn [code_of has_rows In] in *; try exact I; exfalso; intuition congruence.
  - destruct e; cbn [code_of In] in K; try (exfalso; intuition congruence). auto.
Qed.
Print Assumptions C91_changes_exact.
(* the others are passed over whatever they contain, and committing moves the position past them *)
Theorem C91_passed_over : forall bl st h p crc c, In (h_type h) change_codes -> ~ In (h_type h) row_codes -> trailer_ok (ps_checksum st) crc ->
  parse_event bl st h (p ++ crc) = Ok (EvUnknown, st) /\
  exists c', commit bl c h EvUnknown = Ok c' /\ (0 < h_next h -> o_pos (c_opts c') = h_next h) /\ o_set (c_opts c') = o_set (c_opts c) /\ c_mysql c' = c_mysql c.
Proof.
  intros bl st h p crc c T R C. split.
  - apply C31_unknown_events_skipped; [|exact C]. unfold change_codes, row_codes, supported in *. cbn [In] in *. intuition congruence.
  - unfold commit. exists (update_binlog_position c h EvUnknown). split.
    + unfold update_gtid_position. destruct (negb _); reflexivity.
    + cbn [update_binlog_position]. destruct (N.ltb_spec 0 (h_next h)); split; try reflexivity; intros; try lia; split; reflexivity.
Qed.
Print Assumptions C91_passed_over.
(* MySQL with partial updates of JSON columns: the transaction's GTID is saved, its change was never handed out *)
Definition hd_next (ty n : N) : header := Header 1700000000 ty 3 60 n 0.
Definition partial_log : list (header * list byte) :=
  [(hd_next 33 100, mysql_gtid_bytes 1 e1 5 []); (hd_next 19 200, table_bytes ex_table); (hd_next 39 300, map n2b [108; 0; 0; 0; 0; 0; 1; 0; 2; 0; 4; 255; 255]); (hd_next 16 400, le_enc 8 77)].
Theorem C91_partial_update_refuted : exists log events st c', history Release pstate_new log events st /\ Exists (fun x => In (h_type (fst x)) change_codes) log /\
  Forall (fun e => ~ has_rows e) events /\ length events = length log /\
  commit_all Release (client_new (from_mysql_gtid set1)) (combine (map fst log) events) = Ok c' /\ option_map gtid_set_text (o_set (c_opts c')) = Some (tx "24bc7850-2c16-11e6-a073-0242ac110001:1-5").
Proof.
  exists partial_log. eexists _, _, _. split.
  - unfold partial_log. eapply hi_ok; [vm_compute; reflexivity|]. eapply hi_ok; [vm_compute; reflexivity|]. eapply hi_ok; [vm_compute; reflexivity|].
    eapply hi_ok; [vm_compute; reflexivity|]. constructor.
  - split; [apply Exists_cons_tl, Exists_cons_tl, Exists_cons_hd; cbn; tauto|]. split; [repeat (apply Forall_cons; [cbn [has_rows]; tauto|]); apply Forall_nil|].
    split; [reflexivity|]. split; vm_compute; reflexivity.
Qed.
Print Assumptions C91_partial_update_refuted.
(* MySQL with compressed transactions: nothing of the first transaction is handed out; the next one's GTID is saved and the first stays missing *)
Definition payload_log : list (header * list byte) :=
  [(hd_next 33 100, mysql_gtid_bytes 1 e1 5 []); (hd_next 40 200, map n2b [2; 1; 0; 3; 1; 100; 0]); (hd_next 33 300, mysql_gtid_bytes 1 e1 6 []); (hd_next 16 400, le_enc 8 77)].
Theorem C91_compressed_transaction_refuted : exists log events st c', history Release pstate_new log events st /\ Exists (fun x => In (h_type (fst x)) change_codes) log /\
  Forall (fun e => ~ has_rows e) events /\ length events = length log /\
  commit_all Release (client_new (from_mysql_gtid set1)) (combine (map fst log) events) = Ok c' /\
  option_map gtid_set_text (o_set (c_opts c')) = Some (tx "24bc7850-2c16-11e6-a073-0242ac110001:1-4:6") /\ o_pos (c_opts c') = 400.
Proof.
  exists payload_log. eexists _, _, _. split.
  - unfold payload_log. eapply hi_ok; [vm_compute; reflexivity|]. eapply hi_ok; [vm_compute; reflexivity|]. eapply hi_ok; [vm_compute; reflexivity|].
    eapply hi_ok; [vm_compute; reflexivity|]. constructor.
  - split; [apply Exists_cons_tl, Exists_cons_hd; cbn; tauto|]. split; [repeat (apply Forall_cons; [cbn [has_rows]; tauto|]); apply Forall_nil|].
    split; [reflexivity|]. split; [vm_compute; reflexivity|]. split; vm_compute; reflexivity.
Qed.
Print Assumptions C91_compressed_transaction_refuted.
Example C91_example : In 39 change_codes /\ ~ In 39 row_codes /\ In 31 change_codes /\ In 31 row_codes.
Proof. unfold change_codes, row_codes. cbn [In]. intuition discriminate. Qed.
