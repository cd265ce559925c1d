(* Claimed properties of statements in other character sets than UTF-8 (query_event.rs, rows_query_event.rs): C99. *)
From Coq Require Import Strings.String.
From Verif Require Import Base.Tac Base.Bytes Base.Text Base.Res Base.Str Base.Parse Model.Codec Model.Gtid Model.GtidMaria Model.TableMap Model.Rows Model.Events Model.Client Model.Channel
  Spec.CodecSpec Spec.EventSpec Spec.GtidSpec Spec.ChannelSpec Spec.ClientSpec Spec.PipelineSpec Spec.CheckpointSpec Spec.TransportSpec
  Proofs.CodecProofs Proofs.EventProofs Proofs.GtidProofs Proofs.GtidSetProofs Proofs.ClientProofs Props.ClientProps Props.SessionProps Props.PipelineProps Props.CheckpointProps.
Local Open Scope N_scope.

(* A query event as the server writes it: the database's name and the statement are bytes, the statement in the character set of the
   client that sent it.  [status] contains, among others, the number of that character set. *)
Record statement_event := Statement { se_thread : N; se_duration : N; se_error : N; se_status : list byte; se_database : list byte; se_text : list byte }.
Definition statement_ok (s : statement_event) : Prop :=
  u32 (se_thread s) /\ u32 (se_duration s) /\ u16 (se_error s) /\ u16 (N.of_nat (length (se_status s))) /\ u8 (N.of_nat (length (se_database s))).
Definition statement_bytes (s : statement_event) : list byte :=
  le_enc 4 (se_thread s) ++ le_enc 4 (se_duration s) ++ le_enc 1 (N.of_nat (length (se_database s))) ++ le_enc 2 (se_error s) ++
  le_enc 2 (N.of_nat (length (se_status s))) ++ se_status s ++ se_database s ++ [n2b 0] ++ se_text s.
Definition is_utf8 (bs : list byte) : Prop := exists t, valid_text t /\ utf8_encode t = bs.

(* parsers that fail when they look at the end of the buffer *)
Definition fails_end {A} (p : parser A) (bs : list byte) (e : error) : Prop := forall pre, p (pre ++ bs) (length pre) = Err e.
Lemma fails_fails_end {A} (p : parser A) bs e : fails p bs e -> fails_end p bs e.
Proof. intros H pre. specialize (H pre []). now rewrite app_nil_r in H. Qed.
Lemma fails_end_first {A B} (p : parser A) (f : A -> parser B) bs e : fails_end p bs e -> fails_end (pbind p f) bs e.
Proof. intros H pre. unfold pbind. now rewrite H. Qed.
Lemma fails_end_after {A B} (p : parser A) (f : A -> parser B) b1 b2 v e : runs p b1 v -> fails_end (f v) b2 e -> fails_end (pbind p f) (b1 ++ b2) e.
Proof. intros H K pre. unfold pbind. rewrite H. rewrite <- app_length, app_assoc. apply K. Qed.
Lemma utf8_no bs : ~ is_utf8 bs -> utf8_decode bs = None.
Proof. intros H. destruct (utf8_decode bs) as [t|] eqn:E; [|reflexivity]. destruct H. exists t. now apply utf8_decode_sound. Qed.
Lemma fails_end_to_string bs : ~ is_utf8 bs -> fails_end read_to_string bs (EIo InvalidData).
Proof.
  intros H pre. unfold read_to_string, pbind. pose proof (runs_end_rest bs pre) as R. rewrite R. now rewrite (utf8_no bs H).
Qed.
Lemma query_no_database s : statement_ok s -> ~ is_utf8 (se_database s) -> fails_end parse_query (statement_bytes s) EFromUtf8.
Proof.
  destruct s as [th du er st db sql]. unfold statement_ok, statement_bytes, parse_query. cbn [se_thread se_duration se_error se_status se_database se_text]. intros (H1 & H2 & H3 & H4 & H5) N.
  do 5 (eapply fails_end_after; [runs_int|cbv beta]). eapply fails_end_after; [apply runs_read_bytes; [reflexivity|unum; unfold isize_max; lia]|].
  apply fails_fails_end, fails_first, fails_string; [reflexivity|unum; unfold isize_max; lia|]. unfold from_utf8. now rewrite (utf8_no db N).
Qed.
Lemma query_no_text s : statement_ok s -> is_utf8 (se_database s) -> ~ is_utf8 (se_text s) -> fails_end parse_query (statement_bytes s) (EIo InvalidData).
Proof.
  destruct s as [th du er st db sql]. unfold statement_ok, statement_bytes, parse_query. cbn [se_thread se_duration se_error se_status se_database se_text]. intros (H1 & H2 & H3 & H4 & H5) (d & V & <-) N.
  do 5 (eapply fails_end_after; [runs_int|cbv beta]). eapply fails_end_after; [apply runs_read_bytes; [reflexivity|unum; unfold isize_max; lia]|].
  eapply fails_end_after; [apply runs_string; [split; [exact V|unum; lia]|reflexivity]|].
  eapply fails_end_after; [apply (runs_seek 1); reflexivity|]. apply fails_end_first. now apply fails_end_to_string.
Qed.
Lemma body_fails bl st h p crc e : trailer_ok (ps_checksum st) crc -> event_body bl (ps_tables st) h p 0%nat = Err e -> parse_event bl st h (p ++ crc) = Err e.
Proof. intros C E. unfold parse_event. rewrite payload_of by exact C. cbn [rbind]. now rewrite E. Qed.
Lemma is_utf8_dec bs : is_utf8 bs \/ ~ is_utf8 bs.
Proof.
  destruct (utf8_decode bs) as [t|] eqn:E; [left; exists t; now apply utf8_decode_sound|]. right. intros (t & V & <-). now rewrite utf8_decode_encode in E.
Qed.

(* ---- C99 ---- *)
(* every statement event decodes to exactly the text when the statement and the database's name are UTF-8, whatever character set the event
   names, and to an error when they are not; the decoder is as before *)
Theorem C99_statement_exact : forall bl st h s crc, statement_ok s -> h_type h = 2 -> trailer_ok (ps_checksum st) crc ->
  (exists db t, valid_text db /\ utf8_encode db = se_database s /\ valid_text t /\ utf8_encode t = se_text s /\
     parse_event bl st h (statement_bytes s ++ crc) = Ok (EvQuery (Query (se_thread s) (se_duration s) (se_error s) (se_status s) db t), st)) \/
  (~ is_utf8 (se_database s) /\ parse_event bl st h (statement_bytes s ++ crc) = Err EFromUtf8) \/
  (is_utf8 (se_database s) /\ ~ is_utf8 (se_text s) /\ parse_event bl st h (statement_bytes s ++ crc) = Err (EIo InvalidData)).
Proof.
  intros bl st h s crc H T C.
  assert (B : forall e, fails_end parse_query (statement_bytes s) e -> parse_event bl st h (statement_bytes s ++ crc) = Err e).
  { intros e F. apply body_fails; [exact C|]. unfold event_body. cbv zeta. rewrite T. cbn [N.eqb Pos.eqb]. assert (F2 : fails_end (pmap EvQuery parse_query) (statement_bytes s) e) by (apply fails_end_first; exact F). exact (F2 []). }
  destruct (is_utf8_dec (se_database s)) as [D|D]; [|right; left; split; [exact D|]; apply B; now apply query_no_database].
  destruct (is_utf8_dec (se_text s)) as [X|X]; [|right; right; split; [exact D|]; split; [exact X|]; apply B; now apply query_no_text].
  left. destruct D as (db & V1 & E1), X as (t & V2 & E2). exists db, t. do 4 (split; [assumption|]).
  assert (E : statement_bytes s = query_bytes (Query (se_thread s) (se_duration s) (se_error s) (se_status s) db t)).
  { unfold statement_bytes, query_bytes. cbn [q_thread q_duration q_error q_status q_database q_sql]. now rewrite E1, E2. }
  rewrite E. destruct H as (H1 & H2 & H3 & H4 & H5).
  rewrite (parse_event_starts bl st h _ crc (EvQuery (Query (se_thread s) (se_duration s) (se_error s) (se_status s) db t))); [reflexivity|exact C|].
  eapply service_starts; [|exact T]. apply sv_query. unfold query_ok. cbn [q_thread q_duration q_error q_status q_database q_sql]. rewrite E1. auto 10.
Qed.
Print Assumptions C99_statement_exact.
(* the statement in a rows query event (MySQL: one byte in front) or annotation (MariaDB) *)
Theorem C99_annotation_exact : forall bl st h p crc, trailer_ok (ps_checksum st) crc ->
  (h_type h = 160 -> (exists t, valid_text t /\ utf8_encode t = p /\ parse_event bl st h (p ++ crc) = Ok (EvRowsQuery t, st)) \/ (~ is_utf8 p /\ parse_event bl st h (p ++ crc) = Err (EIo InvalidData))) /\
  (h_type h = 29 -> forall b, (exists t, valid_text t /\ utf8_encode t = p /\ parse_event bl st h ((b :: p) ++ crc) = Ok (EvRowsQuery t, st)) \/
    (~ is_utf8 p /\ parse_event bl st h ((b :: p) ++ crc) = Err (EIo InvalidData))).
Proof.
  intros bl st h p crc C. split; [intros T|intros T b]; (destruct (is_utf8_dec p) as [(t & V & <-)|N]; [left; exists t; split; [exact V|]; split; [reflexivity|]|right; split; [exact N|]]).
  - rewrite (parse_event_starts bl st h _ crc (EvRowsQuery t)); [reflexivity|exact C|]. eapply service_starts; [|exact T]. now apply sv_annotate.
  - apply body_fails; [exact C|]. unfold event_body. cbv zeta. rewrite T. cbn [N.eqb Pos.eqb]. assert (F : fails_end (pmap EvRowsQuery parse_rows_query_mariadb) p (EIo InvalidData)) by (apply fails_end_first, fails_end_to_string; exact N). exact (F []).
  - rewrite (parse_event_starts bl st h _ crc (EvRowsQuery t)); [reflexivity|exact C|]. eapply service_starts; [|exact T]. now apply sv_rows_query.
  - apply body_fails; [exact C|]. unfold event_body. cbv zeta. rewrite T. cbn [N.eqb Pos.eqb]. assert (F : fails_end (pmap EvRowsQuery parse_rows_query_mysql) ([b] ++ p) (EIo InvalidData)) by (apply fails_end_first; eapply fails_end_after; [apply (runs_seek 1); reflexivity|]; now apply fails_end_to_string).
    exact (F []).
Qed.
Print Assumptions C99_annotation_exact.
(* A transaction whose statement is not handed out: between its GTID and the next one nothing that completes it is.  It never gets into
   the saved set, so it is asked for on every connection (C49). *)
Definition of_txn (d : list byte) (n : N) (x : hev) : Prop := exists g, mysql_mark x = Some g /\ udata (g_source g) = d /\ g_txn g = n.
Lemma mark_completes_nothing x g : mysql_mark x = Some g -> is_end (snd x) = false /\ is_statement (snd x) = false.
Proof. destruct x as [h e]. unfold mysql_mark. cbn [snd]. destruct e; try discriminate. auto. Qed.
Theorem C99_never_saved : forall bl c c' s s' a x m b g,
  o_strategy (c_opts c) = FromGtid -> c_mysql c = None -> o_set (c_opts c) = Some s -> set_ok s ->
  Forall (fun x => forall g, snd x = EvMySqlGtid g -> uuid_ok (g_source (me_gtid g)) /\ g_txn (me_gtid g) < u64_top) (a ++ x :: m ++ b) ->
  mysql_mark x = Some g -> Forall (fun y => mysql_mark y = None /\ is_end (snd y) = false /\ is_statement (snd y) = false) m ->
  (b = [] \/ exists y r g2, b = y :: r /\ mysql_mark y = Some g2) -> Forall (fun y => ~ of_txn (udata (g_source g)) (g_txn g) y) (a ++ b) ->
  commit_all bl c (a ++ x :: m ++ b) = Ok c' -> o_set (c_opts c') = Some s' ->
  (set_has s' (udata (g_source g)) (g_txn g) <-> set_has s (udata (g_source g)) (g_txn g)).
Proof.
  intros bl c c' s s' a x m b g M G0 S SO F MX FM B FO H S'. destruct (C77_any_events_mysql bl _ c c' s M H S SO) as (s2 & E2 & _ & _ & I); [rewrite G0; discriminate|exact F|].
  rewrite S' in E2. injection E2 as <-. rewrite I. split; [|auto]. intros [K|(g' & rest & (pre & y & E & L & CO) & D & N)]; [exact K|exfalso].
  destruct L as [(a0 & x' & b0 & EP & MX' & F0)|[L _]]; [|rewrite G0 in L; discriminate L]. rewrite EP in E. rewrite <- app_assoc in E. cbn [app] in E.
  assert (CY : is_end (snd y) = true \/ is_statement (snd y) = true) by (destruct CO as [CO|[CO _]]; auto). clear CO H.
  assert (O' : of_txn (udata (g_source g)) (g_txn g) x') by (exists g'; auto).
  (* x' is x *)
  assert (K : b0 ++ y :: rest = m ++ b).
  { apply Forall_app in FO. destruct FO as [FA FB]. clear - E O' FA FB FM.
    revert a0 E. induction a as [|u a IH]; intros [|u0 a0] E; cbn [app] in E.
    - injection E as _ E. auto.
    - injection E as _ E. exfalso. assert (J : In x' (m ++ b)) by (rewrite E; apply in_or_app; right; left; reflexivity).
      apply in_app_iff in J. destruct J as [J|J].
      + rewrite Forall_forall in FM. apply FM in J. destruct J as [J _], O' as (g' & O' & _). congruence.
      + rewrite Forall_forall in FB. exact (FB _ J O').
    - injection E as -> _. apply Forall_cons_iff in FA. destruct FA as [FA _]. destruct (FA O').
    - injection E as _ E. apply Forall_cons_iff in FA. destruct FA as [_ FA]. exact (IH FA a0 E). }
  clear - K FM B F0 CY. revert b0 F0 K. induction m as [|u m IH]; intros b0 F0 K; cbn [app] in K.
  - destruct B as [->|(z & r & g2 & -> & MZ)]; [destruct b0; discriminate K|]. destruct b0 as [|v b0]; cbn [app] in K; injection K as -> _.
    + apply mark_completes_nothing in MZ. destruct MZ, CY; congruence.
    + apply Forall_cons_iff in F0. destruct F0 as [F0 _]. congruence.
  - apply Forall_cons_iff in FM. destruct FM as [(U1 & U2 & U3) FM]. destruct b0 as [|v b0]; cbn [app] in K; injection K as -> K; [destruct CY; congruence|].
    apply Forall_cons_iff in F0. destruct F0 as [_ F0]. exact (IH FM b0 F0 K).
Qed.
Print Assumptions C99_never_saved.
(* "INSERT INTO t VALUES ('é')" from a client with the character set latin1: an error in place of the event.  By GTID the transaction is
   never saved; by position the next event makes the client pass over it. *)
Definition latin1_insert : statement_event := Statement 9 0 0 (map n2b [4; 8; 0; 8; 0; 33; 0]) (utf8_encode (tx "shop")) (utf8_encode (tx "INSERT INTO t VALUES ('") ++ [n2b 0xE9] ++ utf8_encode (tx "')")).
Definition packets99 : list packet := pk_fd ++ [pk66 (hx 33 79 400) (mysql_gtid_bytes 1 e1 5 [] ++ crc4) 2; pk66 (hx 2 99 499) (statement_bytes latin1_insert ++ crc4) 3] ++ pk_ddl.
Definition saved_text (r : res client) : option (text * N) := match r with Ok c => match o_set (c_opts c) with Some s => Some (gtid_set_text s, o_pos (c_opts c)) | None => Some ([], o_pos (c_opts c)) end | _ => None end.
Theorem C99_every_statement_refuted : exists evs1 evs2,
  statement_ok latin1_insert /\
  calls (stream_next Release) 5 (stream_new [Got (flat_map wire packets99)] CkCrc32) = map (fun x => Ok (Some (inl x))) evs1 ++ [Ok (Some (inr (EIo InvalidData)))] ++ map (fun x => Ok (Some (inl x))) evs2 /\
  saved_text (commit_all Release (client_new (from_mysql_gtid set1)) (evs1 ++ evs2)) = Some (tx "24bc7850-2c16-11e6-a073-0242ac110001:1-4:6", 817) /\
  saved_text (commit_all Release (client_new (from_position (tx "bin.1") 122)) (evs1 ++ evs2)) = Some ([], 817).
Proof.
  exists [ev_fd; (hx 33 79 400, EvMySqlGtid (MySqlGtid (Gtid (uuid_new e1) 5) 1))], [(hx 33 79 737, EvMySqlGtid (MySqlGtid (Gtid (uuid_new e1) 6) 0)); (hx 2 80 817, EvQuery q_create)].
  split; [repeat split; vm_compute; reflexivity|]. split; [vm_compute; reflexivity|]. split; vm_compute; reflexivity.
Qed.
Print Assumptions C99_every_statement_refuted.
(* the same statement in UTF-8, and the shape C99_never_saved asks for *)
Example C99_example : let s := Statement 9 0 0 [] (utf8_encode (tx "shop")) (utf8_encode (tx "INSERT INTO t VALUES ('" ++ [0xE9] ++ tx "')")) in
  statement_ok s /\ is_utf8 (se_text s) /\ ~ is_utf8 (se_text latin1_insert).
Proof.
  cbv zeta. split; [repeat split; vm_compute; reflexivity|]. split.
  - eexists. split; [|reflexivity]. repeat constructor.
  - intros (t & V & E). assert (D : utf8_decode (se_text latin1_insert) = Some t) by (rewrite <- E; now apply utf8_decode_encode). vm_compute in D. discriminate D.
Qed.
Example C99_example_shape : let x := (hx 33 79 400, EvMySqlGtid (MySqlGtid (Gtid (uuid_new e1) 5) 1)) in let b := [(hx 33 79 737, EvMySqlGtid (MySqlGtid (Gtid (uuid_new e1) 6) 0)); (hx 2 80 817, EvQuery q_create)] in
  mysql_mark x = Some (Gtid (uuid_new e1) 5) /\ Forall (fun y => ~ of_txn (udata (uuid_new e1)) 5 y) ([ev_fd] ++ b).
Proof.
  cbv zeta. split; [reflexivity|]. repeat (apply Forall_cons; [intros (g & E & _ & N); try discriminate E; try (injection E as <-; discriminate N)|]). apply Forall_nil.
Qed.
