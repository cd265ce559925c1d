(* Claimed properties of whole sessions, from bytes on the connection to the saved position: C66, C74. *)
From Coq Require Import Sorting.Permutation Strings.String.
From Verif Require Import Base.Tac Base.Bytes Base.Text Base.Res Base.Str Base.Parse Model.Gtid Model.GtidMaria Model.Events Model.Client Model.Commands
  Model.Responses Model.Channel Model.Session Spec.GtidSpec Spec.GtidMariaSpec Spec.ClientSpec Spec.EventSpec Spec.TableSpec Spec.RowSpec Spec.CommandSpec Spec.ChannelSpec
  Spec.SessionSpec Spec.PipelineSpec Proofs.GtidProofs Proofs.GtidSetProofs Proofs.ClientProofs Proofs.CommitTotal Proofs.PositionProofs Proofs.SessionProofs Proofs.PlanProofs Proofs.LoginProofs Proofs.PipelineProofs Props.ClientProps Props.EventProps Props.RowProps Props.CommandProps Props.SessionProps.
Local Open Scope N_scope.

(* ---- C66 ---- *)
(* Missing from the full statement: events of 16 MB and more, which take several packets (false for these,
   C70_long_event_refuted), and rows of which no column is in the image, for which it is false (C66_bare_rows_refuted);
   C66_any_stream and C66_whole_iff say what happens to these. *)
(* The connection breaks after any number n of bytes, which arrive in any portions: the iterator hands out exactly
   the events whose packets arrived completely, as written, and then an error *)
Theorem C66_events_partial : forall bl ck evs ps w cs n, log_written (Writer ck []) evs ps w -> flowing cs -> in_bytes cs = firstn n (flat_map wire ps) ->
  exists s, takes bl (stream_new cs ck) (map inl (firstn (arrived n ps) evs)) s /\
    stream_next bl s = (Ok (Some (inr (EIo UnexpectedEof))), Stream [] (sm_parser s)).
Proof.
  intros bl ck evs ps w cs n L F B. destruct (pipeline bl _ _ _ _ L n cs (PState ck []) (mirrors_new ck) F B) as (c' & st' & T & X).
  exists (Stream c' st'). split; [exact T|exact X].
Qed.
Print Assumptions C66_events_partial.
(* For any stream, also one with rows of tables described before it began and with rows without columns: exactly what
   [shown] says is handed out for the events whose packets arrived completely, each at its place, and then an error *)
Theorem C66_any_stream : forall bl ck evs its ps w cs n, log_sent (Writer ck []) evs its ps w -> flowing cs -> in_bytes cs = firstn n (flat_map wire ps) ->
  exists s, takes bl (stream_new cs ck) (firstn (arrived n ps) its) s /\
    stream_next bl s = (Ok (Some (inr (EIo UnexpectedEof))), Stream [] (sm_parser s)).
Proof.
  intros bl ck evs its ps w cs n L F B. destruct (pipeline_any bl _ _ _ _ _ L n cs (PState ck []) (mirrors_new ck) F B) as (c' & st' & T & X).
  exists (Stream c' st'). split; [exact T|exact X].
Qed.
Print Assumptions C66_any_stream.
(* replicate(), then the stream up to the break, committing every event: the saved set is the old one and the
   transactions that arrived completely *)
Theorem C66_session_partial : forall bl ev st h p q ok ps ck w is pk wr n s,
  hashes ev -> names_fit st -> s_ssl st = Disabled -> hello_for h p -> q < 255 -> starts_byte 0 (fst ok) ->
  provider_from (he_version h) = MySQL -> let o := c_opts (w_client w) in
  accepts MySQL o ps o ck -> request_fits ev st o -> fits_packets MySQL st o -> o_strategy o = FromGtid -> o_set o = Some s ->
  Forall item_ok is -> Forall (fun t => stream_gtid_ok (txn_gtid t)) (stream_txns is) -> log_written (Writer ck []) (stream_events is) pk wr ->
  pending (w_in w) ((hello_bytes h, q) :: ok :: ps) (firstn n (flat_map wire pk)) [] ->
  exists w' sm c' s', replicate bl ev st w = (Ok ck, w') /\
    takes bl (stream_new (w_in w') ck) (map inl (firstn (arrived n pk) (stream_events is))) sm /\
    fst (stream_next bl sm) = Ok (Some (inr (EIo UnexpectedEof))) /\
    commit_all bl (w_client w') (firstn (arrived n pk) (stream_events is)) = Ok c' /\ o_set (c_opts c') = Some s' /\
    forall d m, set_has s' d m <->
      set_has s d m \/ exists t, In t (completed (arrived n pk) is) /\ udata (g_source (txn_gtid t)) = d /\ g_txn (txn_gtid t) = m.
Proof.
  intros bl ev st h p q ok ps ck w is pk wr n s HH NF SSL HF Q OK PR o A R Z M S IO G L P.
  destruct (C61_completes bl ev st h p q ok ps o ck w (firstn n (flat_map wire pk)) [] HH NF SSL HF Q OK) as (w' & E & P2 & W); try (rewrite PR; assumption); try assumption.
  destruct P2 as (c & C1 & C2 & C3 & _). rewrite app_nil_r in C1. cbn [flat_map app] in C3.
  destruct (C66_events_partial bl ck _ pk wr (w_in w') n L) as (sm & T & X); [now rewrite C1|now rewrite C1|].
  destruct R as (_ & _ & R). destruct (R s M S) as (K & _).
  destruct (C12_checkpoint_exact bl is (arrived n pk) (w_client w') s IO G) as (c' & s' & Y1 & Y2 & _ & Y3); try (rewrite W; assumption || reflexivity); [exact K|].
  exists w', sm, c', s'. rewrite X. auto 10.
Qed.
Print Assumptions C66_session_partial.
(* MariaDB: likewise, with C13's restriction to row-based groups *)
Theorem C66_mariadb_partial : forall bl ck is ps w cs n c l, log_written (Writer ck []) (mstream_events is) ps w -> flowing cs ->
  in_bytes cs = firstn n (flat_map wire ps) -> Forall mitem_ok is -> o_strategy (c_opts c) = FromGtid -> c_txn c = false ->
  o_list (c_opts c) = Some l -> NoDup (map mg_domain l) -> o_set (c_opts c) = None ->
  exists s c' l', takes bl (stream_new cs ck) (map inl (firstn (arrived n ps) (mstream_events is))) s /\
    fst (stream_next bl s) = Ok (Some (inr (EIo UnexpectedEof))) /\
    commit_all bl c (firstn (arrived n ps) (mstream_events is)) = Ok c' /\ o_list (c_opts c') = Some l' /\
    forall d, domain_gtid l' d = match last_of_domain d (mcompleted (arrived n ps) is) with Some g => Some g | None => domain_gtid l d end.
Proof.
  intros bl ck is ps w cs n c l L F B IO M T LI ND S. destruct (C66_events_partial bl ck _ ps w cs n L F B) as (s & T1 & X).
  destruct (C13_checkpoint_exact_partial bl is (arrived n ps) c l IO M T LI ND S) as (c' & l' & Y1 & Y2 & _ & Y3).
  exists s, c', l'. rewrite X. auto 10.
Qed.
Print Assumptions C66_mariadb_partial.

(* ---- a run: format description, a transaction with rows, a statement ---- *)
Definition hx (ty len next : N) : header := Header 1700000000 ty 3 len next 0.
Definition fd66 : fde := fde0 41 (Some 1) (map n2b [1; 2; 3; 4]).
Definition q_begin : query := Query 9 0 0 [] (tx "shop") (tx "BEGIN").
Definition q_create : query := Query 9 0 0 [n2b 4] (tx "shop") (tx "CREATE TABLE x (y int)").
Definition ex_txn : txn := TBlock (hx 33 79 400) (MySqlGtid (Gtid (uuid_new e1) 5) 1) [] (hx 2 60 460, EvQuery q_begin)
  [(hx 19 107 567, EvTableMap (table_map_of ex_table)); (hx 32 60 627, EvDelete (rows_event_of ex_table ex_rows))] (hx 16 31 658, EvXid 9).
Definition ex_ddl : txn := TAuto (hx 33 79 737) (MySqlGtid (Gtid (uuid_new e1) 6) 0) [] (hx 2 80 817, EvQuery q_create).
Definition ev_fd : hev := (hx 15 122 0, EvFormat (FormatDescription 4 (tx "8.0.33") CkCrc32)).
Definition crc4 : list byte := map n2b [9; 8; 7; 6].
Definition pk66 (h : header) (bs : list byte) (s : N) : packet := (n2b 0 :: header_bytes h ++ bs, s).
Definition pk_fd : list packet := [pk66 (hx 15 122 0) (fde_wire fd66) 1].
Definition pk_txn : list packet :=
  [pk66 (hx 33 79 400) (mysql_gtid_bytes 1 e1 5 [n2b 2; n2b 0] ++ crc4) 2; pk66 (hx 2 60 460) (query_bytes q_begin ++ crc4) 3;
   pk66 (hx 19 107 567) (table_bytes ex_table ++ crc4) 4; pk66 (hx 32 60 627) (rows_bytes ex_table ex_rows ++ crc4) 5; pk66 (hx 16 31 658) (le_enc 8 9 ++ crc4) 6].
Definition pk_ddl : list packet := [pk66 (hx 33 79 737) (mysql_gtid_bytes 0 e1 6 [] ++ crc4) 7; pk66 (hx 2 80 817) (query_bytes q_create ++ crc4) 8].
Ltac head66 := repeat split; vm_compute; reflexivity.
Lemma fd66_ok : fde_ok fd66.
Proof.
  unfold fde_ok. cbn [fd66 fde0 f_version f_server f_created f_lengths f_alg f_crc].
  split; [reflexivity|]. split; [repeat constructor|]. split; [vm_compute; intuition discriminate|]. split; [vm_compute; lia|].
  split; [vm_compute; lia|]. split; [vm_compute; reflexivity|]. split; [vm_compute; reflexivity|]. split; [vm_compute; discriminate|reflexivity].
Qed.
Lemma w_fd es ps w2 ts : log_written (Writer CkCrc32 ts) es ps w2 -> log_written (Writer CkCrc32 ts) (ev_fd :: es) (pk_fd ++ ps) w2.
Proof.
  intros H. unfold ev_fd, pk_fd, pk66. cbn [app]. apply (lw_event _ _ _ _ (Writer CkCrc32 ts)); [head66| |split; vm_compute; reflexivity|exact H].
  apply (wr_format (Writer CkCrc32 ts) (hx 15 122 0) fd66); [reflexivity|exact fd66_ok|vm_compute; reflexivity|reflexivity|right; discriminate].
Qed.
Lemma w_txn es ps w2 ts : log_written (Writer CkCrc32 (ex_table :: ts)) es ps w2 -> log_written (Writer CkCrc32 ts) (txn_events ex_txn ++ es) (pk_txn ++ ps) w2.
Proof.
  intros H. unfold pk_txn, ex_txn, pk66. cbn [txn_events app].
  apply (lw_event _ _ _ _ (Writer CkCrc32 ts)); [head66| |split; vm_compute; reflexivity|]. { apply wr_gtid; reflexivity. }
  apply (lw_event _ _ _ _ (Writer CkCrc32 ts)); [head66| |split; vm_compute; reflexivity|].
  { apply wr_service; [|reflexivity]. apply sv_query. do 4 (split; [vm_compute; reflexivity|]). split; [repeat constructor|]. split; [vm_compute; reflexivity|repeat constructor]. }
  apply (lw_event _ _ _ _ (Writer CkCrc32 (ex_table :: ts))); [head66| |split; vm_compute; reflexivity|].
  { apply (wr_table (Writer CkCrc32 ts)); [reflexivity|exact ex_table_ok|reflexivity]. }
  apply (lw_event _ _ _ _ (Writer CkCrc32 (ex_table :: ts))); [head66| |split; vm_compute; reflexivity|].
  { apply (wr_rows _ _ ex_table); [apply rw_delete2; [exact ex_rows_ok|reflexivity]|now left|reflexivity|reflexivity]. }
  apply (lw_event _ _ _ _ (Writer CkCrc32 (ex_table :: ts))); [head66| |split; vm_compute; reflexivity|exact H].
  apply wr_service; [apply sv_xid; reflexivity|reflexivity].
Qed.
Lemma w_ddl es ps w2 ts : log_written (Writer CkCrc32 ts) es ps w2 -> log_written (Writer CkCrc32 ts) (txn_events ex_ddl ++ es) (pk_ddl ++ ps) w2.
Proof.
  intros H. unfold pk_ddl, ex_ddl, pk66. cbn [txn_events app].
  apply (lw_event _ _ _ _ (Writer CkCrc32 ts)); [head66| |split; vm_compute; reflexivity|]. { apply wr_gtid; reflexivity. }
  apply (lw_event _ _ _ _ (Writer CkCrc32 ts)); [head66| |split; vm_compute; reflexivity|exact H].
  apply wr_service; [|reflexivity]. apply sv_query. do 4 (split; [vm_compute; reflexivity|]). split; [repeat constructor|]. split; [vm_compute; reflexivity|repeat constructor].
Qed.
Definition items66 : list item := [Service ev_fd; Txn ex_txn; Txn ex_ddl].
Definition packets66 : list packet := pk_fd ++ pk_txn ++ pk_ddl.
Definition world66 (n : nat) : world := World (client_new (from_mysql_gtid set1))
  [Got (flat_map wire (number ([mysql_hello; okp] ++ good_answers)) ++ firstn n (flat_map wire packets66))] [].
Definition cut66 : nat := length (flat_map wire (pk_fd ++ pk_txn)).
Fixpoint take_all (k : nat) (s : stream) : list hev * bool :=
  match k with
  | O => ([], false)
  | S k' => match stream_next Release s with (Ok (Some (inl x)), s') => let '(l, b) := take_all k' s' in (x :: l, b) | (Ok (Some (inr (EIo UnexpectedEof))), _) => ([], true) | _ => ([], false) end
  end.
Definition run66 (n : nat) : nat * bool * option text :=
  match replicate Release env0 st0 (world66 n) with
  | (Ok ck, w') => let '(l, b) := take_all 10 (stream_new (w_in w') ck) in (length l, b, set_of (commit_all Release (w_client w') l))
  | _ => (0%nat, false, None)
  end.
Example C66_example : log_written (Writer CkCrc32 []) (stream_events items66) packets66 (Writer CkCrc32 [ex_table]) /\
  Forall item_ok items66 /\ Forall (fun t => stream_gtid_ok (txn_gtid t)) (stream_txns items66) /\
  map (fun n => (arrived n packets66, run66 n)) [126; cut66 - 1; cut66; length (flat_map wire packets66)]%nat =
  map (fun x => (fst x, (fst x, true, Some (tx "24bc7850-2c16-11e6-a073-0242ac110001:" ++ tx (snd x))))) [(0, "1-4"); (5, "1-4"); (6, "1-5"); (8, "1-6")]%nat%string.
Proof.
  split; [|split; [|split]].
  - unfold items66, packets66. cbn [stream_events flat_map item_events app]. apply w_fd. apply w_txn. rewrite <- (app_nil_r pk_ddl). apply w_ddl. constructor.
  - repeat constructor.
  - repeat constructor; vm_compute; reflexivity.
  - vm_compute. reflexivity.
Qed.

(* ---- C74 ---- *)
Lemma taken_prefix bl s es s1 : takes bl s (map inl es) s1 -> forall n its s2 e s3, takes bl s (firstn n its) s2 -> stream_next bl s2 = (Ok (Some (inr (EIo e))), s3) ->
  exists k, map inl es = firstn k its.
Proof.
  revert s. induction es as [|x es IH]; intros s T n its s2 e s3 T2 X; [now exists 0%nat|]. cbn [map] in T. inversion T as [|? ? s1' ? ? E T']; subst.
  destruct n as [|n]; [|destruct its as [|y its]]; cbn [firstn] in T2; inversion T2 as [|? ? s2' ? ? E2 T2']; subst; try congruence.
  assert (K : inl x = y /\ s1' = s2') by (split; congruence). destruct K as [<- ->]. destruct (IH _ T' _ _ _ _ _ T2' X) as (k & K). exists (S k). cbn [map firstn]. now rewrite K.
Qed.
Lemma firstn_length_of {A} (k j : nat) (l : list A) : firstn (length (firstn k l)) l = firstn k l.
Proof.
  rewrite firstn_length. destruct (Nat.le_ge_cases k (length l)) as [H|H]; [now rewrite Nat.min_l by lia|]. rewrite Nat.min_r by lia. now rewrite firstn_all, firstn_all2.
Qed.
Lemma taken_events bl ck es its pk w2 cs n evs s c : log_sent (Writer ck []) es its pk w2 -> flowing cs -> in_bytes cs = firstn n (flat_map wire pk) ->
  takes bl (stream_new cs ck) (map inl evs) s ->
  exists es', es' = firstn (length es') es /\ length es' = length evs /\ commit_all bl c evs = commit_all bl c es' /\ map fst evs = map fst es'.
Proof.
  intros L F B T. destruct (C66_any_stream bl ck _ its pk w2 cs n L F B) as (s9 & T9 & X9). destruct (taken_prefix bl _ _ _ T _ _ _ _ _ T9 X9) as (k & EV).
  destruct (sent_commit bl _ _ _ _ _ L evs _ c EV) as [EV2 EV3]. exists (firstn k es). split; [symmetry; now apply firstn_length_of|].
  split; [|auto]. apply (f_equal (@length _)) in EV3. rewrite !map_length in EV3. congruence.
Qed.
Lemma commit_pos bl es : forall c c', Forall (fun x : hev => h_next (fst x) < 4294967296) es -> o_pos (c_opts c) < 4294967296 -> commit_all bl c es = Ok c' -> o_pos (c_opts c') < 4294967296.
Proof.
  induction es as [|[h e] es IH]; intros c c' H P E; cbn [commit_all] in E; [congruence|]. inversion H as [|? ? H1 H2]; subst.
  destruct (commit bl c h e) as [c1|er| |] eqn:E1; cbn [rbind] in E; try discriminate. apply (IH c1); auto.
  apply commit_coords in E1. destruct E1 as [_ ->]. unfold announced_pos. cbn [fst snd] in *.
  destruct e; cbn [is_rotate]; auto; try (destruct (0 <? h_next h); [exact H1|exact P]). apply N.mod_lt. discriminate.
Qed.

(* what connections preserve *)
Definition saved (c : client) (s : gtid_set) : Prop :=
  o_strategy (c_opts c) = FromGtid /\ o_set (c_opts c) = Some s /\ set_ok s /\ set_canonical s /\ (forall d, ~ set_has s d 0) /\ o_pos (c_opts c) < 4294967296.
Lemma replicate_keeps bl ev st w r w' : o_strategy (c_opts (w_client w)) = FromGtid -> replicate bl ev st w = (r, w') -> c_opts (w_client w') = c_opts (w_client w).
Proof.
  intros M E. rewrite replicate_eq in E. unfold abind in E. pose proof (connect_keeps bl ev st w) as K. destruct (connect bl ev st w) as [[pr|x| |] w1]; cbn [snd] in K; try (inv E; now rewrite K).
  rewrite (set_up_options bl ev st pr w1 r w'); rewrite ?K; auto. unfold asks_end. now rewrite M.
Qed.
Lemma replicate_resets bl ev st w ck w' : o_strategy (c_opts (w_client w)) = FromGtid -> replicate bl ev st w = (Ok ck, w') -> c_txn (w_client w') = false.
Proof.
  intros M E. rewrite replicate_eq in E. unfold abind in E. pose proof (connect_keeps bl ev st w) as K. destruct (connect bl ev st w) as [[pr|x| |] w1]; cbn [snd] in K; try discriminate.
  unfold set_up in E. unfold abind at 1, a_client in E. unfold abind at 1, a_set_client in E.
  set (w2 := World (client_reset (w_client w1)) (w_in w1) (w_log w1)) in *. unfold abind at 1 in E. destruct (adjust_starting_position w2) as [r2 w3] eqn:E2.
  destruct (adjust_none w2 r2 w3) as [-> ->]; [unfold asks_end, w2; cbn [w_client client_reset c_opts]; now rewrite K, M|exact E2|].
  pose proof (kp_rest bl ev st pr w2) as K2. unfold set_up_rest in K2. rewrite E in K2. cbn [snd] in K2. rewrite K2. reflexivity.
Qed.
(* the server reads the saved set *)
Lemma request_read bl ev st c s cs ck w' ps p r : (forall s, Permutation s (e_order ev s)) -> s_server_id st < 4294967296 -> saved c s -> lengths_fit c ->
  replicate bl ev st (World c cs []) = (Ok ck, w') -> sent (w_log w') = ps ++ [(p, 0)] -> srv_dump_gtid p = Some r ->
  forall d n, srv_has (sg_set r) d n <-> set_has s d n.
Proof.
  intros OR ID (M & S & K1 & K2 & K3 & PO) (L1 & L2) E SE D.
  assert (F : request_fits ev st (c_opts c)).
  { split; [exact ID|]. split; [exact PO|]. intros s' _ S'. assert (s' = s) by congruence. subst s'. repeat (split; try assumption); auto. }
  destruct (C61_plan bl ev st (World c cs []) (Ok ck) w' eq_refl F E) as (a & b & LL & _ & C). cbn [w_client] in C.
  pose proof (replicate_keeps bl ev st (World c cs []) _ _ M E) as O. cbn [w_client] in O. rewrite O in C.
  destruct (connect bl ev st (World c cs [])) as [[pr|x| |] w1]; try (destruct C as (_ & _ & C); now destruct (C ck)). destruct C as (_ & F2 & N2). specialize (N2 ck eq_refl).
  assert (X : exists pl P, plan pr st (c_opts c) (c_opts c) = pl ++ [P] /\
    forall q, P q -> asks_gtids s (c_opts c) (if s_blocking st then s_server_id st else 0) q \/ srv_query q <> None \/ srv_dump q <> None).
  { unfold plan. rewrite M, S. destruct pr.
    - destruct (o_list (c_opts c)) as [l|]; rewrite ?app_assoc.
      + exists ([] ++ [asks_heartbeat (s_heartbeat st); asks (tx "SET @master_binlog_checksum= @@global.binlog_checksum"); asks (tx "SELECT @master_binlog_checksum"); asks (tx "SET @mariadb_slave_capability=4");
          asks (tx "SET @slave_connect_state='" ++ gtid_list_text l ++ tx "'"); asks (tx "SET @slave_gtid_strict_mode=0"); asks (tx "SET @slave_gtid_ignore_duplicates=0"); registers (s_server_id st)]).
        eexists. split; [reflexivity|]. intros q H. right. right. unfold asks_position in H. congruence.
      + exists [asks_heartbeat (s_heartbeat st); asks (tx "SET @master_binlog_checksum= @@global.binlog_checksum"); asks (tx "SELECT @master_binlog_checksum")].
        eexists. split; [reflexivity|]. intros q H. right. left. unfold asks in H. congruence.
    - exists [asks_heartbeat (s_heartbeat st); asks (tx "SET @master_binlog_checksum= @@global.binlog_checksum"); asks (tx "SELECT @master_binlog_checksum")].
      eexists. split; [reflexivity|]. intros q H. now left. }
  destruct X as (pl & P & X & Y). rewrite X in *. destruct (follows_last _ _ _ F2 N2) as (qs & p' & S' & A).
  assert (p' = p) as ->.
  { rewrite LL, sent_app, S', app_assoc in SE. apply app_inj_tail in SE. destruct SE as [_ SE]. congruence. }
  destruct (Y p A) as [(r' & R1 & _ & _ & _ & R2)|[Z|Z]].
  - assert (r' = r) as -> by congruence. exact R2.
  - exfalso. destruct (srv_query p) eqn:Q; [|now apply Z]. apply command_check in Q. apply command_check in D. destruct Q as [Q _], D as [D _]. rewrite Q in D. discriminate.
  - exfalso. destruct (srv_dump p) eqn:Q; [|now apply Z]. apply command_check in Q. apply command_check in D. destruct Q as [Q _], D as [D _]. rewrite Q in D. discriminate.
Qed.
Lemma completed_In k is t : In t (completed k is) -> In t (stream_txns is).
Proof. intros H. destruct (completed_prefix is k) as [rest ->]. apply in_or_app. now left. Qed.
Lemma missing_ext (P Q : list byte -> N -> Prop) l r : (forall d n, P d n <-> Q d n) -> missing P l r -> missing Q l r.
Proof. intros H. induction 1; [constructor| |]; [apply missing_skip|apply missing_send]; auto; unfold in_set in *; now rewrite <- H. Qed.

(* numbering from 1; sources and numbers as C12 *)
Definition log_fine (log : list txn) : Prop :=
  NoDup (map txn_id log) /\ Forall (fun t => stream_gtid_ok (txn_gtid t) /\ 0 < g_txn (txn_gtid t)) log.
Lemma contacts_connections bl ev st log c xs c2 : (forall s, Permutation s (e_order ev s)) -> s_server_id st < 4294967296 -> log_fine log ->
  contacts bl ev st log c xs c2 -> forall s, saved c s -> exists s2, saved c2 s2 /\ connections bl log s xs s2.
Proof.
  intros OR ID [ND LF]. induction 1 as [c|c cs e w' xs c2 E C IH|c cs ck w' ps p r is its pk w2 n evs sm c' xs c2 LE E SE D IO MI L F B T CO C IH]; intros s K.
  - exists s. split; [exact K|constructor].
  - apply IH. pose proof (replicate_keeps bl ev st (World c cs []) _ _ (proj1 K) E) as O. cbn [w_client] in O. unfold saved in *. now rewrite O.
  - pose proof K as (M & S & K1 & K2 & K3 & PO). pose proof (replicate_keeps bl ev st (World c cs []) _ _ M E) as O. cbn [w_client] in O.
    pose proof (replicate_resets bl ev st (World c cs []) _ _ M E) as RT.
    pose proof (request_read bl ev st c s cs ck w' ps p r OR ID K LE E SE D) as RR.
    apply (missing_ext _ (set_has s)) in MI; [|exact RR].
    destruct (taken_events bl ck _ its pk w2 (w_in w') n evs sm (w_client w') L F B T) as (es & EV2 & EL & EC & _). rewrite EC in CO. rewrite <- EL. clear T EC EL evs.
    assert (G : Forall (fun t => stream_gtid_ok (txn_gtid t) /\ 0 < g_txn (txn_gtid t)) (stream_txns is)).
    { apply Forall_forall. intros t Hi. apply (missing_In _ _ _ MI) in Hi. rewrite Forall_forall in LF. now apply LF. }
    assert (G1 : Forall (fun t => stream_gtid_ok (txn_gtid t)) (stream_txns is)) by (eapply Forall_impl; [|exact G]; cbn beta; tauto).
    destruct (commit_stream bl is (length es) (w_client w') s IO G1) as (c'' & s' & Y1 & Y2 & Y3 & Y4 & Y5); unfold mode; rewrite ?O; auto.
    rewrite <- EV2 in Y1. assert (c'' = c') as -> by congruence.
    assert (HS : Forall (fun g => uuid_ok (g_source g) /\ g_txn g < u64_top) (map txn_gtid (completed (length es) is))).
    { apply Forall_forall. intros g Hg. apply in_map_iff in Hg. destruct Hg as (t & <- & Ht). apply completed_In in Ht. rewrite Forall_forall in G1. now apply stream_gtid_uuid, G1. }
    destruct (add_all_spec bl _ s K1 HS) as (s'' & Z1 & _ & Z2 & Z3 & _). assert (s'' = s') as -> by congruence.
    assert (K' : saved c' s').
    { split; [exact Y2|]. split; [exact Y3|]. split; [exact Y4|]. split; [now apply Z3|]. split.
      - intros d Hd. apply Z2 in Hd. destruct Hd as [Hd|(g & Hg & _ & Hn)]; [now apply (K3 d)|].
        apply in_map_iff in Hg. destruct Hg as (t & <- & Ht). apply completed_In in Ht. rewrite Forall_forall in G. destruct (G t Ht). lia.
      - apply (commit_pos bl es (w_client w') c'); [|now rewrite O|exact CO]. pose proof (sent_heads _ _ _ _ _ L) as WH. rewrite EV2. now apply ClientProofs.Forall_firstn. }
    destruct (IH s' K') as (s2 & K9 & C9). exists s2. split; [exact K9|].
    eapply (conn_cons bl log s (w_client w') (Session is (length es)) c' s'); cbn [se_items se_cut]; auto.
    + repeat split; rewrite ?O; auto.
    + now rewrite <- EV2.
Qed.
(* For every log, any number of connections and failed attempts, and whatever part of the bytes arrives each time:
   the transactions completely taken, in order, are a prefix of those the client did not have, and the saved set
   leaves exactly the others to be sent *)
Theorem C74_delivery : forall bl ev st log c xs c2 s todo, (forall s, Permutation s (e_order ev s)) -> s_server_id st < 4294967296 -> log_fine log ->
  saved c s -> contacts bl ev st log c xs c2 -> missing (set_has s) log todo ->
  exists s2 rest, o_set (c_opts c2) = Some s2 /\ todo = delivered xs ++ rest /\ missing (set_has s2) log rest.
Proof.
  intros bl ev st log c xs c2 s todo OR ID LF K C MI. destruct (contacts_connections bl ev st log c xs c2 OR ID LF C s K) as (s2 & K2 & C2).
  destruct LF as [ND LF]. assert (G1 : Forall (fun t => stream_gtid_ok (txn_gtid t)) log) by (eapply Forall_impl; [|exact LF]; cbn beta; tauto).
  destruct (C14_delivery bl log s xs s2 todo ND G1) as (rest & R1 & R2); auto; [apply K|]. exists s2, rest. split; [apply K2|]. auto.
Qed.
Print Assumptions C74_delivery.
(* a transaction taken completely on one connection is not written by the server on a later one *)
Theorem C74_not_sent_again : forall bl ev st log c xs x ys y zs c2 s t t', (forall s, Permutation s (e_order ev s)) -> s_server_id st < 4294967296 -> log_fine log ->
  saved c s -> contacts bl ev st log c (xs ++ x :: ys ++ y :: zs) c2 ->
  In t (completed (se_cut x) (se_items x)) -> In t' (stream_txns (se_items y)) -> txn_id t <> txn_id t'.
Proof.
  intros bl ev st log c xs x ys y zs c2 s t t' OR ID LF K C H1 H2. destruct (contacts_connections bl ev st log c _ c2 OR ID LF C s K) as (s2 & K2 & C2).
  destruct LF as [ND LF]. assert (G1 : Forall (fun t => stream_gtid_ok (txn_gtid t)) log) by (eapply Forall_impl; [|exact LF]; cbn beta; tauto).
  eapply C14_not_sent_again; eauto. apply K.
Qed.
Print Assumptions C74_not_sent_again.
(* two connections: the first breaks in the second transaction *)
Definition log74 : list txn := [txn3; ex_txn; ex_ddl].
Definition client74 (r : res client) : client := match r with Ok c => c | _ => client_new from_start end.
Definition link74 (c : client) (ps : list packet) (n : nat) : checksum * world :=
  match replicate Release env0 st0 (World c [Got (flat_map wire (number ([mysql_hello; okp] ++ good_answers)) ++ firstn n (flat_map wire ps))] []) with
  | (Ok ck, w) => (ck, w) | (_, w) => (CkNone, w) end.
Definition c74_0 : client := client_new (from_mysql_gtid set1).
Definition w74_1 : world := Eval vm_compute in snd (link74 c74_0 packets66 (cut66 + 60)).
Definition c74_1 : client := Eval vm_compute in client74 (commit_all Release (w_client w74_1) (firstn 7 (stream_events items66))).
Definition w74_2 : world := Eval vm_compute in snd (link74 c74_1 (pk_fd ++ pk_ddl) 1000).
Definition c74_2 : client := Eval vm_compute in client74 (commit_all Release (w_client w74_2) (stream_events [Service ev_fd; Txn ex_ddl])).
Example C74_example : contacts Release env0 st0 log74 c74_0 [Session items66 7; Session [Service ev_fd; Txn ex_ddl] 3] c74_2 /\
  log_fine log74 /\ saved c74_0 set1 /\ (forall s, Permutation s (e_order env0 s)) /\ missing (set_has set1) log74 [ex_txn; ex_ddl] /\
  delivered [Session items66 7; Session [Service ev_fd; Txn ex_ddl] 3] = [ex_txn; ex_ddl] /\
  option_map gtid_set_text (o_set (c_opts c74_2)) = Some (tx "24bc7850-2c16-11e6-a073-0242ac110001:1-6").
Proof.
  assert (H : forall n, set_has set1 e1 n <-> 1 <= n <= 4).
  { intros n. split.
    - intros (k & us & [E|[]] & _ & i & Hi & Hn). inv E. destruct Hi as [<-|[]]. exact Hn.
    - intros Hn. exists (utext (uuid_new e1)), (UuidSet (uuid_new e1) [Interval 1 4]). split; [now left|]. split; [reflexivity|].
      exists (Interval 1 4). split; [now left|exact Hn]. }
  assert (G : forall a n, srv_has [(e1, [(1, a)])] e1 n <-> 1 <= n < a).
  { intros a n. split.
    - intros (ivs & x & y & [E|[]] & Hi & Hn). inv E. destruct Hi as [E|[]]. inv E. exact Hn.
    - intros Hn. exists [(1, a)], 1, a. split; [now left|]. split; [now left|exact Hn]. }
  split; [|split; [|split; [|split; [|split; [|split]]]]].
  - destruct (C66_events_partial Release CkCrc32 (stream_events items66) packets66 (Writer CkCrc32 [ex_table]) (w_in w74_1) (cut66 + 60) (proj1 C66_example)) as (s1 & T1 & _);
      [repeat constructor; discriminate|vm_compute; reflexivity|].
    replace (arrived (cut66 + 60) packets66) with 7%nat in T1 by (vm_compute; reflexivity).
    assert (L2 : log_written (Writer CkCrc32 []) (stream_events [Service ev_fd; Txn ex_ddl]) (pk_fd ++ pk_ddl) (Writer CkCrc32 [])).
    { cbn [stream_events flat_map item_events app]. apply w_fd. rewrite <- (app_nil_r pk_ddl). apply w_ddl. constructor. }
    destruct (C66_events_partial Release CkCrc32 _ _ _ (w_in w74_2) 1000 L2) as (s2 & T2 & _); [repeat constructor; discriminate|vm_compute; reflexivity|].
    replace (arrived 1000 (pk_fd ++ pk_ddl)) with 3%nat in T2 by (vm_compute; reflexivity).
    change 7%nat with (length (firstn 7 (stream_events items66))) at 1. change 3%nat with (length (firstn 3 (stream_events [Service ev_fd; Txn ex_ddl]))).
    eapply (co_stream Release env0 st0 log74 c74_0 _ CkCrc32 w74_1 (removelast (sent (w_log w74_1))) (fst (last (sent (w_log w74_1)) ([], 9)))).
    + split; [reflexivity|]. intros s E. inv E. reflexivity.
    + instantiate (1 := [Got (flat_map wire (number ([mysql_hello; okp] ++ good_answers)) ++ firstn (cut66 + 60) (flat_map wire packets66))]). vm_compute. reflexivity.
    + vm_compute. reflexivity.
    + vm_compute. reflexivity.
    + exact (proj1 (proj2 C66_example)).
    + cbn [sg_set]. apply missing_skip; [apply (G 5 3); lia|]. apply missing_send; [intros Hx; apply (G 5 5) in Hx; lia|].
      apply missing_send; [intros Hx; apply (G 5 6) in Hx; lia|]. constructor.
    + exact (sent_written _ _ _ _ (proj1 C66_example)).
    + repeat constructor; discriminate.
    + instantiate (1 := (cut66 + 60)%nat). vm_compute. reflexivity.
    + exact T1.
    + instantiate (1 := c74_1). vm_compute. reflexivity.
    + eapply (co_stream Release env0 st0 log74 c74_1 _ CkCrc32 w74_2 (removelast (sent (w_log w74_2))) (fst (last (sent (w_log w74_2)) ([], 9)))).
      * split; [reflexivity|]. intros s E. inv E. reflexivity.
      * instantiate (1 := [Got (flat_map wire (number ([mysql_hello; okp] ++ good_answers)) ++ firstn 1000 (flat_map wire (pk_fd ++ pk_ddl)))]). vm_compute. reflexivity.
      * vm_compute. reflexivity.
      * vm_compute. reflexivity.
      * repeat constructor.
      * cbn [sg_set]. apply missing_skip; [apply (G 6 3); lia|]. apply missing_skip; [apply (G 6 5); lia|].
        apply missing_send; [intros Hx; apply (G 6 6) in Hx; lia|]. constructor.
      * exact (sent_written _ _ _ _ L2).
      * repeat constructor; discriminate.
      * instantiate (1 := 1000%nat). vm_compute. reflexivity.
      * exact T2.
      * instantiate (1 := c74_2). vm_compute. reflexivity.
      * constructor.
  - split; [repeat constructor; intros Hi; repeat (destruct Hi as [Hi|Hi]; [vm_compute in Hi; discriminate|]); destruct Hi|].
    repeat constructor; vm_compute; reflexivity.
  - split; [reflexivity|]. split; [reflexivity|]. split; [exact set1_ok|]. split.
    + repeat constructor; cbn [snd us_ivs set1 canonical istart iend]; try lia; try discriminate.
    + split; [|reflexivity]. intros d (k & us & [E|[]] & _ & i & Hi & Hn). inv E. destruct Hi as [<-|[]]. unfold iv_has in Hn; cbn [istart iend] in Hn. lia.
  - intros s. apply Permutation_refl.
  - apply missing_skip; [apply (H 3); lia|]. apply missing_send; [intros Hx; apply (H 5) in Hx; lia|].
    apply missing_send; [intros Hx; apply (H 6) in Hx; lia|]. constructor.
  - reflexivity.
  - vm_compute. reflexivity.
Qed.
