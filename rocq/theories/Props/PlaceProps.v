(* Claimed properties of reconnecting by file and position: C84. *)
From Coq Require Import Strings.String.
From Verif Require Import Base.Tac Base.Bytes Base.Text Base.Res Base.Str Base.Parse Model.Gtid Model.GtidMaria Model.Events Model.Client Model.Commands
  Model.Responses Model.Channel Model.Session Spec.GtidSpec Spec.ClientSpec Spec.EventSpec Spec.TableSpec Spec.RowSpec Spec.CommandSpec Spec.ChannelSpec
  Spec.SessionSpec Spec.PipelineSpec Spec.PositionSessionSpec Proofs.ClientProofs Proofs.PositionProofs Proofs.CommitTotal Proofs.ReplicateProofs Proofs.PanicProofs Proofs.PlanProofs Proofs.PipelineProofs
  Props.ClientProps Props.EventProps Props.RowProps Props.CommandProps Props.SessionProps Props.PipelineProps.
Local Open Scope N_scope.

Lemma marked_prefix f p tm todo a b : marked f p tm todo (a ++ b) -> marked f p tm todo a.
Proof.
  revert f p tm todo. induction a as [|x a IH]; intros f p tm todo H; [constructor|]. cbn [app] in H.
  inversion H; subst; [apply mk_log|apply mk_zero|apply mk_rotate|apply mk_heartbeat]; eauto.
Qed.
Lemma marked_sends f p tm todo xs : marked f p tm todo xs -> sends f p tm todo (map fst xs) (logged xs).
Proof.
  induction 1; unfold logged in *; cbn [map fst filter snd length]; [constructor|now apply sends_log|now apply sends_zero|now apply sends_rotate|now apply sends_heartbeat].
Qed.
(* rotate events name files *)
Definition tells (x : hev) : Prop := forall r, snd x = EvRotate r -> named (ro_file r).
Lemma locate_tells f p es : Forall ClientSpec.plain es -> Forall (fun l => tells (lo_hev l)) (locate f p es).
Proof.
  revert p. induction es as [|e es IH]; intros p H; cbn [locate]; [constructor|]. apply Forall_cons_iff in H. destruct H as [[_ H] H2]. constructor; [|auto].
  intros r E. cbn in E. rewrite E in H. discriminate.
Qed.
Lemma locate_app f es1 es2 : forall p, exists q, locate f p (es1 ++ es2) = locate f p es1 ++ locate f q es2.
Proof.
  induction es1 as [|e es1 IH]; intros p; cbn [app locate]; [now exists p|]. destruct (IH (p + en_size e)) as [q E]. exists q. now rewrite E.
Qed.
Lemma files_tell fs : files_ok fs -> Forall (fun f => named (bf_name f)) fs -> Forall (fun l => tells (lo_hev l)) (locate_files fs).
Proof.
  induction fs as [|f fs IH]; cbn [files_ok locate_files]; [constructor|]. intros [H1 H2] N. apply Forall_cons_iff in N. destruct N as [N1 N2].
  apply Forall_app. split; [|auto]. destruct fs as [|g fs]; [now apply locate_tells|]. destruct H1 as (es & size & h & -> & P & _).
  destruct (locate_app (bf_name f) es [rotate_to size h (bf_name g)] 4) as [q ->]. apply Forall_app. split; [now apply locate_tells|].
  apply Forall_cons; [|constructor]. intros r E. cbn in E. injection E as <-. cbn [ro_file]. now apply Forall_cons_iff in N2.
Qed.
Lemma from_tells f p log : Forall (fun l => tells (lo_hev l)) log -> Forall (fun l => tells (lo_hev l)) (log_from f p log).
Proof. induction log as [|l log IH]; cbn [log_from]; intros H; [constructor|]. destruct (_ && _); [exact H|]. apply Forall_cons_iff in H. now apply IH. Qed.
Lemma log_named fs f p : files_ok fs -> Forall (fun f => named (bf_name f)) fs -> Forall (fun l => named (lo_file l)) (log_from f p (locate_files fs)).
Proof.
  intros _ N. assert (H : Forall (fun l => named (lo_file l)) (locate_files fs)).
  { induction N as [|g fs Hg N IH]; cbn [locate_files]; [constructor|]. apply Forall_app. split; [|exact IH]. generalize 4. induction (bf_entries g); intros n; cbn [locate]; constructor; auto. }
  revert H. generalize (locate_files fs). induction l as [|l log IH]; cbn [log_from]; intros H; [constructor|]. destruct (_ && _); [exact H|]. apply Forall_cons_iff in H. now apply IH.
Qed.
Lemma marked_tells f p tm todo xs : marked f p tm todo xs -> named f -> Forall (fun l => tells (lo_hev l)) todo -> Forall (fun l => named (lo_file l)) todo -> Forall (fun x => tells (fst x)) xs.
Proof.
  induction 1 as [|f p tm l todo xs M IH|f p tm todo h e xs Z R M IH|f p todo h xs M IH|f p todo h n xs Z M IH]; intros F T L; [constructor|..].
  - apply Forall_cons_iff in T. destruct T as [T1 T2]. apply Forall_cons_iff in L. destruct L as [L1 L2]. constructor; [exact T1|]. apply IH; auto.
    destruct (lo_event l) eqn:E; try exact L1. now apply T1.
  - constructor; [|auto]. intros r E. cbn in E. rewrite E in R. discriminate.
  - constructor; [|auto]. intros r E. cbn in E. injection E as <-. exact F.
  - constructor; [|auto]. intros r E. discriminate.
Qed.
Lemma commit_named bl es : forall c c', Forall tells es -> named (o_file (c_opts c)) -> commit_all bl c es = Ok c' -> named (o_file (c_opts c')).
Proof.
  induction es as [|[h e] es IH]; intros c c' H F E; cbn [commit_all] in E; [congruence|]. apply Forall_cons_iff in H. destruct H as [H1 H2].
  destruct (commit bl c h e) as [c1|er| |] eqn:E1; cbn [rbind] in E; try discriminate. apply (IH c1); auto.
  apply commit_coords in E1. destruct E1 as [-> _]. destruct e; cbn [announced_file snd]; try exact F. now apply H1.
Qed.

(* the server goes by what is saved *)
Lemma place_read bl ev st fs c f0 p0 cs ck w' ps q pos fl id nm f p : s_server_id st < 4294967296 -> stands_at fs c f0 p0 ->
  replicate bl ev st (World c cs []) = (Ok ck, w') -> sent (w_log w') = ps ++ [(q, 0)] -> srv_dump q = Some (pos, fl, id, nm) -> reads_from fs nm pos f p ->
  f = f0 /\ p = p0 /\ c_opts (w_client w') = c_opts c.
Proof.
  intros ID (M & PO & [NV NE] & A) E SE D S.
  assert (O : c_opts (w_client w') = c_opts c).
  { apply (C62_not_asked_again bl ev st (World c cs []) (Ok ck) w'); [|exact E]. cbn [w_client]. destruct A as [[A _]|[A _]]; [right; now rewrite A|now left]. }
  assert (PP : o_pos (c_opts c) < 4294967296) by (destruct A as [[_ ->]|(_ & _ & -> & _)]; [exact PO|lia]).
  assert (F : request_fits ev st (c_opts c)) by (split; [exact ID|]; split; [exact PP|]; intros s X; contradiction).
  destruct (last_request bl ev st (World c cs []) ck w' (fun _ x => srv_dump x = Some (o_pos (c_opts c), 0, dump_id st, utf8_encode (o_file (c_opts c)))) eq_refl F E) as (pr & w1 & ps' & q' & _ & SE' & Q).
  { cbn [w_client]. rewrite O. intros pr. unfold plan. set (a := match o_strategy (c_opts c), o_file (c_opts c) with FromEnd, [] => _ | _, _ => _ end). destruct pr.
    - exists (a ++ [asks_heartbeat (s_heartbeat st); asks (tx "SET @master_binlog_checksum= @@global.binlog_checksum"); asks (tx "SELECT @master_binlog_checksum"); asks (tx "SET @mariadb_slave_capability=4")]), (asks_position (c_opts c) (dump_id st)).
      split; [|intros x X; exact X]. rewrite <- app_assoc. unfold dump_id. destruct (o_strategy (c_opts c)); try reflexivity. now destruct M.
    - exists (a ++ [asks_heartbeat (s_heartbeat st); asks (tx "SET @master_binlog_checksum= @@global.binlog_checksum"); asks (tx "SELECT @master_binlog_checksum")]), (asks_position (c_opts c) (dump_id st)).
      split; [|intros x X; exact X]. rewrite <- app_assoc. unfold dump_id. destruct (o_strategy (c_opts c)); try reflexivity. now destruct M. }
  rewrite SE in SE'. apply app_inj_tail in SE'. destruct SE' as [_ X]. injection X as <-. rewrite D in Q. injection Q as -> -> -> ->.
  destruct A as [[A1 A2]|(_ & A1 & A2 & -> & g & r & -> & ->)].
  - rewrite A1, A2 in S. destruct S as [(S & _)|(_ & S & ->)]; [now apply encode_nil in S|]. rewrite utf8_decode_encode in S by exact NV. injection S as <-. auto.
  - rewrite A1, A2 in S. destruct S as [(_ & _ & -> & g' & r' & G & ->)|(S & _)]; [injection G as <- <-; auto|]. now destruct S.
Qed.
Definition not_map (l : located) : bool := negb (is_table_map (lo_event l)).
(* one connection: the place saved is behind what was taken, up to a run of table maps at its end *)
Lemma place_exact bl ev st fs c f0 p0 cs ck w' ps q pos fl id nm f p xs its pk w2 n evs s c' : s_server_id st < 4294967296 -> log_ok fs -> Forall (fun f => named (bf_name f)) fs -> stands_at fs c f0 p0 ->
  replicate bl ev st (World c cs []) = (Ok ck, w') -> sent (w_log w') = ps ++ [(q, 0)] -> srv_dump q = Some (pos, fl, id, nm) -> reads_from fs nm pos f p ->
  opens_with f p xs -> marked f p false (log_from f p (locate_files fs)) xs -> log_sent (Writer ck []) (map fst xs) its pk w2 ->
  flowing (w_in w') -> in_bytes (w_in w') = firstn n (flat_map wire pk) ->
  takes bl (stream_new (w_in w') ck) (map inl evs) s -> commit_all bl (w_client w') evs = Ok c' ->
  f = f0 /\ p = p0 /\ exists f1 p1 pre maps, stands_at fs c' f1 p1 /\ firstn (logged (firstn (length evs) xs)) (log_from f0 p0 (locate_files fs)) = pre ++ maps /\
    Forall (fun l => is_table_map (lo_event l) = true) maps /\
    log_from f1 p1 (locate_files fs) = maps ++ skipn (logged (firstn (length evs) xs)) (log_from f0 p0 (locate_files fs)).
Proof.
  intros ID LO NA A E SE D S AN MK L F B T CO. destruct (place_read _ _ _ _ _ _ _ _ _ _ _ _ _ _ _ _ _ _ ID A E SE D S) as (-> & -> & O). do 2 (split; [reflexivity|]).
  destruct (taken_events bl ck _ its pk w2 (w_in w') n evs s (w_client w') L F B T) as (es & EV2 & EL & EK & _). rewrite EK in CO. rewrite <- EL. clear T EK EL evs.
  destruct A as (M & PO & NF & A). destruct AN as (h & r & ->). destruct es as [|x es].
  { cbn [commit_all] in CO. assert (c' = w_client w') as -> by congruence. exists f0, p0, [], []. split; [repeat split; rewrite ?O; auto; apply NF|]. split; [reflexivity|]. split; [constructor|reflexivity]. }
  cbn [length map fst firstn] in EV2. injection EV2 as -> EV2. cbn [commit_all] in CO. destruct (commit bl (w_client w') h (EvRotate (Rotate f0 p0))) as [c1|er| |] eqn:E1; cbn [rbind] in CO; try discriminate.
  pose proof (commit_coords bl _ _ _ _ E1) as [K1 K2]. cbn [announced_file announced_pos snd is_rotate ro_file ro_pos] in K1, K2. rewrite N.mod_small in K2 by exact PO.
  assert (MR : marked f0 p0 false (log_from f0 p0 (locate_files fs)) r) by (inversion MK; subst; [discriminate|assumption]).
  assert (MP : marked f0 p0 false (log_from f0 p0 (locate_files fs)) (firstn (length es) r)) by (rewrite <- (firstn_skipn (length es) r) in MR; now apply marked_prefix in MR).
  pose proof (marked_sends _ _ _ _ _ MP) as SN. rewrite <- firstn_map, <- EV2 in SN.
  assert (ST : o_strategy (c_opts c1) = o_strategy (c_opts c)).
  { pose proof (proj1 (commit_frame bl [(h, EvRotate (Rotate f0 p0))] (w_client w') c1 ltac:(cbn [commit_all]; rewrite E1; reflexivity))) as X. now rewrite X, O. }
  cbn [length firstn]. change (logged (((h, EvRotate (Rotate f0 p0)), false) :: firstn (length es) r)) with (logged (firstn (length es) r)).
  destruct (C16_resume_exact bl fs c1 f0 p0 es _ c' LO K1 K2 PO SN CO) as (pre & maps & X1 & X2 & X3).
  exists (o_file (c_opts c')), (o_pos (c_opts c')), pre, maps. split; [|auto].
  pose proof (commit_frame bl es c1 c' CO) as [ST2 _]. split; [now rewrite ST2, ST|]. split.
    + apply (commit_pos bl es c1 c'); [|rewrite K2; exact PO|exact CO]. pose proof (sent_heads _ _ _ _ _ L) as WH. cbn [map fst] in WH. apply Forall_cons_iff in WH. rewrite EV2. now apply ClientProofs.Forall_firstn.
    + split; [|now left]. apply (commit_named bl es c1 c'); [|rewrite K1; exact NF|exact CO]. destruct LO as (LF & _).
      pose proof (marked_tells _ _ _ _ _ MP NF (from_tells _ _ _ (files_tell fs LF NA)) (log_named fs f0 p0 LF NA)) as TL. rewrite EV2, firstn_map. now apply Forall_map.
Qed.
Lemma place_step bl ev st fs c f0 p0 cs ck w' ps q pos fl id nm f p xs its pk w2 n evs s c' : s_server_id st < 4294967296 -> log_ok fs -> Forall (fun f => named (bf_name f)) fs -> stands_at fs c f0 p0 ->
  replicate bl ev st (World c cs []) = (Ok ck, w') -> sent (w_log w') = ps ++ [(q, 0)] -> srv_dump q = Some (pos, fl, id, nm) -> reads_from fs nm pos f p ->
  opens_with f p xs -> marked f p false (log_from f p (locate_files fs)) xs -> log_sent (Writer ck []) (map fst xs) its pk w2 ->
  flowing (w_in w') -> in_bytes (w_in w') = firstn n (flat_map wire pk) ->
  takes bl (stream_new (w_in w') ck) (map inl evs) s -> commit_all bl (w_client w') evs = Ok c' ->
  exists f1 p1, stands_at fs c' f1 p1 /\ filter not_map (log_from f0 p0 (locate_files fs)) =
    filter not_map (firstn (logged (firstn (length evs) xs)) (log_from f p (locate_files fs))) ++ filter not_map (log_from f1 p1 (locate_files fs)).
Proof.
  intros ID LO NA A E SE D S AN MK L F B T CO.
  destruct (place_exact bl ev st fs c f0 p0 cs ck w' ps q pos fl id nm f p xs its pk w2 n evs s c' ID LO NA A E SE D S AN MK L F B T CO) as (-> & -> & f1 & p1 & pre & maps & A1 & X1 & X2 & X3).
  exists f1, p1. split; [exact A1|]. set (k := logged _) in *. rewrite X3, filter_app. assert (Z : filter not_map maps = []).
  { clear - X2. induction X2 as [|m maps Hm H IH]; [reflexivity|]. cbn [filter]. unfold not_map at 1. now rewrite Hm. }
  rewrite Z. cbn [app]. now rewrite <- filter_app, firstn_skipn.
Qed.

(* Missing from the full statement: events of 16 MB and more, as in C66. Row events whose table map lies before the saved
   position may be in the log; see C84_stuck for them. *)
(* For every log, any number of connections and failed attempts, and whatever part of the bytes arrives each time: apart
   from table maps the log events taken, in order, and those from the saved coordinates on are exactly those from the
   original coordinates on *)
Theorem C84_exactly_once_partial : forall bl ev st fs c ds c2 f p, s_server_id st < 4294967296 -> log_ok fs -> Forall (fun f => named (bf_name f)) fs ->
  stands_at fs c f p -> pcontacts bl ev st fs c ds c2 ->
  exists f2 p2, stands_at fs c2 f2 p2 /\
    filter not_map (log_from f p (locate_files fs)) = filter not_map (concat ds) ++ filter not_map (log_from f2 p2 (locate_files fs)).
Proof.
  intros bl ev st fs c ds c2 f p ID LO NA A C. revert f p A.
  induction C as [c|c cs e w' ds c2 E C IH|c cs ck w' ps q pos fl id nm f p xs its pk w2 n evs s c' ds c2 E SE D S AN MK L F B T CO C IH]; intros f0 p0 A.
  - exists f0, p0. split; [exact A|reflexivity].
  - apply IH. assert (O : c_opts (w_client w') = c_opts c).
    { apply (C62_not_asked_again bl ev st (World c cs []) (Err e) w'); [|exact E]. cbn [w_client]. destruct A as (_ & _ & [_ NE] & [[A _]|[A _]]); [right; now rewrite A|now left]. }
    unfold stands_at in *. now rewrite O.
  - destruct (place_step bl ev st fs c f0 p0 cs ck w' ps q pos fl id nm f p xs its pk w2 n evs s c' ID LO NA A E SE D S AN MK L F B T CO) as (f1 & p1 & A1 & X).
    destruct (IH f1 p1 A1) as (f2 & p2 & A2 & Y). exists f2, p2. split; [exact A2|]. cbn [concat]. rewrite X, Y, filter_app. now rewrite app_assoc.
Qed.
Print Assumptions C84_exactly_once_partial.
(* two connections from the start of the log: the first breaks after a table map, inside the row event *)
Definition fs84 : list blfile := [BlFile (tx "bin.1") [Entry 31 (hx 16 31 0) (EvXid 8); Entry 107 (hx 19 107 0) (EvTableMap (table_map_of ex_table));
  Entry 60 (hx 32 60 0) (EvDelete (rows_event_of ex_table ex_rows)); Entry 31 (hx 16 31 0) (EvXid 9)]].
Definition rot84 (p : N) : hev := (hx 4 36 0, EvRotate (Rotate (tx "bin.1") p)).
Definition x84_8 : hev := (hx 16 31 35, EvXid 8).
Definition x84_t : hev := (hx 19 107 142, EvTableMap (table_map_of ex_table)).
Definition x84_r : hev := (hx 32 60 202, EvDelete (rows_event_of ex_table ex_rows)).
Definition x84_9 : hev := (hx 16 31 233, EvXid 9).
Definition sent84_1 : list (hev * bool) := [(rot84 4, false); (ev_fd, false); (x84_8, true); (x84_t, true); (x84_r, true); (x84_9, true)].
Definition sent84_2 : list (hev * bool) := [(rot84 35, false); (ev_fd, false); (x84_t, true); (x84_r, true); (x84_9, true)].
Definition pk_rot84 (p : N) : list packet := [pk66 (hx 4 36 0) (rotate_bytes (Rotate (tx "bin.1") p) ++ crc4) 0].
Definition pk_8 : list packet := [pk66 (hx 16 31 35) (le_enc 8 8 ++ crc4) 2].
Definition pk_rest : list packet := [pk66 (hx 19 107 142) (table_bytes ex_table ++ crc4) 3; pk66 (hx 32 60 202) (rows_bytes ex_table ex_rows ++ crc4) 4; pk66 (hx 16 31 233) (le_enc 8 9 ++ crc4) 5].
Lemma w_rot84 p es ps w2 ts : p < 4294967296 -> log_written (Writer CkCrc32 ts) es ps w2 -> log_written (Writer CkCrc32 ts) (rot84 p :: es) (pk_rot84 p ++ ps) w2.
Proof.
  intros P H. unfold rot84, pk_rot84, pk66. cbn [app]. apply (lw_event _ _ _ _ (Writer CkCrc32 ts)); [head66| |split; [|reflexivity]|exact H].
  - apply wr_service; [|reflexivity]. apply sv_rotate. split; [unfold u64; cbn [ro_pos]; lia|repeat constructor].
  - cbn [fst]. reflexivity.
Qed.
Lemma w_8 es ps w2 ts : log_written (Writer CkCrc32 ts) es ps w2 -> log_written (Writer CkCrc32 ts) (x84_8 :: es) (pk_8 ++ ps) w2.
Proof.
  intros H. unfold pk_8, x84_8, pk66. cbn [app]. apply (lw_event _ _ _ _ (Writer CkCrc32 ts)); [head66| |split; vm_compute; reflexivity|exact H].
  apply wr_service; [apply sv_xid; reflexivity|reflexivity].
Qed.
Lemma w_rest : log_written (Writer CkCrc32 []) [x84_t; x84_r; x84_9] pk_rest (Writer CkCrc32 [ex_table]).
Proof.
  unfold pk_rest, x84_t, x84_r, x84_9, pk66.
  apply (lw_event _ _ _ _ (Writer CkCrc32 [ex_table])); [head66| |split; vm_compute; reflexivity|].
  { apply (wr_table (Writer CkCrc32 [])); [reflexivity|exact ex_table_ok|reflexivity]. }
  apply (lw_event _ _ _ _ (Writer CkCrc32 [ex_table])); [head66| |split; vm_compute; reflexivity|].
  { apply (wr_rows _ _ ex_table); [apply rw_delete2; [exact ex_rows_ok|reflexivity]|now left|reflexivity|reflexivity]. }
  apply (lw_event _ _ _ _ (Writer CkCrc32 [ex_table])); [head66| |split; vm_compute; reflexivity|constructor].
  apply wr_service; [apply sv_xid; reflexivity|reflexivity].
Qed.
Definition pk84_1 : list packet := pk_rot84 4 ++ pk_fd ++ pk_8 ++ pk_rest.
Definition pk84_2 : list packet := pk_rot84 35 ++ pk_fd ++ pk_rest.
Definition cut84 : nat := length (flat_map wire (firstn 4 pk84_1)) + 30.
Definition in84 (ps : list packet) (n : nat) : list portion := [Got (flat_map wire (number ([mysql_hello; okp] ++ good_answers)) ++ firstn n (flat_map wire ps))].
Definition link84 (c : client) (ps : list packet) (n : nat) : world := snd (replicate Release env0 st0 (World c (in84 ps n) [])).
Definition c84_0 : client := client_new from_start.
Definition w84_1 : world := Eval vm_compute in link84 c84_0 pk84_1 cut84.
Definition c84_1 : client := Eval vm_compute in client74 (commit_all Release (w_client w84_1) (firstn 4 (map fst sent84_1))).
Definition w84_2 : world := Eval vm_compute in link84 c84_1 pk84_2 1000.
Definition c84_2 : client := Eval vm_compute in client74 (commit_all Release (w_client w84_2) (map fst sent84_2)).
Lemma fs84_ok : log_ok fs84.
Proof.
  split; [|split].
  - cbn [files_ok fs84]. split; [|exact I]. repeat constructor; vm_compute; reflexivity.
  - repeat constructor. intros [].
  - repeat constructor; vm_compute; reflexivity.
Qed.
Example C84_example : pcontacts Release env0 st0 fs84 c84_0 [firstn 2 (locate_files fs84); skipn 1 (locate_files fs84)] c84_2 /\
  log_ok fs84 /\ Forall (fun f => named (bf_name f)) fs84 /\ stands_at fs84 c84_0 (tx "bin.1") 4 /\
  (o_file (c_opts c84_1), o_pos (c_opts c84_1)) = (tx "bin.1", 35) /\ (o_file (c_opts c84_2), o_pos (c_opts c84_2)) = (tx "bin.1", 233).
Proof.
  assert (N1 : named (tx "bin.1")) by (split; [repeat constructor|discriminate]).
  split; [|split; [exact fs84_ok|split; [repeat constructor; apply N1|split; [|split; reflexivity]]]].
  - assert (L1 : log_written (Writer CkCrc32 []) (map fst sent84_1) pk84_1 (Writer CkCrc32 [ex_table])) by (cbn [map fst sent84_1]; unfold pk84_1; apply w_rot84; [reflexivity|]; apply w_fd, w_8, w_rest).
    assert (L2 : log_written (Writer CkCrc32 []) (map fst sent84_2) pk84_2 (Writer CkCrc32 [ex_table])) by (cbn [map fst sent84_2]; unfold pk84_2; apply w_rot84; [reflexivity|]; apply w_fd, w_rest).
    destruct (C66_events_partial Release CkCrc32 _ _ _ (w_in w84_1) cut84 L1) as (s1 & T1 & _); [repeat constructor; discriminate|vm_compute; reflexivity|].
    replace (arrived cut84 pk84_1) with 4%nat in T1 by (vm_compute; reflexivity).
    destruct (C66_events_partial Release CkCrc32 _ _ _ (w_in w84_2) 1000 L2) as (s2 & T2 & _); [repeat constructor; discriminate|vm_compute; reflexivity|].
    replace (arrived 1000 pk84_2) with 5%nat in T2 by (vm_compute; reflexivity).
    change (firstn 2 (locate_files fs84)) with (firstn (logged (firstn (length (firstn 4 (map fst sent84_1))) sent84_1)) (log_from (tx "bin.1") 4 (locate_files fs84))).
    change (skipn 1 (locate_files fs84)) with (firstn (logged (firstn (length (firstn 5 (map fst sent84_2))) sent84_2)) (log_from (tx "bin.1") 35 (locate_files fs84))).
    eapply (pc_stream Release env0 st0 fs84 c84_0 (in84 pk84_1 cut84) CkCrc32 w84_1 (removelast (sent (w_log w84_1))) (fst (last (sent (w_log w84_1)) ([], 9))) 4 0 42 [] _ _ _ _ pk84_1 _ cut84).
    + vm_compute. reflexivity.
    + vm_compute. reflexivity.
    + vm_compute. reflexivity.
    + left. repeat split. eexists _, _. split; reflexivity.
    + eexists _, _. reflexivity.
    + change (log_from (tx "bin.1") 4 (locate_files fs84)) with (locate_files fs84). apply mk_rotate. apply mk_zero; [reflexivity|reflexivity|].
      cbn [locate_files locate fs84 bf_name bf_entries app]. do 4 (refine (mk_log _ _ _ (Located (tx "bin.1") _ _ _ _) _ _ _); cbn [lo_event lo_file lo_end is_table_map]). constructor.
    + exact (sent_written _ _ _ _ L1).
    + repeat constructor; discriminate.
    + vm_compute. reflexivity.
    + exact T1.
    + instantiate (1 := c84_1). vm_compute. reflexivity.
    + eapply (pc_stream Release env0 st0 fs84 c84_1 (in84 pk84_2 1000) CkCrc32 w84_2 (removelast (sent (w_log w84_2))) (fst (last (sent (w_log w84_2)) ([], 9))) 35 0 42 (utf8_encode (tx "bin.1")) _ _ _ _ pk84_2 _ 1000).
      * vm_compute. reflexivity.
      * vm_compute. reflexivity.
      * vm_compute. reflexivity.
      * right. split; [discriminate|]. split; [vm_compute; reflexivity|reflexivity].
      * eexists _, _. reflexivity.
      * change (log_from (tx "bin.1") 35 (locate_files fs84)) with (skipn 1 (locate_files fs84)). apply mk_rotate. apply mk_zero; [reflexivity|reflexivity|].
        cbn [locate_files locate fs84 bf_name bf_entries app skipn]. do 3 (refine (mk_log _ _ _ (Located (tx "bin.1") _ _ _ _) _ _ _); cbn [lo_event lo_file lo_end is_table_map]). constructor.
      * exact (sent_written _ _ _ _ L2).
      * repeat constructor; discriminate.
      * vm_compute. reflexivity.
      * exact T2.
      * instantiate (1 := c84_2). vm_compute. reflexivity.
      * constructor.
  - split; [discriminate|]. split; [reflexivity|]. split; [exact N1|]. right. split; [discriminate|]. repeat split. eexists _, _. split; reflexivity.
Qed.

(* ---- C50 ---- *)
(* exactly, after every history of commits: the request names the last committed file and position (nothing and 4 if no
   committed event announced any), beside exactly the saved set *)
Theorem C50_reconnect_exact : forall bl ev st s h c w ck w',
  commit_all bl (client_new (from_mysql_gtid s)) h = Ok c -> Forall (fun x : hev => h_next (fst x) < 4294967296) h ->
  w_log w = [] -> w_client w = c -> request_fits ev st (c_opts c) ->
  replicate bl ev st w = (Ok ck, w') -> fst (connect bl ev st w) = Ok MySQL ->
  exists ps p r s', sent (w_log w') = ps ++ [(p, 0)] /\ srv_dump_gtid p = Some r /\ o_set (c_opts c) = Some s' /\
    (forall d n, srv_has (sg_set r) d n <-> set_has s' d n) /\
    (forall a x b f, h = a ++ x :: b -> announced_file x = Some f -> Forall (fun y => announced_file y = None) b -> sg_name r = utf8_encode f) /\
    (Forall (fun y => announced_file y = None) h -> sg_name r = []) /\
    (forall a x b q, h = a ++ x :: b -> announced_pos x = Some q -> Forall (fun y => announced_pos y = None) b -> sg_pos r = q mod 4294967296) /\
    (Forall (fun y => announced_pos y = None) h -> sg_pos r = 4).
Proof.
  intros bl ev st s h c w ck w' HC HN L W F E E1. rewrite <- W in F.
  assert (G : o_strategy (c_opts c) = FromGtid) by (apply commit_frame in HC; destruct HC as [HC _]; exact HC).
  assert (SS : exists s', o_set (c_opts c) = Some s') by (apply (commit_keeps_set bl h (client_new (from_mysql_gtid s)) c s HC eq_refl)).
  destruct SS as [s' SS]. destruct (C61_plan bl ev st w (Ok ck) w' L F E) as (a & b & LL & _ & C).
  assert (O : c_opts (w_client w') = c_opts c).
  { rewrite replicate_eq in E. unfold abind in E. pose proof (connect_keeps bl ev st w) as K. destruct (connect bl ev st w) as [[pr|x| |] w1]; try discriminate E1.
    cbn [snd] in K. clear C. rewrite (set_up_options bl ev st pr w1 (Ok ck) w'); rewrite ?K, ?W; auto. unfold asks_end. now rewrite G. }
  destruct (connect bl ev st w) as [r1 w1]. cbn [fst] in E1. subst r1. destruct C as (_ & F2 & N2). specialize (N2 ck eq_refl).
  rewrite W in F2, N2. rewrite O in F2, N2. unfold plan in F2, N2. rewrite G, SS in F2, N2. cbn [app] in F2, N2.
  destruct (follows_last _ [asks_heartbeat (s_heartbeat st); asks (tx "SET @master_binlog_checksum= @@global.binlog_checksum"); asks (tx "SELECT @master_binlog_checksum")] _ F2 N2)
    as (qs & p & S & (r & A1 & A2 & A3 & A4 & A5)).
  exists (sent a ++ qs), p, r, s'. rewrite LL, sent_app, S, app_assoc. split; [reflexivity|]. split; [exact A1|]. split; [exact SS|]. split; [exact A5|].
  destruct (C15_nothing_announced _ _ _ _ HC) as [Z1 Z2]. split; [|split; [|split]].
  - intros a0 x b0 f -> X1 X2. rewrite A3. f_equal. eapply C15_file; eauto.
  - intros X. rewrite A3, (Z2 X). reflexivity.
  - intros a0 x b0 q -> X1 X2. rewrite A4. eapply C15_position; eauto. apply Forall_app in HN. destruct HN as [_ HN]. now apply Forall_cons_iff in HN.
  - intros X. rewrite A4, (Z1 X). reflexivity.
Qed.
Print Assumptions C50_reconnect_exact.
Example C50_reconnect_example : exists c, commit_all Release (client_new (from_mysql_gtid s49)) history50 = Ok c /\
  Forall (fun x : hev => h_next (fst x) < 4294967296) history50 /\ request_fits env0 st0 (c_opts c) /\
  let w := World c (server ([mysql_hello; okp] ++ good_answers)) [] in
  fst (connect Release env0 st0 w) = Ok MySQL /\ exists w', replicate Release env0 st0 w = (Ok CkCrc32, w').
Proof.
  assert (X : exists c, commit_all Release (client_new (from_mysql_gtid s49)) history50 = Ok c /\ c_opts c = Options (tx "binlog.000009") 733 (Some s49) None FromGtid).
  { eexists. split; [vm_compute; reflexivity|]. vm_compute. reflexivity. }
  destruct X as (c & E & O). exists c. split; [exact E|]. split; [repeat constructor; vm_compute; reflexivity|]. split.
  - rewrite O. split; [reflexivity|]. split; [vm_compute; reflexivity|]. intros s _ X. injection X as <-. destruct C49_example as (A1 & A2 & A3 & A4). split; [exact A1|]. split; [exact A2|]. split; [exact A3|]. split; [apply Permutation.Permutation_refl|]. split; [exact A4|]. vm_compute. reflexivity.
  - vm_compute in E. injection E as <-. split; [vm_compute; reflexivity|]. eexists. vm_compute. reflexivity.
Qed.
