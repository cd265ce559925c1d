(* Claimed properties of responses that make replicate() panic, whatever else the server sends: C72. *)
From Coq Require Import Strings.String.
From Verif Require Import Base.Tac Base.Bytes Base.Text Base.Res Base.Str Base.Parse Model.Events Model.Client Model.Commands Model.Responses Model.Channel Model.Session
  Spec.CommandSpec Spec.ChannelSpec Spec.SessionSpec Spec.PanicSpec Proofs.ChannelProofs Proofs.ReplicateProofs Proofs.PlanProofs Proofs.LoginProofs Proofs.EmptyProofs
  Props.CommandProps Props.ChannelProps Props.SessionProps Props.SslProps.
Local Open Scope N_scope.

Lemma uadd_either m bl x y : (exists z, uadd m bl x y = Ok z) \/ uadd m bl x y = Panic.
Proof. unfold uadd. destruct (x + y <? m); [eauto|]. destruct bl; eauto. Qed.

(* an empty packet, at any point, in any run *)
Theorem C72_empty_packet : forall bl ev st w r w' s, w_log w = [] -> replicate bl ev st w = (r, w') -> In (Received [] s) (w_log w') -> r = Panic.
Proof.
  intros bl ev st w r w' s L E H. destruct (emp_replicate bl ev st w r w' E) as (l & L' & K). rewrite L in L'. cbn [app] in L'. apply K. exists s. now rewrite <- L'.
Qed.
Print Assumptions C72_empty_packet.
Example C72_empty_example : let '(r, w) := replicate Release env0 st0 (start o_here [mysql_hello; okp; okp; []]) in r = Panic /\ In (Received [] 0) (w_log w).
Proof. vm_compute. split; [reflexivity|tauto]. Qed.

(* a greeting that offers SSL to a client that wants it, whatever follows *)
Theorem C72_ssl_exact : forall bl ev st h p s ps t rest w, s_ssl st <> Disabled -> hello_for h p -> offers h = true ->
  pending (w_in w) ((hello_bytes h, s) :: ps) t rest -> fst (replicate bl ev st w) = Panic.
Proof.
  intros bl ev st h p s ps t rest w D (H & HP & PA & PN) O P. rewrite replicate_eq. unfold abind at 1.
  destruct (a_read_ok w _ _ _ _ P) as (cs & R & _). unfold connect. rewrite (abind_ok _ _ _ _ _ R). cbn [fst snd].
  unfold abind at 1, alift. rewrite check_pass by (apply hello_not_error; assumption). destruct (C60_handshake h [] H) as (hs & E1 & E2 & _ & E3 & E4 & _). rewrite app_nil_r in E1.
  unfold abind at 1. rewrite E1. unfold abind at 1. rewrite E4, PA, PN.
  assert (GP : get_auth_plugin (plugin_text p) = Ok p) by (destruct p; reflexivity). rewrite GP.
  unfold abind at 1. destruct (uadd_either 256 bl s 1) as [[q U]|U]; rewrite U; [|reflexivity].
  unfold abind at 1, authenticate. unfold abind at 1.
  assert (C0 : (ssl_code (s_ssl st) =? 0) = false) by (destruct (s_ssl st); [contradiction|reflexivity..]). rewrite C0.
  unfold cap_ssl. rewrite land_bit, (C60_capability_bits h [] hs 11 H) by (rewrite ?app_nil_r; auto; reflexivity).
  unfold offers in O. rewrite O. cbn [negb]. unfold abind at 1. rewrite a_write_ok by reflexivity. unfold abind, alift.
  destruct (uadd_either 256 bl q 1) as [[q2 U2]|U2]; rewrite U2; reflexivity.
Qed.
Print Assumptions C72_ssl_exact.
Definition ssl_hello : hello := Hello 10 (tx "8.0.30") 7 (tx "abcdefgh") (557568 + 2048) 45 2 21 (repeat 0 6) 0 (tx "ijklmnopqrst") native_name.
Example C72_ssl_example : offers ssl_hello = true /\ he_plugin ssl_hello = plugin_text NativePassword /\ plugin_auth ssl_hello = true.
Proof. vm_compute. repeat split. Qed.

(* a greeting numbered 255, in a debug build *)
Theorem C72_last_number_exact : forall ev st h p ps t rest w, hello_for h p -> pending (w_in w) ((hello_bytes h, 255) :: ps) t rest ->
  fst (replicate Debug ev st w) = Panic.
Proof.
  intros ev st h p ps t rest w (H & HP & PA & PN) P. rewrite replicate_eq. unfold abind at 1.
  destruct (a_read_ok w _ _ _ _ P) as (cs & R & _). unfold connect. rewrite (abind_ok _ _ _ _ _ R). cbn [fst snd].
  unfold abind at 1, alift. rewrite check_pass by (apply hello_not_error; assumption). destruct (C60_handshake h [] H) as (hs & E1 & E2 & _ & E3 & E4 & _). rewrite app_nil_r in E1.
  unfold abind at 1. rewrite E1. unfold abind at 1. rewrite E4, PA, PN.
  assert (GP : get_auth_plugin (plugin_text p) = Ok p) by (destruct p; reflexivity). rewrite GP. reflexivity.
Qed.
Print Assumptions C72_last_number_exact.

(* everything accepted, but the checksum variable comes in a result set without rows *)
Theorem C72_no_row_exact : forall bl ev st h p s ok a1 a2 sums rs ps w t rest,
  hashes ev -> names_fit st -> s_ssl st = Disabled -> hello_for h p -> s < 255 -> starts_byte 0 (fst ok) -> s_heartbeat st < 2 ^ 100 ->
  count_at (c_opts (w_client w)) = 2%nat -> not_byte 0xFF (fst a1) -> not_byte 0xFF (fst a2) ->
  result_ok rs -> map fst sums = result_bodies rs -> rs_rows rs = [] ->
  pending (w_in w) ((hello_bytes h, s) :: ok :: a1 :: a2 :: sums ++ ps) t rest ->
  fst (replicate bl ev st w) = Panic.
Proof.
  intros bl ev st h p s ok a1 a2 sums rs ps w t rest HH NF SSL HF S OK HB CA N1 N2 RO RB RR P. destruct (login_exists ev st h p HH) as (login & LG).
  destruct (does_connect_ok bl ev st h p s login ok w _ t rest HH NF SSL HF S OK LG P) as (c1 & E1 & P1).
  rewrite replicate_eq, (abind_ok _ _ _ _ _ E1). unfold set_up. unfold abind at 1, a_client. unfold abind at 1, a_set_client. cbn [w_client w_in w_log].
  set (w0 := World (client_reset (w_client w)) c1 _).
  destruct (adjust_starting_position w0) as [r w'] eqn:E. destruct (adjust_none w0 r w') as [-> ->]; [|exact E|].
  { unfold w0, asks_end. cbn [w_client client_reset c_opts]. unfold count_at in CA. destruct (o_strategy (c_opts (w_client w))), (o_file (c_opts (w_client w))); try reflexivity. discriminate CA. }
  rewrite (abind_ok _ _ _ _ _ E).
  destruct (does_statement w0 (heartbeat_sql (s_heartbeat st)) (tx "Setting master heartbeat error.") a1 (a2 :: sums ++ ps) t rest) as (c2 & E2 & P2); [|exact N1|exact P1|].
  { pose proof (heartbeat_sql_length _ HB). lia. }
  unfold set_master_heartbeat. rewrite (abind_ok _ _ _ _ _ E2). set (w2 := World _ c2 _) in *.
  destruct (does_statement w2 (tx "SET @master_binlog_checksum= @@global.binlog_checksum") (tx "Setting master_binlog_checksum error.") a2 (sums ++ ps) t rest ltac:(reflexivity) N2 P2) as (c3 & E3 & P3).
  set (w3 := World _ c3 _) in *.
  destruct (does_query_rows w3 (tx "SELECT @master_binlog_checksum") rs [] sums ps t rest ltac:(reflexivity) RO RR RB P3) as (c4 & E4 & P4).
  assert (CK : exists w5, set_master_binlog_checksum w2 = (Panic, w5)).
  { unfold set_master_binlog_checksum. rewrite (abind_ok _ _ _ _ _ E3). fold w3. revert E4. unfold abind.
    destruct (a_write (query_command (tx "SELECT @master_binlog_checksum")) 0 w3) as [[u|?| |] w5]; intros E4; try discriminate E4. rewrite E4. unfold alift. eauto. }
  destruct CK as [w5 CK]. unfold abind at 1. rewrite CK. reflexivity.
Qed.
Print Assumptions C72_no_row_exact.
(* the master status in a row of one cell; the file name is kept although the call panics *)
Theorem C72_one_cell_exact : forall bl ev st h p s ok status rs file ps w t rest,
  hashes ev -> names_fit st -> s_ssl st = Disabled -> hello_for h p -> s < 255 -> starts_byte 0 (fst ok) ->
  count_at (c_opts (w_client w)) = 0%nat -> result_ok rs -> map fst status = result_bodies rs -> rs_rows rs = [[Some file]] ->
  pending (w_in w) ((hello_bytes h, s) :: ok :: status ++ ps) t rest ->
  exists w', replicate bl ev st w = (Panic, w') /\ o_file (c_opts (w_client w')) = file.
Proof.
  intros bl ev st h p s ok status rs file ps w t rest HH NF SSL HF S OK CA RO RB RR P. destruct (login_exists ev st h p HH) as (login & LG).
  destruct (does_connect_ok bl ev st h p s login ok w _ t rest HH NF SSL HF S OK LG P) as (c1 & E1 & P1).
  rewrite replicate_eq, (abind_ok _ _ _ _ _ E1). unfold set_up. unfold abind at 1, a_client. unfold abind at 1, a_set_client. cbn [w_client w_in w_log].
  set (w0 := World (client_reset (w_client w)) c1 _).
  assert (SE : o_strategy (c_opts (w_client w)) = FromEnd /\ o_file (c_opts (w_client w)) = []).
  { unfold count_at in CA. destruct (o_strategy (c_opts (w_client w))), (o_file (c_opts (w_client w))); try discriminate CA. auto. }
  destruct SE as [SE FI].
  destruct (does_query_rows w0 (tx "show master status") rs [[file]] status ps t rest ltac:(reflexivity) RO RR RB P1) as (c2 & E2 & P2).
  assert (X : forall (f : list (list text) -> act unit), abind (a_write (query_command (tx "show master status")) 0) (fun _ => abind read_result_set f) w0 =
    f [[file]] (World (w_client w0) c2 (w_log w0 ++ Sent (query_command (tx "show master status")) 0 :: map got status))).
  { intros f. revert E2. unfold abind. destruct (a_write (query_command (tx "show master status")) 0 w0) as [[u|?| |] w1]; intros E2; try discriminate E2. now rewrite E2. }
  assert (AD : exists w', adjust_starting_position w0 = (Panic, w') /\ o_file (c_opts (w_client w')) = file).
  { unfold adjust_starting_position. unfold abind at 1, a_client. change (c_opts (w_client w0)) with (c_opts (w_client w)). rewrite SE, FI. cbn [strategy_eqb negb].
    rewrite X. eexists. split; [reflexivity|]. reflexivity. }
  destruct AD as (w' & AD & F). unfold abind. rewrite AD. exists w'. auto.
Qed.
Print Assumptions C72_one_cell_exact.
(* the runs of C72_panics_refuted are instances; the conditions on the result sets *)
Example C72_result_example : result_ok (rset []) /\ result_ok (rset [[tx "binlog.000007"]]) /\ count_at o_here = 2%nat /\ count_at from_end = 0%nat.
Proof.
  split; [|split; [|split; reflexivity]]; (split; [eexists; eexists; split; [reflexivity|]; rewrite b2n_n2b; lia|]; split; [apply Forall_cons; [|apply Forall_nil]; eexists; eexists; split; [vm_compute; reflexivity|discriminate]|]).
  - apply Forall_nil.
  - apply Forall_cons; [|apply Forall_nil]. split; [discriminate|]. apply Forall_cons; [|apply Forall_nil]. repeat constructor.
Qed.
