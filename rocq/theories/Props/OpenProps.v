(* Claimed properties of building a client and opening its connection (binlog_client.rs:22-38, packet_channel.rs:12-19, replica_options.rs): C96. *)
From Coq Require Import Strings.String.
From Verif Require Import Base.Tac Base.Bytes Base.Text Base.Res Base.Str Model.Events Model.Client Model.Commands Model.Responses Model.Channel Model.Session Model.Open
  Spec.CommandSpec Spec.ChannelSpec Spec.SessionSpec Spec.GtidTextSpec Proofs.GtidTextProofs Proofs.ChannelProofs Proofs.LoginProofs Props.SessionProps.
Local Open Scope N_scope.

(* What an address stands for (std's ToSocketAddrs for str): after the last colon a port, before it the host, which may have colons itself *)
Definition stands_for (addr : text) (host : text) (port : N) : Prop :=
  exists digits, addr = host ++ [58] ++ digits /\ ~ In 58 digits /\ GtidTextSpec.number (2 ^ 16) digits port.
(* the longest heartbeat interval: 2^64 - 10 seconds, in nanoseconds *)
Definition longest : N := (2 ^ 64 - 10) * 1000000000.
(* attempts one after the other: the answer of the network to each of them and what arrives on its connection *)
Inductive attempts (bl : build) (ev : env) (p : endpoint) (st : settings) : client -> list (text -> dialled) -> client -> Prop :=
| at_nil c : attempts bl ev p st c [] c
| at_one c dial cs r w ds c' : replicate_at bl ev dial p st (World c cs []) = (r, w) -> attempts bl ev p st (w_client w) ds c' -> attempts bl ev p st c (dial :: ds) c'.

Lemma last_colon (a b d e : text) : a ++ [58] ++ d = b ++ [58] ++ e -> ~ In 58 d -> ~ In 58 e -> a = b /\ d = e.
Proof.
  revert b. induction a as [|x a IH]; intros [|y b] E D F; cbn [app] in E.
  - injection E as E. auto.
  - injection E as <- E. exfalso. apply D. rewrite E. apply in_or_app. right. left. reflexivity.
  - injection E as -> E. exfalso. apply F. rewrite <- E. apply in_or_app. right. left. reflexivity.
  - injection E as -> E. destruct (IH b E D F) as [-> ->]. auto.
Qed.
Lemma dec_no_colon n : ~ In 58 (dec_text n).
Proof. intros H. apply dec_text_In in H. lia. Qed.
Lemma timeout_short hb : hb < longest -> read_timeout hb = Ok (hb + 10 * 1000000000).
Proof. unfold longest, read_timeout, nanos, u64max1. intros H. destruct (N.ltb_spec ((hb + 10 * 1000000000) / 1000000000) 18446744073709551616) as [_|L]; [reflexivity|]. exfalso. change (2 ^ 64) with 18446744073709551616 in H. lia. Qed.
Lemma timeout_long hb : longest <= hb -> read_timeout hb = Panic.
Proof. unfold longest, read_timeout, nanos, u64max1. intros H. destruct (N.ltb_spec ((hb + 10 * 1000000000) / 1000000000) 18446744073709551616) as [L|_]; [|reflexivity]. exfalso. change (2 ^ 64) with 18446744073709551616 in H. lia. Qed.

(* ---- C96 ---- *)
(* the address stands for the configured host and port and for nothing else, whatever the host looks like *)
Theorem C96_address : forall p h n, p_port p < 2 ^ 16 -> (stands_for (address p) h n <-> h = p_host p /\ n = p_port p).
Proof.
  intros p h n B. unfold stands_for, address. change (tx ":") with [58]. split.
  - intros (d & E & D & NB). destruct (last_colon _ _ _ _ E (dec_no_colon _) D) as [<- <-]. split; [reflexivity|].
    apply number_parse in NB. rewrite (parse_dec_text _ _ B) in NB. injection NB as <-. reflexivity.
  - intros [-> ->]. exists (dec_text (p_port p)). split; [reflexivity|]. split; [apply dec_no_colon|]. apply number_parse. apply parse_dec_text. exact B.
Qed.
Print Assumptions C96_address.
(* nothing but what the network answers at an address of that host and port matters *)
Theorem C96_only_there : forall bl ev d1 d2 p st w, p_port p < 2 ^ 16 -> (forall a, stands_for a (p_host p) (p_port p) -> d1 a = d2 a) ->
  replicate_at bl ev d1 p st w = replicate_at bl ev d2 p st w.
Proof.
  intros bl ev d1 d2 p st w B H. unfold replicate_at, channel_new. rewrite (H (address p)); [reflexivity|]. apply (C96_address p); auto.
Qed.
Print Assumptions C96_only_there.
(* no connection: the error of the operating system, nothing read, nothing written, the client as before *)
Theorem C96_unreachable : forall bl ev dial p st w k, dial (address p) = NoRoute k -> replicate_at bl ev dial p st w = (Err (EIo k), w).
Proof. intros bl ev dial p st w k D. unfold replicate_at, abind, alift, channel_new. rewrite D. reflexivity. Qed.
Print Assumptions C96_unreachable.
(* a connection: with a heartbeat interval that is not too long everything goes on as if it had always been there; exactly the
   too long ones stop the program, after connecting and before a byte is read or written *)
Theorem C96_connected : forall bl ev dial p st w, dial (address p) = Line None ->
  (s_heartbeat st < longest -> channel_new dial p (s_heartbeat st) = Ok (s_heartbeat st + 10 * 1000000000) /\ replicate_at bl ev dial p st w = replicate bl ev st w) /\
  (longest <= s_heartbeat st -> replicate_at bl ev dial p st w = (Panic, w)).
Proof.
  intros bl ev dial p st w D. unfold replicate_at, abind, alift, channel_new. rewrite D. split; intros H.
  - rewrite (timeout_short _ H). cbn [rbind]. auto.
  - rewrite (timeout_long _ H). reflexivity.
Qed.
Print Assumptions C96_connected.
(* a connection whose time-out cannot be set is given up at once *)
Theorem C96_no_timeout : forall bl ev dial p st w k, s_heartbeat st < longest -> dial (address p) = Line (Some k) -> replicate_at bl ev dial p st w = (Err (EIo k), w).
Proof. intros bl ev dial p st w k H D. unfold replicate_at, abind, alift, channel_new. rewrite D, (timeout_short _ H). reflexivity. Qed.
Print Assumptions C96_no_timeout.
(* any number of attempts while the server cannot be reached: the next one, when it can be, starts from the client as it was *)
Theorem C96_attempts : forall bl ev p st c ds c', Forall (fun dial => exists k, dial (address p) = NoRoute k) ds -> attempts bl ev p st c ds c' -> c' = c.
Proof.
  intros bl ev p st c ds c' F A. induction A as [c|c dial cs r w ds c' E A IH]; [reflexivity|]. inversion F as [|? ? (k & D) F']; subst.
  rewrite (C96_unreachable bl ev dial p st _ k D) in E. injection E as <- <-. exact (IH F').
Qed.
Print Assumptions C96_attempts.
(* no data from a server is involved in a panic before the connection, and building a client panics exactly when SSL is asked for *)
Theorem C96_new : forall st o, (s_ssl st = Disabled -> new_client st o = Ok (Client o false None None)) /\ (s_ssl st <> Disabled -> new_client st o = Panic).
Proof. intros st o. unfold new_client. split; [intros ->; reflexivity|]. destruct (s_ssl st); auto. intros H. now destruct H. Qed.
Print Assumptions C96_new.
(* the documented defaults: localhost:3306, no SSL, server id 65535, blocking, heartbeats every 30 s and 40 s of patience, from the end *)
Theorem C96_defaults :
  stands_for (address default_endpoint) (tx "localhost") 3306 /\ new_client default_settings default_binlog = Ok (Client from_end false None None) /\
  s_server_id default_settings = 65535 /\ s_blocking default_settings = true /\ heartbeat_sql (s_heartbeat default_settings) = tx "set @master_heartbeat_period=30000000000" /\
  forall dial, dial (tx "localhost:3306") = Line None -> channel_new dial default_endpoint (s_heartbeat default_settings) = Ok (40 * 1000000000).
Proof.
  split; [apply (C96_address default_endpoint); [reflexivity|auto]|]. split; [reflexivity|]. split; [reflexivity|]. split; [reflexivity|].
  split; [vm_compute; reflexivity|]. intros dial D. unfold channel_new. replace (address default_endpoint) with (tx "localhost:3306") by (vm_compute; reflexivity). rewrite D. vm_compute. reflexivity.
Qed.
Print Assumptions C96_defaults.
(* a host with colons; a server that is away twice and then there *)
Example C96_example : address (Endpoint (tx "::1") 3307) = tx "::1:3307" /\ stands_for (tx "::1:3307") (tx "::1") 3307.
Proof. split; [vm_compute; reflexivity|]. exists (tx "3307"). split; [reflexivity|]. split; [cbn; intuition discriminate|]. apply number_parse. vm_compute. reflexivity. Qed.
Definition away : text -> dialled := fun _ => NoRoute OtherIo.
Definition there : text -> dialled := fun a => if text_eqb a (tx "localhost:3306") then Line None else NoRoute OtherIo.
Example C96_example_run : let w := start o_here ([mysql_hello; okp] ++ good_answers) in
  attempts Release env0 default_endpoint st0 (w_client w) [away; away] (w_client w) /\ fst (replicate_at Release env0 there default_endpoint st0 w) = Ok CkCrc32 /\
  fst (replicate_at Release env0 there (Endpoint (tx "localhost") 3307) st0 w) = Err (EIo OtherIo).
Proof.
  split; [|split; vm_compute; reflexivity]. eapply at_one with (cs := []); [reflexivity|]. eapply at_one with (cs := []); [reflexivity|]. apply at_nil.
Qed.
