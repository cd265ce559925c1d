(* Claimed properties: replicate() when the operating system refuses writes or takes only part of the bytes: C93. *)
From Coq Require Import Strings.String.
From Verif Require Import Base.Tac Base.Bytes Base.Text Base.Res Base.Str Base.Parse Model.Gtid Model.GtidMaria Model.Events Model.Client Model.Commands Model.Responses Model.Channel Model.Session Model.SessionIo
  Spec.GtidSpec Spec.CodecSpec Spec.CommandSpec Spec.ChannelSpec Spec.SessionSpec Spec.PanicSpec Spec.SockSpec Proofs.CommandProofs Proofs.ChannelProofs Proofs.ReplicateProofs Proofs.PlanProofs Proofs.LoginProofs Proofs.PanicProofs Proofs.SockProofs Proofs.SockLeftProofs Props.CommandProps Props.ChannelProps Props.SessionProps Props.PanicProps Props.TalkProps Spec.TalkSpec.
Local Open Scope N_scope.

(* Full statement: when it returns Ok, every packet has been handed over whole.  Missing: the bodies, of which as much has been handed over as the operating
   system took (refuted below).  Either everything is as with an operating system that takes everything, or a write is refused (or blocks for ever): then the
   result is that error, and what was sent and received before it is what would have been, and no packet follows. *)
Theorem C93_until_refused_partial : forall bl ev st w os r0 w0 r x, w_log w = [] -> replicate bl ev st w = (r0, w0) -> io_replicate bl ev st (Sock w os []) = (r, x) ->
  (r = r0 /\ k_world x = w0 /\ exists us, os = us ++ k_os x /\ handed (sent (w_log w0)) us (k_out x)) \/
  (exists p s rest us u bs n, w_log w0 = w_log (k_world x) ++ Sent p s :: rest /\ os = us ++ u ++ k_os x /\ handed (sent (w_log (k_world x))) us bs /\ broken r u n (k_os x) /\ k_out x = bs ++ firstn n (wire (p, s))).
Proof.
  intros bl ev st w os r0 w0 r x LW E0 E. destruct (sim_replicate bl ev st w) as (l & L & S). specialize (S os []). rewrite E in S. unfold done in S. rewrite E0 in *. cbn [fst snd] in *. rewrite LW in L. cbn [app] in L. subst l.
  destruct S as [(-> & -> & us & bs & EO & HB & KO)|(l1 & p & s & l2 & us & u & bs & n & EL & KL & EO & HB & BR & KO)]; cbn [app] in *.
  - left. split; [reflexivity|]. split; [reflexivity|]. exists us. rewrite KO. auto.
  - right. rewrite LW in KL. cbn [app] in KL. exists p, s, l2, us, u, bs, n. rewrite KL. auto 10.
Qed.
Print Assumptions C93_until_refused_partial.
(* so success over any operating system is the success described in C61 and C92 *)
Theorem C93_success_is_whole : forall bl ev st w os ck x, w_log w = [] -> io_replicate bl ev st (Sock w os []) = (Ok ck, x) -> replicate bl ev st w = (Ok ck, k_world x).
Proof.
  intros bl ev st w os ck x LW E. destruct (replicate bl ev st w) as [r0 w0] eqn:E0. destruct (C93_until_refused_partial bl ev st w os r0 w0 (Ok ck) x LW E0 E) as [(<- & <- & _)|(p & s & rest & us & u & bs & n & _ & _ & _ & BR & _)]; [reflexivity|].
  destruct BR as [[Z _]|[Z _]]; discriminate Z.
Qed.
Print Assumptions C93_success_is_whole.
Lemma whole_handed ps : forall us bs, handed ps us bs -> Forall takes_all us -> Forall (fun p => N.of_nat (length (fst p)) < 16777216) ps -> bs = flat_map wire ps.
Proof.
  intros us bs H. induction H as [|p ps u n us bs W H IH]; intros T F; [reflexivity|]. apply Forall_app in T. destruct T as [TU T]. inversion F as [|? ? FP F2]; subst. cbn [flat_map]. rewrite <- (IH T F2).
  f_equal. inversion W as [u1 u2 k G1 G2| | | | | |]; subst. rewrite !Forall_app in TU. destruct TU as (_ & _ & TU). apply Forall_inv in TU. destruct TU as (m & E & B). injection E as ->.
  apply firstn_all2. unfold wire. rewrite !app_length, le_enc_length. cbn [length]. lia.
Qed.
Lemma stuck_refused n us t : stuck n us t -> (N.of_nat n < 16777216) -> Forall takes_all us -> False.
Proof.
  induction 1 as [n H|n H|n k us t H S IH|n us t H S IH]; intros B T; apply Forall_inv in T as (m & E & M); try discriminate E; injection E as <-; lia.
Qed.
(* an operating system that takes every buffer as a whole is the one of the session model *)
Theorem C93_takes_all : forall bl ev st w os r0 w0 r x, w_log w = [] -> replicate bl ev st w = (r0, w0) -> io_replicate bl ev st (Sock w os []) = (r, x) -> Forall takes_all os ->
  Forall (fun p => N.of_nat (length (fst p)) < 16777216) (sent (w_log w0)) -> r <> Diverge -> r = r0 /\ k_world x = w0 /\ k_out x = flat_map wire (sent (w_log w0)).
Proof.
  intros bl ev st w os r0 w0 r x LW E0 E T F D. destruct (C93_until_refused_partial bl ev st w os r0 w0 r x LW E0 E) as [(-> & -> & us & EO & HB)|(p & s & rest & us & u & bs & n & _ & EO & _ & BR & _)].
  - split; [reflexivity|]. split; [reflexivity|]. apply (whole_handed _ us); [exact HB| |exact F]. rewrite EO in T. apply Forall_app in T. apply T.
  - exfalso. destruct BR as [[_ W]|[Z _]]; [|now apply D]. rewrite EO in T. apply Forall_app in T. destruct T as [_ T]. apply Forall_app in T. destruct T as [T _].
    inversion W as [|u1 u2 o G1 G2 HO|u1 t H|u1 u2 t G1 H| | |]; subst.
    + rewrite !Forall_app in T. destruct T as (_ & _ & T). apply Forall_inv in T. destruct T as (m & EM & _). destruct HO as [-> | ->]; discriminate EM.
    + exact (stuck_refused 3 u n H eq_refl T).
    + apply Forall_app in T. exact (stuck_refused 1 u2 t H eq_refl (proj2 T)).
Qed.
Print Assumptions C93_takes_all.
(* what is left in the client is what the packets received say, as in C62_left *)
Theorem C93_left : forall bl ev st w os r x, hashes ev -> rsa_fits ev -> caller_fits ev st (c_opts (w_client w)) -> w_log w = [] -> io_replicate bl ev st (Sock w os []) = (r, x) ->
  left_client bl ev st (w_client w) (received (w_log (k_world x))) (w_client (k_world x)).
Proof. intros bl ev st w os r x HH RS CF L E. exact (io_replicate_left bl ev st (proj1 (proj2 CF)) HH (proj1 CF) RS w os [] r x (caller_fits_fits _ _ _ CF) L E). Qed.
Print Assumptions C93_left.
(* two bytes of the heartbeat statement are taken; replicate() goes on and succeeds *)
Theorem C93_short_write_refuted : exists bl ev st w os ck x, w_log w = [] /\ io_replicate bl ev st (Sock w os []) = (Ok ck, x) /\ k_out x <> flat_map wire (sent (w_log (k_world x))).
Proof.
  pose (w := start from_start ([mysql_hello; okp] ++ good_answers)). pose (os := repeat (Took 1000) 5 ++ Took 2 :: repeat (Took 1000) 9).
  exists Release, env0, st0, w, os, CkCrc32, (snd (io_replicate Release env0 st0 (Sock w os []))). split; [reflexivity|]. split; [vm_compute; reflexivity|].
  intros E. apply (f_equal (@length byte)) in E. revert E. vm_compute. discriminate.
Qed.
Print Assumptions C93_short_write_refuted.
(* an interrupted write of a header makes no difference, one of a body ends replicate() *)
Example C93_example_signals : let w := start from_start ([mysql_hello; okp] ++ good_answers) in
  fst (io_replicate Release env0 st0 (Sock w (repeat (Took 1000) 3 ++ [Signal; Took 1; Signal] ++ repeat (Took 1000) 12) [])) = Ok CkCrc32 /\
  fst (io_replicate Release env0 st0 (Sock w (repeat (Took 1000) 5 ++ Signal :: repeat (Took 1000) 12) [])) = Err (EIo OtherIo).
Proof. vm_compute. split; reflexivity. Qed.
(* the third packet is refused after two of the three bytes of its length *)
Example C93_example : let w := start from_start ([mysql_hello; okp] ++ good_answers) in
  let '(r, x) := io_replicate Release env0 st0 (Sock w (repeat (Took 1000) 6 ++ [Took 2; Took 0]) []) in
  r = Err (EIo OtherIo) /\ length (sent (w_log (k_world x))) = 2%nat /\ length (sent (w_log (snd (replicate Release env0 st0 w)))) = 5%nat /\
  k_out x = flat_map wire (sent (w_log (k_world x))) ++ firstn 2 (wire (query_command (tx "SET @master_binlog_checksum= @@global.binlog_checksum"), 0)).
Proof. vm_compute. repeat split. Qed.
