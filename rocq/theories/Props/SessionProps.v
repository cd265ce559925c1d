(* Claimed properties of replicate() before the event stream: C48, C50, C54, C59, C61-C65, C71-C73. *)
From Coq Require Import Sorting.Permutation Strings.String.
From Verif Require Import Base.Tac Base.Bytes Base.Text Base.Res Base.Str Base.Parse Model.Gtid Model.GtidMaria Model.Events Model.Client Model.Commands
  Model.Responses Model.Channel Model.Session Spec.GtidSpec Spec.GtidMariaSpec Spec.CodecSpec Spec.CommandSpec Spec.ChannelSpec Spec.SessionSpec Spec.PanicSpec
  Proofs.GtidMariaProofs Proofs.CommandProofs Proofs.ChannelProofs Proofs.ReplicateProofs Proofs.ResultProofs Proofs.PlanProofs Proofs.LoginProofs Proofs.PanicProofs Props.GtidProps Props.CommandProps.
Local Open Scope N_scope.

(* ---- the runs used in examples and refutations: a server's packets, and a simple hash function ---- *)
Definition tx_bytes (s : string) : list byte := utf8_encode (tx s).
Definition toy : crypto := Crypto (fun m => firstn 20 (m ++ repeat (n2b 0) 20)) (fun m => firstn 32 (m ++ repeat (n2b 0) 32)) (fun _ m => Ok (rev m)).
Definition env0 : env := Env toy (fun s => s).
Definition st0 : settings := Settings Disabled (tx "repl") (tx "secret") None 42 true 30000000000.
Definition hello_of (version plugin : text) : hello :=
  Hello 10 version 7 (tx "abcdefgh") 557568 45 2 21 (repeat 0 6) 0 (tx "ijklmnopqrst") plugin.
Definition okp : list byte := [n2b 0; n2b 0; n2b 0; n2b 2; n2b 0; n2b 0; n2b 0].
Definition errp (code : N) (msg : text) : list byte := n2b 0xFF :: error_body code (Some (tx "HY000")) msg.
Definition rset (rows : list (list text)) : result_set := ResultSet [n2b 1] [utf8_encode (tx "column")] [n2b 0; n2b 0; n2b 2; n2b 0] (map (map Some) rows) [n2b 0; n2b 0; n2b 2; n2b 0].
Definition number (ps : list (list byte)) : list packet := map (fun p => (p, 0)) ps.
Definition server (ps : list (list byte)) : list portion := [Got (flat_map wire (number ps))].
Definition start (o : options) (ps : list (list byte)) : world := World (client_new o) (server ps) [].
Definition mysql_hello : list byte := hello_bytes (hello_of (tx "8.0.30") native_name).
Definition maria_hello : list byte := hello_bytes (hello_of (tx "5.5.5-10.6.9-MariaDB") native_name).
Definition caching_hello : list byte := hello_bytes (hello_of (tx "8.0.30") caching_name).
Definition good_answers : list (list byte) := [okp; okp] ++ result_bodies (rset [[tx "CRC32"]]).

(* conditions on numbers (u32 fields) and C49's on the set *)
Definition request_fits (ev : env) (st : settings) (o : options) : Prop :=
  s_server_id st < 4294967296 /\ o_pos o < 4294967296 /\
  forall s, o_strategy o = FromGtid -> o_set o = Some s ->
    set_ok s /\ set_canonical s /\ (forall d, ~ set_has s d 0) /\ Permutation s (e_order ev s) /\
    N.of_nat (set_size s) < 4294967000 /\ N.of_nat (length (utf8_encode (o_file o))) < 4294967296.
Lemma set_bytes s : set_ok s -> set_canonical s -> (forall d, ~ set_has s d 0) -> length (flat_map entry_bytes s) = set_size s.
Proof.
  intros H1 H2 H3. apply entry_bytes_size. pose proof (set_ok_sendable s H1 H2 H3) as S. eapply Forall_impl; [|exact S]. cbn beta. tauto.
Qed.
Lemma fits_ok ev st o : request_fits ev st o -> request_ok ev st o.
Proof.
  intros (H1 & H2 & H3). split; [exact H1|]. split; [exact H2|]. intros s S E. destruct (H3 s S E) as (K1 & K2 & K3 & K4 & K5 & K6).
  repeat (split; try assumption). rewrite set_bytes by assumption. exact K5.
Qed.

(* ---- C61: what replicate() sends ---- *)
Theorem C61_plan : forall bl ev st w r w', w_log w = [] -> request_fits ev st (c_opts (w_client w)) -> replicate bl ev st w = (r, w') ->
  exists login rest, w_log w' = login ++ rest /\ in_turn login /\
    match connect bl ev st w with
    | (Ok pr, w1) => w_log w1 = login /\ follows (sent rest) (plan pr st (c_opts (w_client w)) (c_opts (w_client w'))) /\
        forall ck, r = Ok ck -> length (sent rest) = length (plan pr st (c_opts (w_client w)) (c_opts (w_client w')))
    | (_, w1) => w' = w1 /\ rest = [] /\ forall ck, r <> Ok ck
    end.
Proof.
  intros bl ev st w r w' L F E. rewrite replicate_eq in E. unfold abind in E. destruct (connect bl ev st w) as [r1 w1] eqn:E1.
  destruct (trn_connect bl ev st w r1 w1 I E1) as [(l1 & L1 & T) _]. rewrite L in L1, T. cbn [app] in L1.
  assert (TT : in_turn l1) by (intros a p s b X; exact (T a p s b X)).
  destruct r1 as [pr|e| |]; try (inv E; exists (w_log w'), []; rewrite app_nil_r; split; [reflexivity|]; split; [exact TT|]; repeat split; discriminate).
  pose proof (connect_keeps bl ev st w) as K. rewrite E1 in K. cbn [snd] in K.
  destruct (set_up_plan bl ev st pr w1 r w') as (l & L2 & F2 & N2); [rewrite K; now apply fits_ok|exact E|]. rewrite K in *.
  exists l1, l. split; [congruence|]. split; [exact TT|]. split; [exact L1|]. split; [exact F2|exact N2].
Qed.
Print Assumptions C61_plan.
(* error packets *)
Theorem C61_error_stops : forall bl ev st w r w', w_log w = [] -> replicate bl ev st w = (r, w') -> stops (w_log w') r.
Proof. exact replicate_stops. Qed.
Print Assumptions C61_error_stops.
Corollary C59_every_command_fails : forall bl ev st w r w' a e s b, w_log w = [] -> replicate bl ev st w = (r, w') ->
  w_log w' = a ++ Received e s :: b -> starts_byte 0xFF e -> ~ in_columns a -> b = [] /\ exists x, r = Err x.
Proof. intros bl ev st w r w' a e s b L E X S C. destruct (replicate_stops _ _ _ _ _ _ L E _ _ _ _ X S C) as (H1 & H2 & _). auto. Qed.
Print Assumptions C59_every_command_fails.
(* replicate() returns (or panics), whatever arrives *)
Theorem C61_returns : forall bl ev st w, (forall k m, rsa (e_crypto ev) k m <> Diverge) -> fst (replicate bl ev st w) <> Diverge.
Proof. intros bl ev st w H. exact (replicate_fin bl ev st H w). Qed.
Print Assumptions C61_returns.
(* with a server that accepts everything it succeeds, and what follows is left for the event stream *)
Definition fits_packets (pr : provider) (st : settings) (o : options) : Prop :=
  s_heartbeat st < 2 ^ 100 /\ N.of_nat (length (utf8_encode (o_file o))) < 1000000 /\
  (o_strategy o = FromGtid -> match pr with
    | MySQL => exists s, o_set o = Some s /\ N.of_nat (set_size s) < 10000000
    | MariaDB => exists l, o_list o = Some l /\ N.of_nat (length (gtid_list_text l)) < 10000000
    end).
Theorem C61_completes : forall bl ev st h p s ok ps o ck w t rest,
  hashes ev -> names_fit st -> s_ssl st = Disabled -> hello_for h p -> s < 255 -> starts_byte 0 (fst ok) ->
  let pr := provider_from (he_version h) in let o0 := c_opts (w_client w) in
  accepts pr o0 ps o ck -> request_fits ev st o -> fits_packets pr st o ->
  pending (w_in w) ((hello_bytes h, s) :: ok :: ps) t rest ->
  exists w', replicate bl ev st w = (Ok ck, w') /\ pending (w_in w') [] t rest /\ w_client w' = Client o false None None.
Proof.
  intros bl ev st h p s ok ps o ck w t rest HH NF SSL HF S OK pr o0 A R (Z1 & Z2 & Z3) P. destruct (login_exists ev st h p HH) as (login & LG).
  destruct (does_connect_ok bl ev st h p s login ok w ps t rest HH NF SSL HF S OK LG P) as (c1 & E1 & P1).
  rewrite <- (app_nil_r ps) in P1.
  destruct (set_up_completes bl ev st pr o0 o ck (World (w_client w) c1 (w_log w ++ [got (hello_bytes h, s); Sent login (s + 1); got ok])) ps [] t rest) as (c2 & l & E2 & P2); auto.
  - now apply fits_ok.
  - split; [exact Z1|]. split; [exact Z2|]. intros G. specialize (Z3 G). destruct pr; [exact Z3|]. destruct Z3 as (x & X1 & X2). exists x. split; [exact X1|].
    destruct R as (_ & _ & R). destruct (R x G X1) as (K1 & K2 & K3 & _). now rewrite set_bytes.
  - eexists. split; [rewrite replicate_eq, (abind_ok _ _ _ _ _ E1); exact E2|]. cbn [w_in w_client]. auto.
Qed.
Print Assumptions C61_completes.
(* the run of a server without complaints, FromEnd on MariaDB being the longest one without GTIDs *)
Definition o_here : options := from_position (tx "binlog.000003") 1234.
Definition status_answer : list (list byte) := result_bodies (rset [[tx "binlog.000007"; tx "9001"; tx ""]]).
Example C61_example_mysql : let '(r, w) := replicate Release env0 st0 (start o_here ([mysql_hello; okp] ++ good_answers)) in
  r = Ok CkCrc32 /\ map snd (sent (w_log w)) = [1; 0; 0; 0; 0] /\
  srv_dump (fst (last (sent (w_log w)) ([], 9))) = Some (1234, 0, 42, utf8_encode (tx "binlog.000003")).
Proof. vm_compute. repeat split. Qed.
Example C61_example_mariadb : let '(r, w) := replicate Release env0 st0 (start from_end ([maria_hello; okp] ++ status_answer ++ good_answers ++ [okp])) in
  r = Ok CkCrc32 /\ length (sent (w_log w)) = 7%nat /\ (o_file (c_opts (w_client w)), o_pos (c_opts (w_client w))) = (tx "binlog.000007", 9001) /\
  srv_dump (fst (last (sent (w_log w)) ([], 9))) = Some (9001, 0, 42, utf8_encode (tx "binlog.000007")).
Proof. vm_compute. repeat split. Qed.
(* an error in answer to the heartbeat statement: nothing is sent after it *)
Example C61_example_error : let '(r, w) := replicate Release env0 st0 (start o_here ([mysql_hello; okp; errp 1193 (tx "Unknown system variable")])) in
  r = Err (EServer (tx "Setting master heartbeat error.") 1193 (tx "Unknown system variable") (Some (tx "HY000"))) /\ length (sent (w_log w)) = 2%nat.
Proof. vm_compute. repeat split. Qed.
Example C61_example_fits : request_fits env0 st0 o_here /\ fits_packets MySQL st0 o_here /\ names_fit st0.
Proof. repeat split; try reflexivity; try discriminate. Qed.
Example C61_example_hashes : hashes env0.
Proof.
  intros [|]; [exists 20%nat|exists 32%nat]; (split; [|lia]); intros m; cbn [hash_of e_crypto env0 toy sha1 sha256]; rewrite firstn_length, app_length, repeat_length; lia.
Qed.

(* A dump request is sent although an earlier response was an error: in place of a column definition *)
Theorem C61_column_error_refuted : exists bl ev st w ck w' a e s b,
  w_log w = [] /\ replicate bl ev st w = (Ok ck, w') /\ w_log w' = a ++ Received e s :: b /\ starts_byte 0xFF e /\
  exists p c, b = c ++ [Sent p 0] /\ asks_position (c_opts (w_client w')) 42 p.
Proof.
  pose (w := start o_here ([mysql_hello; okp; okp; okp; [n2b 1]; errp 1227 (tx "Access denied")] ++ skipn 2 (result_bodies (rset [[tx "CRC32"]])))).
  exists Release, env0, st0, w, CkCrc32, (snd (replicate Release env0 st0 w)), (firstn 9 (w_log (snd (replicate Release env0 st0 w)))),
    (errp 1227 (tx "Access denied")), 0, (skipn 10 (w_log (snd (replicate Release env0 st0 w)))).
  split; [reflexivity|]. split; [vm_compute; reflexivity|]. split; [vm_compute; reflexivity|]. split; [eexists; reflexivity|].
  exists (match last (w_log (snd (replicate Release env0 st0 w))) (Received [] 0) with Sent p _ => p | _ => [] end), (removelast (skipn 10 (w_log (snd (replicate Release env0 st0 w))))).
  split; vm_compute; reflexivity.
Qed.
Print Assumptions C61_column_error_refuted.

(* ---- C48, C50: the request a successful replicate() ends with ---- *)
Lemma follows_last ps pl (P : list byte -> Prop) : follows ps (pl ++ [P]) -> length ps = length (pl ++ [P]) -> exists qs p, ps = qs ++ [(p, 0)] /\ P p.
Proof.
  intros (d & l & E & F) L. assert (L2 : length ps = length d) by (clear - F; induction F; cbn [length]; congruence). assert (l = []).
  { destruct l; [reflexivity|]. rewrite E, app_length in L. cbn [length] in L. lia. }
  subst l. rewrite app_nil_r in E. subst d. apply Forall2_app_inv_r in F. destruct F as (qs & z & F1 & F2 & ->).
  inversion F2 as [|[p s] ? ? ? [A B] F3]; subst. inversion F3; subst. cbn [fst snd] in *. subst. eauto.
Qed.
Lemma sent_app a b : sent (a ++ b) = sent a ++ sent b.
Proof. apply flat_map_app. Qed.
Theorem C48_session : forall bl ev st w ck w', w_log w = [] -> request_fits ev st (c_opts (w_client w)) -> o_strategy (c_opts (w_client w')) <> FromGtid ->
  replicate bl ev st w = (Ok ck, w') ->
  exists ps p, sent (w_log w') = ps ++ [(p, 0)] /\
    srv_dump p = Some (o_pos (c_opts (w_client w')), 0, if s_blocking st then s_server_id st else 0, utf8_encode (o_file (c_opts (w_client w')))).
Proof.
  intros bl ev st w ck w' L F G E. destruct (C61_plan bl ev st w (Ok ck) w' L F E) as (a & b & LL & _ & C).
  destruct (connect bl ev st w) as [[pr|x| |] w1]; try (destruct C as (_ & _ & C); now destruct (C ck)). destruct C as (_ & F2 & N2). specialize (N2 ck eq_refl).
  assert (X : exists pl, plan pr st (c_opts (w_client w)) (c_opts (w_client w')) = pl ++ [asks_position (c_opts (w_client w')) (if s_blocking st then s_server_id st else 0)]).
  { unfold plan. destruct pr, (o_strategy (c_opts (w_client w'))); try contradiction; rewrite ?app_assoc; eexists; reflexivity. }
  destruct X as (pl & X). rewrite X in *. destruct (follows_last _ _ _ F2 N2) as (qs & p & S & A). exists (sent a ++ qs), p. rewrite LL, sent_app, S, app_assoc. auto.
Qed.
Print Assumptions C48_session.
Theorem C50_first_connection_partial : forall bl ev st s w ck w', w_log w = [] -> w_client w = client_new (from_mysql_gtid s) ->
  request_fits ev st (from_mysql_gtid s) -> replicate bl ev st w = (Ok ck, w') -> fst (connect bl ev st w) = Ok MySQL ->
  exists ps p r, sent (w_log w') = ps ++ [(p, 0)] /\ srv_dump_gtid p = Some r /\ sg_name r = [] /\ sg_pos r = 4 /\
    forall d n, srv_has (sg_set r) d n <-> set_has s d n.
Proof.
  intros bl ev st s w ck w' L W F E E1. pose proof F as F'. replace (from_mysql_gtid s) with (c_opts (w_client w)) in F' by now rewrite W.
  destruct (C61_plan bl ev st w (Ok ck) w' L F' E) as (a & b & LL & _ & C).
  assert (O : c_opts (w_client w') = from_mysql_gtid s).
  { rewrite replicate_eq in E. unfold abind in E. pose proof (connect_keeps bl ev st w) as K. destruct (connect bl ev st w) as [[pr|x| |] w1]; try discriminate E1.
    cbn [snd] in K. clear C. rewrite (set_up_options bl ev st pr w1 (Ok ck) w'); rewrite ?K, ?W; auto. }
  destruct (connect bl ev st w) as [r1 w1]. cbn [fst] in E1. subst r1. destruct C as (_ & F2 & N2). specialize (N2 ck eq_refl).
  rewrite W in F2, N2. rewrite O in F2, N2. cbn [c_opts client_new] in F2, N2.
  destruct (follows_last _ [asks_heartbeat (s_heartbeat st); asks (tx "SET @master_binlog_checksum= @@global.binlog_checksum"); asks (tx "SELECT @master_binlog_checksum")] _ F2 N2)
    as (qs & p & S & (r & A1 & A2 & A3 & A4 & A5)).
  exists (sent a ++ qs), p, r. rewrite LL, sent_app, S, app_assoc. auto.
Qed.
Print Assumptions C50_first_connection_partial.
(* After a history the request carries the file and position of the previous connection beside the set *)
Definition hd_at (n : N) : header := Header 0 0 1 0 n 0.
Definition history50 : list (header * event) :=
  [(hd_at 0, EvRotate (Rotate (tx "binlog.000009") 4)); (hd_at 733, EvXid 5)].
Theorem C50_reconnect_refuted : exists bl ev st s h c cs ck w' ps p r,
  commit_all bl (client_new (from_mysql_gtid s)) h = Ok c /\ replicate bl ev st (World c cs []) = (Ok ck, w') /\ sent (w_log w') = ps ++ [(p, 0)] /\
  srv_dump_gtid p = Some r /\ sg_name r = utf8_encode (tx "binlog.000009") /\ sg_pos r = 733.
Proof.
  pose (c := match commit_all Release (client_new (from_mysql_gtid s49)) history50 with Ok c => c | _ => client_new from_start end).
  pose (w := World c (server ([mysql_hello; okp] ++ good_answers)) []). pose (l := sent (w_log (snd (replicate Release env0 st0 w)))).
  exists Release, env0, st0, s49, history50, c, (w_in w), CkCrc32, (snd (replicate Release env0 st0 w)), (removelast l), (fst (last l ([], 9))).
  eexists. split; [vm_compute; reflexivity|]. split; [vm_compute; reflexivity|]. split; [vm_compute; reflexivity|]. split; [vm_compute; reflexivity|]. split; vm_compute; reflexivity.
Qed.
Print Assumptions C50_reconnect_refuted.
Example C50_example : let '(r, w) := replicate Release env0 st0 (start (from_mysql_gtid s49) ([mysql_hello; okp] ++ good_answers)) in
  r = Ok CkCrc32 /\ option_map (fun r => (sg_name r, sg_pos r)) (srv_dump_gtid (fst (last (sent (w_log w)) ([], 9)))) = Some ([], 4).
Proof. vm_compute. repeat split. Qed.

(* ---- C54: full authentication of caching_sha2_password. [decrypt] is the server's private key. ---- *)
Theorem C54_full_authentication : forall bl ev st h s n s1 pem s2 ok decrypt w qs t rest,
  hashes ev -> names_fit st -> s_ssl st = Disabled -> hello_for h CachingSha2 -> utf8_encode (he_scramble h) <> [] ->
  s < 255 -> s1 < 255 -> s2 < 255 -> not_byte 0xFF (fst ok) -> rsa_ok ev st pem decrypt ->
  pending (w_in w) ((hello_bytes h, s) :: (n2b 1 :: n2b 4 :: n, s1) :: (n2b 1 :: pem, s2) :: ok :: qs) t rest ->
  exists w' login e, connect bl ev st w = (Ok (provider_from (he_version h)), w') /\ pending (w_in w') qs t rest /\
    w_log w' = w_log w ++ [got (hello_bytes h, s); Sent login (s + 1); got (n2b 1 :: n2b 4 :: n, s1); Sent [n2b 2] (s1 + 1);
                           got (n2b 1 :: pem, s2); Sent e (s2 + 1); got ok] /\
    xor_cycled (decrypt e) (utf8_encode (he_scramble h)) = utf8_encode (s_password st) ++ [n2b 0].
Proof.
  intros bl ev st h s n s1 pem s2 ok decrypt w qs t rest HH NF SSL HF SC S S1 S2 OK R P.
  destruct (cipher_exists ev st pem decrypt (he_scramble h) R) as (e & CI & D). destruct (login_exists ev st h CachingSha2 HH) as (login & LG).
  destruct (does_connect_full bl ev st h s login n s1 pem e s2 ok w qs t rest HH NF SSL HF S S1 S2 OK SC CI LG P) as (cs & E & P').
  eexists. exists login, e. split; [exact E|]. cbn [w_in w_log]. auto.
Qed.
Print Assumptions C54_full_authentication.
Lemma encrypt_exists ev st scramble p : hashes ev -> exists r, encrypt_password (e_crypto ev) (s_password st) scramble p = Ok r.
Proof.
  intros H. destruct (H p) as (k & K1 & K2). destruct p; cbn [encrypt_password hash_of] in *;
  destruct (native_ok _ k (s_password st) scramble K1) as (r & E1 & _); try lia; eauto.
Qed.
(* also after the server switched to this plugin, with the scramble sent with the switch *)
Theorem C54_after_switch : forall bl ev st h p s scramble s0 n s1 pem s2 ok decrypt w qs t rest,
  hashes ev -> names_fit st -> s_ssl st = Disabled -> hello_for h p -> cstring_ok scramble -> utf8_encode scramble <> [] ->
  s < 255 -> s0 < 255 -> s1 < 255 -> s2 < 255 -> not_byte 0xFF (fst ok) -> rsa_ok ev st pem decrypt ->
  pending (w_in w) ((hello_bytes h, s) :: (n2b 0xFE :: cstring caching_name ++ cstring scramble, s0) ::
                    (n2b 1 :: n2b 4 :: n, s1) :: (n2b 1 :: pem, s2) :: ok :: qs) t rest ->
  exists w' login reply e, connect bl ev st w = (Ok (provider_from (he_version h)), w') /\ pending (w_in w') qs t rest /\
    sent (w_log w') = sent (w_log w) ++ [(login, s + 1); (reply, s0 + 1); ([n2b 2], s1 + 1); (e, s2 + 1)] /\
    xor_cycled (decrypt e) (utf8_encode scramble) = utf8_encode (s_password st) ++ [n2b 0].
Proof.
  intros bl ev st h p s scramble s0 n s1 pem s2 ok decrypt w qs t rest HH NF SSL HF CS SC S S0 S1 S2 OK R P.
  destruct (cipher_exists ev st pem decrypt scramble R) as (e & CI & D). destruct (login_exists ev st h p HH) as (login & LG).
  destruct (encrypt_exists ev st scramble CachingSha2 HH) as (reply & RP).
  destruct (does_connect_switch bl ev st h p s login CachingSha2 scramble s0 reply (n2b 1 :: n2b 4 :: n, s1) [Sent [n2b 2] (s1 + 1); got (n2b 1 :: pem, s2); Sent e (s2 + 1); got ok]
    w ((n2b 1 :: pem, s2) :: ok :: qs) qs t rest) as (cs & E & P'); auto.
  - eexists; eexists; split; [reflexivity|]. rewrite b2n_n2b; lia.
  - intros w' P'. change (text_eqb (plugin_text CachingSha2) caching_name) with true. cbv iota. cbn [fst snd].
    apply (does_bind0 _ _ _ ((n2b 1 :: pem, s2) :: ok :: qs) _ _ _ (s1 + 1)); [apply does_lift; [apply uadd_ok; lia|exact P']|]. intros c P1. now apply does_sha.
  - eexists. exists login, reply, e. split; [exact E|]. cbn [w_in w_log]. split; [exact P'|]. split; [now rewrite sent_app|exact D].
Qed.
Print Assumptions C54_after_switch.
(* the key packet and the toy cipher, which reverses; its inverse reverses *)
Example C54_example_rsa : rsa_ok env0 st0 (tx_bytes "PEM") (@rev byte).
Proof. intros m H. exists (rev m). split; [reflexivity|]. split; [rewrite rev_length, H; vm_compute; reflexivity|apply rev_involutive]. Qed.
Example C54_example : let '(r, w) := connect Release env0 st0 (start o_here [caching_hello; [n2b 1; n2b 4]; n2b 1 :: tx_bytes "PEM"; okp]) in
  r = Ok MySQL /\ xor_cycled (rev (fst (last (sent (w_log w)) ([], 9)))) (tx_bytes "abcdefghijklmnopqrst") = tx_bytes "secret" ++ [n2b 0].
Proof. vm_compute. repeat split. Qed.

(* ---- C62 ---- *)
Theorem C62_taken_from_server : forall bl ev st w ck w', o_strategy (c_opts (w_client w)) = FromEnd -> o_file (c_opts (w_client w)) = [] ->
  replicate bl ev st w = (Ok ck, w') ->
  exists p s ptext cells, In (Received p s) (w_log w') /\ parse_row_packet p = Ok (o_file (c_opts (w_client w')) :: ptext :: cells) /\
    parse_uint u32max1 ptext = Ok (o_pos (c_opts (w_client w'))).
Proof.
  intros bl ev st w ck w' S F E. destruct (replicate_outcomes bl ev st w (Ok ck) w') as (_ & H); auto.
  { unfold asks_end. now rewrite S, F. }
  destruct H as (ptext & cells & (p & s & H1 & H2) & H3). exists p, s, ptext, cells. auto.
Qed.
Print Assumptions C62_taken_from_server.
(* The server's answer, in the bytes of the protocol: C61_completes with [accepts]; here for the master status alone *)
Corollary C62_reported_position : forall bl ev st h p s ok ps file pos cells rs l rest_ps ck w t rest,
  hashes ev -> names_fit st -> s_ssl st = Disabled -> hello_for h p -> s < 255 -> starts_byte 0 (fst ok) ->
  let o0 := c_opts (w_client w) in let o := Options file pos (o_set o0) (o_list o0) FromEnd in
  o_strategy o0 = FromEnd -> o_file o0 = [] -> ps = l ++ rest_ps -> map fst l = result_bodies rs -> result_ok rs -> rs_rows rs = [map Some (file :: dec_text pos :: cells)] ->
  pos < 4294967296 -> accepts (provider_from (he_version h)) (Options [0] 0 None None FromEnd) rest_ps (Options [0] 0 None None FromEnd) ck ->
  request_fits ev st o -> fits_packets (provider_from (he_version h)) st o -> pending (w_in w) ((hello_bytes h, s) :: ok :: ps) t rest ->
  exists w', replicate bl ev st w = (Ok ck, w') /\ o_file (c_opts (w_client w')) = file /\ o_pos (c_opts (w_client w')) = pos.
Proof.
  intros bl ev st h p s ok ps file pos cells rs l rest_ps ck w t rest HH NF SSL HF S OK o0 o SE FI -> ML RO RR PO A R FP P.
  destruct (C61_completes bl ev st h p s ok (l ++ rest_ps) o ck w t rest) as (w' & E & _ & C); auto.
  - destruct A as (status & a1 & a2 & sums & more & rs' & -> & (-> & _) & A1 & A2 & A3 & A4 & A5 & A6 & A7).
    exists l, a1, a2, sums, more, rs'. split; [reflexivity|]. fold o0. rewrite SE, FI. cbn [o_strategy o_file] in *. split; [|auto 10].
    exists rs, file, pos, cells. auto 10.
  - exists w'. rewrite C. auto.
Qed.
Print Assumptions C62_reported_position.
(* not asked again; nothing changes *)
Theorem C62_not_asked_again : forall bl ev st w r w', o_strategy (c_opts (w_client w)) <> FromEnd \/ o_file (c_opts (w_client w)) <> [] ->
  replicate bl ev st w = (r, w') -> c_opts (w_client w') = c_opts (w_client w).
Proof.
  intros bl ev st w r w' H E. rewrite replicate_eq in E. unfold abind in E. pose proof (connect_keeps bl ev st w) as K.
  destruct (connect bl ev st w) as [[pr|x| |] w1]; cbn [snd] in K; try (inv E; now rewrite K). rewrite <- K. apply (set_up_options bl ev st pr w1 r w'); [|exact E].
  rewrite K. unfold asks_end. destruct (o_strategy (c_opts (w_client w))), (o_file (c_opts (w_client w))); try reflexivity. destruct H as [H|H]; now destruct H.
Qed.
Print Assumptions C62_not_asked_again.
(* commands are told apart by their first byte *)
Definition command_of (p : list byte) : N := match p with b :: _ => b2n b | [] => 0 end.
Lemma command_check {A} c (k : sreader A) p a : s_whole (c' <~ s_int 1 ;; _ <~ s_check (c' =? c) ;; k) p = Some a -> command_of p = c /\ s_whole k (skipn 1 p) = Some a.
Proof.
  destruct p as [|b r]; [discriminate|]. assert (I : s_int 1 (b :: r) = Some (b2n b, r)).
  { unfold s_int, sbind, s_bytes, sret. change (length (b :: r) <? 1)%nat with false. cbn [firstn skipn le_dec]. now replace (b2n b + 256 * 0) with (b2n b) by lia. }
  unfold s_whole, sbind at 1. rewrite I. unfold sbind, s_check. cbn [command_of skipn]. destruct (N.eqb_spec (b2n b) c) as [E|E]; [auto|discriminate].
Qed.
Lemma asks_bytes sql p : asks sql p -> command_of p = 3 /\ skipn 1 p = utf8_encode sql.
Proof. intros H. apply command_check in H. destruct H as [H1 H2]. split; [exact H1|]. unfold s_whole, s_rest in H2. congruence. Qed.
Lemma utf8_ascii c : c < 128 -> utf8_encode [c] = [n2b c].
Proof. intros H. unfold utf8_encode, flat_map, utf8_char. destruct (N.ltb_spec c 128); [reflexivity|lia]. Qed.
Lemma plan_without_status pr st o0 o (P : list byte -> Prop) p : o_strategy o0 <> FromEnd \/ o_file o0 <> [] -> P p -> asks (tx "show master status") p -> ~ In P (plan pr st o0 o).
Proof.
  intros H HP A I. destruct (asks_bytes _ _ A) as [A1 A2].
  assert (Q : forall sql, nth_error sql 1 <> Some 104 -> Forall (fun c => c < 128) (firstn 2 sql) -> (1 < length sql)%nat -> P = asks sql -> False).
  { intros sql X1 X2 X3 ->. destruct (asks_bytes _ _ HP) as [_ B]. rewrite A2 in B. destruct sql as [|x [|y sql]]; cbn [length] in X3; try lia.
    cbn [firstn] in X2. inversion X2 as [|? ? Y1 Y2]; subst. apply Forall_inv in Y2. apply X1. cbn [nth_error]. f_equal.
    change (x :: y :: sql) with ([x] ++ [y] ++ sql) in B. rewrite !utf8_encode_app in B. rewrite (utf8_ascii x Y1), (utf8_ascii y Y2) in B. cbn [app] in B.
    assert (B2 : nth_error (utf8_encode (tx "show master status")) 1 = Some (n2b y)) by (rewrite B; reflexivity). 
    assert (B3 : nth_error (utf8_encode (tx "show master status")) 1 = Some (n2b 104)) by (vm_compute; reflexivity).
    assert (B4 : b2n (n2b 104) = b2n (n2b y)) by congruence. rewrite !b2n_n2b in B4 by lia. congruence. }
  assert (Q3 : command_of p = 18 \/ command_of p = 30 \/ command_of p = 21 -> False) by lia.
  assert (QP : forall o' id, P = asks_position o' id -> False) by (intros o' id ->; apply Q3; left; now apply command_check in HP).
  assert (QG : forall s o' id, P = asks_gtids s o' id -> False) by (intros s o' id ->; destruct HP as (r & HP & _); apply Q3; right; left; now apply command_check in HP).
  assert (QR : forall id, P = registers id -> False) by (intros id ->; apply Q3; right; right; now apply command_check in HP).
  assert (QH : forall hb, P = asks_heartbeat hb -> False).
  { intros hb ->. destruct HP as (n & HP & _). destruct (asks_bytes _ _ HP) as [_ B]. rewrite A2, utf8_encode_app in B.
    apply (f_equal (fun l => firstn 2 l)) in B. rewrite firstn_app in B. replace (2 - length (utf8_encode (tx "set @master_heartbeat_period=")))%nat with 0%nat in B by reflexivity.
    cbn [firstn] in B. rewrite app_nil_r in B. vm_compute in B. discriminate B. }
  unfold plan in I. repeat (apply in_app_or in I; destruct I as [I|I]).
  - destruct H as [H|H]; destruct (o_strategy o0), (o_file o0); solve [now destruct I|now destruct H].
  - repeat (destruct I as [I|I]; [symmetry in I; first [exact (QH _ I)|eapply Q; [| | |exact I]; [vm_compute; discriminate|repeat constructor|vm_compute; lia]]|]). destruct I.
  - destruct pr; [|destruct (o_strategy o), (o_set o)]; repeat (apply in_app_or in I; destruct I as [I|I]); try destruct (o_strategy o), (o_list o);
    repeat (destruct I as [I|I]; [symmetry in I; first [exact (QP _ _ I)|exact (QG _ _ _ I)|exact (QR _ I)|eapply Q; [| | |exact I]; [cbn; discriminate|repeat constructor|cbn; lia]]|]); try destruct I.
Qed.
Theorem C62_no_status_statement : forall bl ev st w r w' login rest pr, w_log w = [] -> request_fits ev st (c_opts (w_client w)) ->
  o_strategy (c_opts (w_client w)) <> FromEnd \/ o_file (c_opts (w_client w)) <> [] -> replicate bl ev st w = (r, w') ->
  connect bl ev st w = (Ok pr, login) -> w_log w' = w_log login ++ rest -> forall p s, In (p, s) (sent rest) -> ~ asks (tx "show master status") p.
Proof.
  intros bl ev st w r w' w1 rest pr L F H E EC LL p s I A. destruct (C61_plan bl ev st w r w' L F E) as (a & b & LL2 & _ & C). rewrite EC in C.
  destruct C as (L1 & (d & lf & E1 & F2) & _). assert (rest = b) by (apply (app_inv_head (w_log w1)); congruence). subst b.
  assert (X : exists P : list byte -> Prop, In P d /\ P p).
  { clear - F2 I. induction F2 as [|x P l l' [H1 H2] F IH]; [destruct I|]. destruct I as [->|I]; [exists P; cbn; auto|]. destruct (IH I) as (Q & Q1 & Q2). exists Q. cbn; auto. }
  destruct X as (P & X1 & X2). assert (X3 : In P (plan pr st (c_opts (w_client w)) (c_opts (w_client w')))) by (rewrite E1; apply in_or_app; auto).
  revert X3. apply (plan_without_status pr st _ _ P p H X2 A).
Qed.
Print Assumptions C62_no_status_statement.
(* what a failed attempt leaves: the old coordinates, the server's, or the server's file with the old position *)
Theorem C62_failed_attempt_partial : forall bl ev st w e w', replicate bl ev st w = (Err e, w') ->
  o_set (c_opts (w_client w')) = o_set (c_opts (w_client w)) /\ o_list (c_opts (w_client w')) = o_list (c_opts (w_client w)) /\
  o_strategy (c_opts (w_client w')) = o_strategy (c_opts (w_client w)) /\
  (c_opts (w_client w') = c_opts (w_client w) \/
   (exists p s ptext cells, In (Received p s) (w_log w') /\ parse_row_packet p = Ok (o_file (c_opts (w_client w')) :: ptext :: cells) /\
      parse_uint u32max1 ptext = Ok (o_pos (c_opts (w_client w')))) \/
   e = EParseInt /\ o_pos (c_opts (w_client w')) = o_pos (c_opts (w_client w))).
Proof.
  intros bl ev st w e w' E. destruct (asks_end (c_opts (w_client w))) eqn:A.
  - destruct (replicate_outcomes bl ev st w (Err e) w' A E) as ((H1 & H2 & H3) & H). split; [exact H1|]. split; [exact H2|]. split; [exact H3|].
    destruct H as [H|[(ptext & cells & (p & s & Q1 & Q2) & Q3)|(Q1 & Q2 & _)]]; [auto|right; left; exists p, s, ptext, cells; auto|auto].
  - assert (X : c_opts (w_client w') = c_opts (w_client w)); [|rewrite X; auto]. apply (C62_not_asked_again bl ev st w (Err e) w'); [|exact E].
    unfold asks_end in A. destruct (o_strategy (c_opts (w_client w))); try (left; discriminate). destruct (o_file (c_opts (w_client w))); [discriminate A|right; discriminate].
Qed.
Print Assumptions C62_failed_attempt_partial.
(* the master status reports a position of 2^32: file name without position; the next attempt succeeds from position 0 *)
Theorem C62_half_coordinates_refuted : exists bl ev st cs cs2 w' ck w2 ps p,
  replicate bl ev st (World (client_new from_end) cs []) = (Err EParseInt, w') /\ c_opts (w_client w') <> from_end /\ o_file (c_opts (w_client w')) = tx "binlog.000007" /\
  o_pos (c_opts (w_client w')) = 0 /\
  replicate bl ev st (World (w_client w') cs2 []) = (Ok ck, w2) /\ sent (w_log w2) = ps ++ [(p, 0)] /\ srv_dump p = Some (0, 0, 42, utf8_encode (tx "binlog.000007")).
Proof.
  pose (w := start from_end ([mysql_hello; okp] ++ result_bodies (rset [[tx "binlog.000007"; tx "4294967296"]]))). pose (w1 := snd (replicate Release env0 st0 w)).
  pose (w2 := snd (replicate Release env0 st0 (World (w_client w1) (server ([mysql_hello; okp] ++ good_answers)) []))).
  exists Release, env0, st0, (w_in w), (server ([mysql_hello; okp] ++ good_answers)), w1, CkCrc32, w2, (removelast (sent (w_log w2))), (fst (last (sent (w_log w2)) ([], 9))).
  split; [vm_compute; reflexivity|]. split; [vm_compute; discriminate|]. repeat (split; [vm_compute; reflexivity|]). vm_compute; reflexivity.
Qed.
Print Assumptions C62_half_coordinates_refuted.
Example C62_example : asks (tx "show master status") (query_command (tx "show master status")) /\ o_file from_end = [] /\
  let '(r, w) := replicate Release env0 st0 (start from_end ([mysql_hello; okp] ++ status_answer ++ [errp 1193 (tx "no")])) in
  exists e, r = Err e /\ (o_file (c_opts (w_client w)), o_pos (c_opts (w_client w))) = (tx "binlog.000007", 9001).
Proof. vm_compute. repeat split. eexists. split; reflexivity. Qed.

(* ---- C63: what a server's lexer reads as the literal is the list's text, which parses back to the list ---- *)
Theorem C63_quoting : forall l, Forall mgtid_ok l -> NoDup (map mg_domain l) ->
  exists literal, connect_state_sql l = tx "SET @slave_connect_state=" ++ 39 :: literal /\ quoted literal = Some (gtid_list_text l, []) /\
    gtid_list_parse (gtid_list_text l) = Ok l.
Proof.
  intros l H1 H2. exists (gtid_list_text l ++ [39]). split; [reflexivity|]. split; [|now apply gtid_list_roundtrip].
  apply quoted_plain; [|discriminate]. eapply Forall_impl; [|apply gtid_list_chars]. cbn beta. lia.
Qed.
Print Assumptions C63_quoting.
Example C63_example : let l := [MGtid 0 1 100; MGtid 4 7 18446744073709551615] in
  (Forall mgtid_ok l /\ NoDup (map mg_domain l)) /\ connect_state_sql l = tx "SET @slave_connect_state='0-1-100,4-7-18446744073709551615'".
Proof. cbn zeta. split; [|vm_compute; reflexivity]. split; [repeat constructor|repeat constructor; cbn; intuition discriminate]. Qed.
(* the lexer is not fooled by quotes in a value *)
Example C63_example_lexer : quoted (tx "a'; drop table t; --'") = Some (tx "a", tx "; drop table t; --'") /\ quoted (tx "it''s\'' x") = Some (tx "it's'", tx " x").
Proof. vm_compute. split; reflexivity. Qed.

(* ---- C64, C73: the heartbeat statement ---- *)
Theorem C64_heartbeat : forall hb t, read_timeout hb = Ok t ->
  exists digits n, heartbeat_sql hb = tx "set @master_heartbeat_period=" ++ digits /\ (forall m, n < m -> parse_uint m digits = Ok n) /\
    n <= hb /\ hb < n + 1000000 /\ n + 10000000000 <= t.
Proof.
  intros hb t T. unfold read_timeout, nanos in T. destruct (_ <? _); [|discriminate]. assert (ET : t = hb + 10 * 1000000000) by congruence.
  exists (dec_text (heartbeat_period hb)), (heartbeat_period hb). split; [reflexivity|]. split; [intros m H; now apply parse_dec_text|].
  pose proof (heartbeat_period_bounds hb). lia.
Qed.
Print Assumptions C64_heartbeat.
Example C64_example : read_timeout 30000000000 = Ok 40000000000 /\ heartbeat_sql 1999999 = tx "set @master_heartbeat_period=1000000".
Proof. vm_compute. split; reflexivity. Qed.
(* the time-out exists exactly if its seconds fit into 64 bits, and is then ten seconds longer than the interval *)
Theorem C64_timeout : forall secs ns, ns < 1000000000 ->
  (secs + 10 < 18446744073709551616 -> read_timeout (secs * 1000000000 + ns) = Ok ((secs + 10) * 1000000000 + ns)) /\
  (18446744073709551616 <= secs + 10 -> read_timeout (secs * 1000000000 + ns) = Panic).
Proof.
  intros secs ns H. unfold read_timeout, nanos, u64max1. replace (secs * 1000000000 + ns + 10 * 1000000000) with (ns + (secs + 10) * 1000000000) by lia.
  rewrite N.div_add, (N.div_small ns) by lia. destruct (N.ltb_spec (0 + (secs + 10)) 18446744073709551616); split; intros X; try lia; [|reflexivity]. f_equal. lia.
Qed.
Print Assumptions C64_timeout.
Theorem C73_heartbeat_disabled_refuted : exists bl ev st w ck w' p, 0 < s_heartbeat st /\ replicate bl ev st w = (Ok ck, w') /\
  In (p, 0) (sent (w_log w')) /\ asks (tx "set @master_heartbeat_period=0") p.
Proof.
  pose (st := Settings Disabled (tx "repl") (tx "secret") None 42 true 999999). pose (w := start o_here ([mysql_hello; okp] ++ good_answers)).
  exists Release, env0, st, w, CkCrc32, (snd (replicate Release env0 st w)), (query_command (tx "set @master_heartbeat_period=0")).
  split; [reflexivity|]. split; [vm_compute; reflexivity|]. split; [|vm_compute; reflexivity].
  apply (nth_error_In _ 1). vm_compute. reflexivity.
Qed.
Print Assumptions C73_heartbeat_disabled_refuted.
Theorem C73_from_one_millisecond_partial : forall hb, 1000000 <= hb ->
  exists n, heartbeat_sql hb = tx "set @master_heartbeat_period=" ++ dec_text n /\ 0 < n <= hb.
Proof. intros hb H. exists (heartbeat_period hb). split; [reflexivity|]. pose proof (heartbeat_period_bounds hb). lia. Qed.
Print Assumptions C73_from_one_millisecond_partial.
(* exactly: the period is the interval rounded down to milliseconds, in nanoseconds; it is 0 iff the interval is shorter than that *)
Theorem C73_period_iff : forall hb, exists n, heartbeat_sql hb = tx "set @master_heartbeat_period=" ++ dec_text n /\
  (exists ms, n = ms * 1000000) /\ n <= hb < n + 1000000 /\ (n = 0 <-> hb < 1000000).
Proof.
  intros hb. exists (heartbeat_period hb). split; [reflexivity|]. unfold heartbeat_period. split; [exists (hb / 1000000); lia|].
  pose proof (heartbeat_period_bounds hb) as B. unfold heartbeat_period in B. split; [lia|]. split; lia.
Qed.
Print Assumptions C73_period_iff.
Example C73_example : heartbeat_sql 1000000 = tx "set @master_heartbeat_period=1000000". Proof. vm_compute. reflexivity. Qed.

(* ---- C65 ---- *)
Theorem C65_rows_partial : forall rs rows w ps ps' t rest, result_ok rs -> rs_rows rs = map (map Some) rows -> map fst ps = result_bodies rs ->
  pending (w_in w) (ps ++ ps') t rest ->
  exists w', read_result_set w = (Ok rows, w') /\ w_client w' = w_client w /\ w_log w' = w_log w ++ map got ps /\ pending (w_in w') ps' t rest.
Proof.
  intros rs rows w ps ps' t rest H1 H2 H3 P. destruct (read_result_set_ok rs rows w ps ps' t rest H1 H2 H3 P) as (cs & E & P'). eexists. split; [exact E|]. auto.
Qed.
Print Assumptions C65_rows_partial.
(* a NULL cell *)
Theorem C65_null_cell_refuted : exists rs w r w', result_ok rs /\ pending (w_in w) (number (result_bodies rs)) [] [] /\ rs_rows rs = [[Some (tx "a"); None]] /\
  read_result_set w = (r, w') /\ exists e, r = Err e.
Proof.
  pose (rs := ResultSet [n2b 2] [utf8_encode (tx "x"); utf8_encode (tx "y")] [] [[Some (tx "a"); None]] []). pose (w := start o_here (result_bodies rs)).
  exists rs, w. eexists. eexists. split; [|split; [|split; [reflexivity|split; [vm_compute; reflexivity|eexists; reflexivity]]]].
  - split; [eexists; eexists; split; [reflexivity|vm_compute; discriminate]|]. split.
    + repeat constructor; (eexists; eexists; split; [vm_compute; reflexivity|vm_compute; discriminate]).
    + repeat constructor; try discriminate.
  - exists (server (result_bodies rs)). split; [reflexivity|]. split; [|split].
    + repeat constructor; vm_compute; discriminate.
    + vm_compute. reflexivity.
    + repeat constructor; vm_compute; reflexivity.
Qed.
Print Assumptions C65_null_cell_refuted.
(* what happens instead, for every result set: reading stops with the same error after the first row that has a NULL cell;
   the packets behind that row stay unread *)
Theorem C65_null_exact : forall rs rows row more w ps ps' t rest, result_ok rs ->
  rs_rows rs = map (map Some) rows ++ row :: more -> In None row ->
  map fst ps = [rs_count rs] ++ rs_columns rs ++ [n2b 0xFE :: rs_eof rs] ++ map row_bytes (map (map Some) rows) ++ [row_bytes row] ->
  pending (w_in w) (ps ++ ps') t rest ->
  exists w', read_result_set w = (Err (EString (tx "Length encoded integer cannot be NULL.")), w') /\
    w_client w' = w_client w /\ w_log w' = w_log w ++ map got ps /\ pending (w_in w') ps' t rest.
Proof.
  intros rs rows row more w ps ps' t rest H1 H2 H3 H4 P. destruct (read_result_set_null rs rows row more w ps ps' t rest H1 H2 H3 H4 P) as (cs & E & P').
  eexists. split; [exact E|]. auto.
Qed.
Print Assumptions C65_null_exact.
Example C65_null_example : let rs := ResultSet [n2b 2] [utf8_encode (tx "x"); utf8_encode (tx "y")] [] [map Some [tx "a"; tx "b"]; [Some (tx "c"); None]; map Some [tx "d"; tx "e"]] [] in
  let r := read_result_set (start o_here (result_bodies rs ++ [okp])) in
  fst r = Err (EString (tx "Length encoded integer cannot be NULL.")) /\ length (w_log (snd r)) = 6%nat /\ length (result_bodies rs) = 8%nat.
Proof. vm_compute. auto. Qed.
Example C65_example : let rs := rset [[tx "binlog.000007"; tx "9001"; tx ""]; [tx "x"; tx "0"; tx "y"]] in
  fst (read_result_set (start o_here (result_bodies rs ++ [okp]))) = Ok [[tx "binlog.000007"; tx "9001"; tx ""]; [tx "x"; tx "0"; tx "y"]].
Proof. vm_compute. reflexivity. Qed.

(* ---- C71: answers and their commands ---- *)
(* Fast authentication (0x01 0x03): the OK packet the server sends after it stays unread. The server then answers the
   heartbeat statement with an error; the client takes it for the answer to the next statement, which it has sent. *)
Theorem C71_fast_authentication_refuted : exists bl ev st w w' code msg, w_log w = [] /\
  in_bytes (w_in w) = flat_map wire (number [caching_hello; [n2b 1; n2b 3]; okp; errp code msg]) /\
  replicate bl ev st w = (Err (EServer (tx "Setting master_binlog_checksum error.") code msg (Some (tx "HY000"))), w') /\
  exists p1 p2 l, sent (w_log w') = l ++ [(p1, 0); (p2, 0)] /\ asks_heartbeat (s_heartbeat st) p1 /\
    asks (tx "SET @master_binlog_checksum= @@global.binlog_checksum") p2.
Proof.
  pose (w := start o_here [caching_hello; [n2b 1; n2b 3]; okp; errp 1193 (tx "Unknown system variable")]).
  exists Release, env0, st0, w, (snd (replicate Release env0 st0 w)), 1193, (tx "Unknown system variable").
  split; [reflexivity|]. split; [vm_compute; reflexivity|]. split; [vm_compute; reflexivity|].
  exists (query_command (heartbeat_sql 30000000000)), (query_command (tx "SET @master_binlog_checksum= @@global.binlog_checksum")), (firstn 1 (sent (w_log (snd (replicate Release env0 st0 w))))).
  split; [vm_compute; reflexivity|]. split; [|vm_compute; reflexivity]. exists 30000000000. split; [vm_compute; reflexivity|]. split; [cbn; lia|reflexivity].
Qed.
Print Assumptions C71_fast_authentication_refuted.
(* an error in answer to the master status statement is not reported at all *)
Theorem C71_error_unreported_refuted : exists bl ev st cs w' code msg,
  in_bytes cs = flat_map wire (number [caching_hello; [n2b 1; n2b 3]; okp; errp code msg]) /\
  replicate bl ev st (World (client_new from_end) cs []) = (Err (EIo UnexpectedEof), w') /\ exists p l, sent (w_log w') = l ++ [(p, 0)] /\ asks (tx "show master status") p.
Proof.
  pose (w := start from_end [caching_hello; [n2b 1; n2b 3]; okp; errp 1227 (tx "Access denied")]).
  exists Release, env0, st0, (w_in w), (snd (replicate Release env0 st0 w)), 1227, (tx "Access denied").
  split; [vm_compute; reflexivity|]. split; [vm_compute; reflexivity|].
  exists (query_command (tx "show master status")), (firstn 1 (sent (w_log (snd (replicate Release env0 st0 w))))). split; vm_compute; reflexivity.
Qed.
Print Assumptions C71_error_unreported_refuted.
(* accepted by an OK packet at once: the login leaves nothing unread but the answers to the commands (read one by one: C61_completes) *)
Theorem C71_plain_login_partial : forall bl ev st h p s ok ps w t rest,
  hashes ev -> names_fit st -> s_ssl st = Disabled -> hello_for h p -> s < 255 -> starts_byte 0 (fst ok) ->
  pending (w_in w) ((hello_bytes h, s) :: ok :: ps) t rest ->
  exists w' login, connect bl ev st w = (Ok (provider_from (he_version h)), w') /\ pending (w_in w') ps t rest /\
    w_log w' = w_log w ++ [got (hello_bytes h, s); Sent login (s + 1); got ok].
Proof.
  intros bl ev st h p s ok ps w t rest HH NF SSL HF S OK P. destruct (login_exists ev st h p HH) as (login & LG).
  destruct (does_connect_ok bl ev st h p s login ok w ps t rest HH NF SSL HF S OK LG P) as (cs & E & P'). eexists. exists login. split; [exact E|]. auto.
Qed.
Print Assumptions C71_plain_login_partial.
(* After fast authentication every answer is read one command late, until a result set is read: its column count is then skipped like a column
   definition.  So a server that accepts everything is not misunderstood: the same checksum and position, and nothing is left unread. *)
Definition count_at (o : options) : nat := match o_strategy o, o_file o with FromEnd, [] => 0 | _, _ => 2 end.
Lemma result_shift (q : packet) sums rs : not_byte 0xFF (fst q) -> result_ok rs -> not_byte 0xFE (rs_count rs) -> map fst sums = result_bodies rs ->
  exists rs', result_ok rs' /\ map fst (q :: sums) = result_bodies rs' /\ rs_rows rs' = rs_rows rs.
Proof.
  intros Q (R1 & R2 & R3) C M. exists (ResultSet (fst q) (rs_count rs :: rs_columns rs) (rs_eof rs) (rs_rows rs) (rs_end rs)). split; [|split; [|reflexivity]].
  - split; [exact Q|]. split; [|exact R3]. cbn [rs_columns]. now apply Forall_cons.
  - cbn [map]. rewrite M. reflexivity.
Qed.
Lemma accepts_shift pr o0 ps o ck (q : packet) : accepts pr o0 ps o ck -> not_byte 0xFF (fst q) ->
  (forall p, nth_error ps (count_at o0) = Some p -> not_byte 0xFE (fst p)) -> accepts pr o0 (q :: ps) o ck.
Proof.
  intros (status & a1 & a2 & sums & more & rs & -> & HS & N1 & N2 & RO & RB & RR & NM & LM) Q C. unfold count_at in C.
  assert (K : match o_strategy o0, o_file o0 with FromEnd, [] => True | _, _ => False end \/
              match o_strategy o0, o_file o0 with FromEnd, [] => False | _, _ => True end).
  { destruct (o_strategy o0), (o_file o0); auto. }
  destruct K as [K|K].
  - destruct (o_strategy o0) eqn:S; try contradiction. destruct (o_file o0) eqn:F; [|contradiction].
    destruct HS as (s & file & pos & cells & H1 & H2 & H3 & H4 & H5).
    destruct status as [|c status]; [discriminate H2|]. specialize (C c eq_refl).
    destruct (result_shift q (c :: status) s Q H1) as (s' & S1 & S2 & S3); [|exact H2|].
    { assert (X : fst c = rs_count s) by (cbn [map] in H2; unfold result_bodies in H2; cbn [app] in H2; congruence). now rewrite <- X. }
    exists (q :: c :: status), a1, a2, sums, more, rs. split; [reflexivity|]. rewrite S, F. split; [|auto 10]. exists s', file, pos, cells. rewrite S3. auto 10.
  - assert (HO : status = [] /\ o = o0) by (destruct (o_strategy o0), (o_file o0); try contradiction; exact HS). destruct HO as [-> ->].
    destruct sums as [|c sums]; [discriminate RB|].
    assert (C' : not_byte 0xFE (fst c)) by (apply C; destruct (o_strategy o0), (o_file o0); try contradiction; reflexivity).
    destruct (result_shift a2 (c :: sums) rs N2 RO) as (r' & R1 & R2 & R3); [|exact RB|].
    { assert (X : fst c = rs_count rs) by (cbn [map] in RB; unfold result_bodies in RB; cbn [app] in RB; congruence). now rewrite <- X. }
    exists [], q, a1, (a2 :: c :: sums), more, r'. split; [reflexivity|]. rewrite R3.
    split; [destruct (o_strategy o0), (o_file o0); try contradiction; auto|]. auto 10.
Qed.
Lemma does_sha_fast bl ev st n scramble sq w qs t rest : pending (w_in w) qs t rest ->
  does (authenticate_sha_256 bl ev st (n2b 1 :: n2b 3 :: n) scramble sq false) w qs t rest tt [].
Proof.
  intros P. unfold authenticate_sha_256.
  apply (does_bind0 _ _ _ qs _ _ _ 1); [apply does_lift; [now apply byte_at_head|exact P]|]. intros c1 P1. change (1 =? 1) with true. cbv iota.
  apply (does_bind0 _ _ _ qs _ _ _ true).
  { apply (does_bind0 _ _ _ qs _ _ _ 3); [apply does_lift; [reflexivity|exact P1]|]. intros c2 P2. now apply does_ret. }
  intros c2 P2. now apply does_ret.
Qed.
Lemma does_connect_fast bl ev st h s login n s1 w qs t rest :
  hashes ev -> names_fit st -> s_ssl st = Disabled -> hello_for h CachingSha2 -> s < 255 -> s1 < 255 ->
  authenticate_command (e_crypto ev) (s_user st) (s_password st) (s_database st) (he_scramble h) CachingSha2 caching_name 45 = Ok login ->
  pending (w_in w) ((hello_bytes h, s) :: (n2b 1 :: n2b 3 :: n, s1) :: qs) t rest ->
  does (connect bl ev st) w qs t rest (provider_from (he_version h)) [got (hello_bytes h, s); Sent login (s + 1); got (n2b 1 :: n2b 3 :: n, s1)].
Proof.
  intros HH NF SSL HF S S1 B P.
  apply (does_connect bl ev st h CachingSha2 s login (n2b 1 :: n2b 3 :: n, s1) w qs qs t rest []); auto.
  - eexists; eexists; split; [reflexivity|]. rewrite b2n_n2b; lia.
  - intros w' P'. cbn [fst snd skipn].
    apply (does_bind0 _ _ _ qs _ _ _ 1); [apply does_lift; [now apply byte_at_head|exact P']|]. intros c1 P1.
    change (1 =? resp_ok) with false. change (1 =? resp_switch) with false. cbv iota.
    apply (does_bind0 _ _ _ qs _ _ _ (s1 + 1)); [apply does_lift; [apply uadd_ok; lia|exact P1]|]. intros c2 P2. now apply does_sha_fast.
Qed.
Theorem C71_fast_login_realigns : forall bl ev st h s n s1 ok ps o ck w t rest,
  hashes ev -> names_fit st -> s_ssl st = Disabled -> hello_for h CachingSha2 -> s < 255 -> s1 < 255 -> starts_byte 0 (fst ok) ->
  let pr := provider_from (he_version h) in let o0 := c_opts (w_client w) in
  accepts pr o0 ps o ck -> (forall p, nth_error ps (count_at o0) = Some p -> not_byte 0xFE (fst p)) -> request_fits ev st o -> fits_packets pr st o ->
  pending (w_in w) ((hello_bytes h, s) :: (n2b 1 :: n2b 3 :: n, s1) :: ok :: ps) t rest ->
  exists w', replicate bl ev st w = (Ok ck, w') /\ pending (w_in w') [] t rest /\ w_client w' = Client o false None None.
Proof.
  intros bl ev st h s n s1 ok ps o ck w t rest HH NF SSL HF S S1 OK pr o0 A C R (Z1 & Z2 & Z3) P. destruct (login_exists ev st h CachingSha2 HH) as (login & LG).
  destruct (does_connect_fast bl ev st h s login n s1 w (ok :: ps) t rest HH NF SSL HF S S1 LG P) as (c1 & E1 & P1).
  assert (A' : accepts pr o0 (ok :: ps) o ck).
  { apply accepts_shift; auto. destruct OK as [d OK]. exists (n2b 0), d. split; [exact OK|]. rewrite b2n_n2b; lia. }
  rewrite <- (app_nil_r (ok :: ps)) in P1.
  destruct (set_up_completes bl ev st pr o0 o ck (World (w_client w) c1 (w_log w ++ [got (hello_bytes h, s); Sent login (s + 1); got (n2b 1 :: n2b 3 :: n, s1)])) (ok :: ps) [] t rest) as (c2 & l & E2 & P2); auto.
  - now apply fits_ok.
  - split; [exact Z1|]. split; [exact Z2|]. intros G. specialize (Z3 G). destruct pr; [exact Z3|]. destruct Z3 as (x & X1 & X2). exists x. split; [exact X1|].
    destruct R as (_ & _ & R). destruct (R x G X1) as (K1 & K2 & K3 & _). now rewrite set_bytes.
  - eexists. split; [rewrite replicate_eq, (abind_ok _ _ _ _ _ E1); exact E2|]. cbn [w_in w_client]. auto.
Qed.
Print Assumptions C71_fast_login_realigns.
(* An error in answer to the heartbeat statement is reported with the message of the statement after it; in answer to the master status it is taken for a
   column definition and is never reported: the client waits for more until the read times out. *)
Theorem C71_fast_login_late_error : forall bl ev st h s n s1 ok code state msg q w t rest,
  hashes ev -> names_fit st -> s_ssl st = Disabled -> hello_for h CachingSha2 -> s < 255 -> s1 < 255 -> starts_byte 0 (fst ok) ->
  s_heartbeat st < 2 ^ 100 -> error_ok code state msg -> count_at (c_opts (w_client w)) = 2%nat ->
  pending (w_in w) [(hello_bytes h, s); (n2b 1 :: n2b 3 :: n, s1); ok; (n2b 0xFF :: error_body code state msg, q)] t rest ->
  fst (replicate bl ev st w) = Err (EServer (tx "Setting master_binlog_checksum error.") code msg state).
Proof.
  intros bl ev st h s n s1 ok code state msg q w t rest HH NF SSL HF S S1 OK HB EO CA P. destruct (login_exists ev st h CachingSha2 HH) as (login & LG).
  destruct (does_connect_fast bl ev st h s login n s1 w _ t rest HH NF SSL HF S S1 LG P) as (c1 & E1 & P1).
  rewrite replicate_eq, (abind_ok _ _ _ _ _ E1). unfold set_up. unfold abind at 1, a_client. unfold abind at 1, a_set_client. cbn [w_client w_in w_log].
  set (w0 := World (client_reset (w_client w)) c1 _).
  destruct (adjust_starting_position w0) as [r w'] eqn:E. destruct (adjust_none w0 r w') as [-> ->]; [|exact E|].
  { unfold w0, asks_end. cbn [w_client client_reset c_opts]. unfold count_at in CA. destruct (o_strategy (c_opts (w_client w))), (o_file (c_opts (w_client w))); try reflexivity. discriminate CA. }
  rewrite (abind_ok _ _ _ _ _ E).
  destruct (does_statement w0 (heartbeat_sql (s_heartbeat st)) (tx "Setting master heartbeat error.") ok [(n2b 0xFF :: error_body code state msg, q)] t rest) as (c2 & E2 & P2).
  { pose proof (heartbeat_sql_length _ HB). lia. }
  { destruct OK as [d OK]. exists (n2b 0), d. split; [exact OK|]. rewrite b2n_n2b; lia. }
  { exact P1. }
  unfold set_master_heartbeat. rewrite (abind_ok _ _ _ _ _ E2). unfold set_master_binlog_checksum, statement.
  set (w2 := World _ c2 _) in *.
  assert (W : a_write (query_command (tx "SET @master_binlog_checksum= @@global.binlog_checksum")) 0 w2 =
    (Ok tt, World (w_client w2) (w_in w2) (w_log w2 ++ [Sent (query_command (tx "SET @master_binlog_checksum= @@global.binlog_checksum")) 0]))) by (apply a_write_ok; reflexivity).
  set (w3 := World (w_client w2) (w_in w2) _) in W. destruct (a_read_ok w3 _ _ _ _ P2) as (c4 & R & _).
  unfold abind at 1. unfold abind at 1. unfold abind at 1. rewrite W. unfold abind at 1. rewrite R. unfold alift at 1. cbn [fst].
  rewrite check_error_ok by exact EO. reflexivity.
Qed.
Print Assumptions C71_fast_login_late_error.
Theorem C71_fast_login_lost_error : forall bl ev st h s n s1 ok e w rest,
  hashes ev -> names_fit st -> s_ssl st = Disabled -> hello_for h CachingSha2 -> s < 255 -> s1 < 255 -> starts_byte 0 (fst ok) ->
  starts_byte 0xFF (fst e) -> count_at (c_opts (w_client w)) = 0%nat ->
  pending (w_in w) [(hello_bytes h, s); (n2b 1 :: n2b 3 :: n, s1); ok; e] [] (Stall :: rest) ->
  exists w', replicate bl ev st w = (Err (EIo TimedOut), w') /\ c_opts (w_client w') = c_opts (w_client w) /\ w_in w' = rest.
Proof.
  intros bl ev st h s n s1 ok e w rest HH NF SSL HF S S1 OK [d ER] CA P. destruct (login_exists ev st h CachingSha2 HH) as (login & LG).
  destruct (does_connect_fast bl ev st h s login n s1 w _ [] (Stall :: rest) HH NF SSL HF S S1 LG P) as (c1 & E1 & P1).
  rewrite replicate_eq, (abind_ok _ _ _ _ _ E1). unfold set_up. unfold abind at 1, a_client. unfold abind at 1, a_set_client. cbn [w_client w_in w_log].
  set (w0 := World (client_reset (w_client w)) c1 _).
  assert (SE : o_strategy (c_opts (w_client w)) = FromEnd /\ o_file (c_opts (w_client w)) = []).
  { unfold count_at in CA. destruct (o_strategy (c_opts (w_client w))), (o_file (c_opts (w_client w))); try discriminate CA. auto. }
  destruct SE as [SE FI].
  destruct (does_write w0 (query_command (tx "show master status")) 0 [ok; e] [] (Stall :: rest)) as (c2 & E2 & P2); [reflexivity|exact P1|].
  set (w2 := World (w_client w0) c2 _) in E2. destruct (a_read_ok w2 _ _ _ _ P2) as (c3 & E3 & P3). set (w3 := World (w_client w2) c3 _) in E3.
  destruct (a_read_ok w3 _ _ _ _ P3) as (c4 & E4 & P4). set (w4 := World (w_client w3) c4 _) in E4.
  destruct P4 as (c & C1 & C2 & C3 & _). cbn [flat_map app] in C3.
  assert (E5 : a_read w4 = (Err (EIo TimedOut), World (w_client w4) rest (w_log w4))).
  { unfold a_read. cbn [w4 w_in]. rewrite C1, (read_packet_trouble _ Stall TimedOut) by (assumption || reflexivity). reflexivity. }
  assert (SK : forall f, (2 <= f)%nat -> skip_columns f w3 = (Err (EIo TimedOut), World (w_client w4) rest (w_log w4))).
  { intros [|[|f]] Hf; [lia|lia|]. cbn [skip_columns]. rewrite (abind_ok _ _ _ _ _ E4), ER, byte_at_head by lia. rewrite alift_ok.
    change (255 =? resp_eof) with false. cbv iota. unfold abind. rewrite E5. reflexivity. }
  assert (RS : read_result_set w2 = (Err (EIo TimedOut), World (w_client w4) rest (w_log w4))).
  { unfold read_result_set. rewrite (abind_ok _ _ _ _ _ E3).
    rewrite check_pass by (destruct OK as [d' OK]; exists (n2b 0), d'; split; [exact OK|]; rewrite b2n_n2b; lia). rewrite alift_ok.
    unfold abind. rewrite SK; [reflexivity|]. cbn [w3 w_in]. pose proof (pending_size _ _ _ _ P3). cbn [length] in *. lia. }
  assert (AD : adjust_starting_position w0 = (Err (EIo TimedOut), World (w_client w4) rest (w_log w4))).
  { unfold adjust_starting_position. unfold abind at 1, a_client. change (c_opts (w_client w0)) with (c_opts (w_client w)). rewrite SE, FI. cbn [strategy_eqb negb].
    rewrite (abind_ok _ _ _ _ _ E2). unfold abind. rewrite RS. reflexivity. }
  unfold abind. rewrite AD. eexists. split; [reflexivity|]. split; reflexivity.
Qed.
Print Assumptions C71_fast_login_lost_error.
(* fast authentication, then answers of a MySQL server from the end of the log, and of a MariaDB server from a position *)
Example C71_example_end : let '(r, w) := replicate Release env0 st0 (start from_end ([caching_hello; [n2b 1; n2b 3]; okp] ++ status_answer ++ good_answers)) in
  r = Ok CkCrc32 /\ in_bytes (w_in w) = [] /\ (o_file (c_opts (w_client w)), o_pos (c_opts (w_client w))) = (tx "binlog.000007", 9001).
Proof. vm_compute. repeat split. Qed.
Example C71_example_position : let '(r, w) := replicate Release env0 st0 (start o_here ([hello_bytes (hello_of (tx "10.6-MariaDB") caching_name); [n2b 1; n2b 3]; okp] ++ good_answers ++ [okp])) in
  r = Ok CkCrc32 /\ in_bytes (w_in w) = [].
Proof. vm_compute. repeat split. Qed.

(* ---- C72: responses that make replicate() panic ---- *)
Definition panics (st : settings) (o : options) (ps : list (list byte)) : Prop := fst (replicate Release env0 st (start o ps)) = Panic.
Theorem C72_panics_refuted :
  panics st0 o_here [[]] /\                                                                        (* an empty packet *)
  panics st0 o_here ([mysql_hello; okp; okp; okp] ++ result_bodies (rset [])) /\                    (* no checksum row *)
  panics st0 from_end ([mysql_hello; okp] ++ result_bodies (rset [[tx "binlog.000007"]])) /\        (* a master status of one column *)
  panics st0 o_here [caching_hello; [n2b 1]] /\                                                    (* a truncated authentication answer *)
  panics (Settings IfAvailable (tx "repl") (tx "secret") None 42 true 30000000000) o_here           (* a server with SSL *)
    [hello_bytes (Hello 10 (tx "8.0.30") 7 (tx "abcdefgh") (557568 + 2048) 45 2 21 (repeat 0 6) 0 (tx "ijklmnopqrst") native_name)].
Proof. repeat split; vm_compute; reflexivity. Qed.
Print Assumptions C72_panics_refuted.
(* seven more; the sequence number is increased in five places, one of them on the SSL path that panics anyway *)
Definition bare_hello : list byte := hello_bytes (Hello 10 (tx "8.0.30") 7 [] 557568 45 2 21 (repeat 0 6) 0 [] caching_name).
Theorem C72_more_panics_refuted :
  fst (replicate Debug env0 st0 (World (client_new o_here) [Got (flat_map wire [(mysql_hello, 255)])] [])) = Panic /\   (* the last sequence number, debug build *)
  fst (replicate Debug env0 st0 (World (client_new o_here) [Got (flat_map wire [(caching_hello, 0); ([n2b 1; n2b 4], 255)])] [])) = Panic /\            (* the same on the answer to the login *)
  fst (replicate Debug env0 st0 (World (client_new o_here) [Got (flat_map wire [(caching_hello, 0); (n2b 0xFE :: utf8_encode native_name ++ [n2b 0] ++ tx_bytes "abcdefghijklmnopqrst" ++ [n2b 0], 255)])] [])) = Panic /\   (* on a plugin switch *)
  fst (replicate Debug env0 st0 (World (client_new o_here) [Got (flat_map wire [(mysql_hello, 0); (n2b 0xFE :: utf8_encode caching_name ++ [n2b 0] ++ tx_bytes "abcdefghijklmnopqrst" ++ [n2b 0], 2); ([n2b 1; n2b 3], 255)])] [])) = Panic /\   (* after it *)
  fst (replicate Debug env0 st0 (World (client_new o_here) [Got (flat_map wire [(caching_hello, 0); ([n2b 1; n2b 4], 2); (n2b 1 :: tx_bytes "key", 255)])] [])) = Panic /\   (* on the public key *)
  panics st0 o_here [bare_hello; [n2b 1; n2b 4]; n2b 1 :: tx_bytes "key"] /\                                             (* an empty scramble *)
  panics st0 o_here ([mysql_hello; okp; okp; okp; [n2b 1]; n2b 0xFE :: okp] ++ [n2b 5 :: tx_bytes "CRC32" ++ n2b 0xFE :: repeat (n2b 0xFF) 8]). (* a cell longer than memory *)
Proof. repeat split; vm_compute; reflexivity. Qed.
Print Assumptions C72_more_panics_refuted.
(* Beyond these causes (spec/PanicSpec: cause) it does not panic.  Conditions on what the caller passes: names and GTID sets that fit into
   packets, canonical sets; on OpenSSL's encryption: an error at worst, and a result that fits into a packet. *)
Definition caller_fits (ev : env) (st : settings) (o : options) : Prop :=
  names_fit st /\ s_heartbeat st < 2 ^ 100 /\ N.of_nat (length (utf8_encode (o_file o))) < 1000000 /\
  (o_strategy o = FromGtid -> forall l, o_list o = Some l -> N.of_nat (length (gtid_list_text l)) < 10000000) /\
  (o_strategy o = FromGtid -> forall s, o_set o = Some s ->
    set_ok s /\ set_canonical s /\ (forall d, ~ set_has s d 0) /\ Permutation s (e_order ev s) /\ N.of_nat (set_size s) < 10000000).
Theorem C72_causes_partial : forall bl ev st w w', hashes ev ->
  (forall k m, rsa (e_crypto ev) k m <> Panic /\ forall e, rsa (e_crypto ev) k m = Ok e -> N.of_nat (length e) < 16777216) ->
  caller_fits ev st (c_opts (w_client w)) -> replicate bl ev st w = (Panic, w') -> cause bl st (w_log w').
Proof.
  intros bl ev st w w' HH RS (NF & HB & F1 & F2 & F3) E. pose proof (replicate_fine bl st ev HH NF RS HB w) as K. unfold fine in K. rewrite E in K. apply K; [|reflexivity].
  split; [lia|]. split; [exact F2|]. intros G s S. destruct (F3 G s S) as (K1 & K2 & K3 & K4 & K5). rewrite set_bytes by assumption. auto 10.
Qed.
Print Assumptions C72_causes_partial.
(* the status row of one column: the run meets the conditions, and the cause is the one found *)
Example C72_example : caller_fits env0 st0 from_end /\ exists w', replicate Release env0 st0 (start from_end ([mysql_hello; okp] ++ result_bodies (rset [[tx "binlog.000007"]]))) = (Panic, w') /\
  exists row e, answer_ends (tx "show master status") row e (w_log w') /\ one_cell (fst row).
Proof.
  split.
  - split; [split; [reflexivity|discriminate]|]. split; [reflexivity|]. split; [reflexivity|]. split; discriminate.
  - eexists. split; [vm_compute; reflexivity|]. exists (row_bytes [Some (tx "binlog.000007")], 0), (n2b 0xFE :: [n2b 0; n2b 0; n2b 2; n2b 0], 0). split.
    + match goal with |- answer_ends _ _ _ (w_log ?w) => exists (firstn 3 (w_log w)), (query_command (tx "show master status")), (number [[n2b 1]; utf8_encode (tx "column"); n2b 0xFE :: [n2b 0; n2b 0; n2b 2; n2b 0]]) end.
      split; [vm_compute; reflexivity|apply asks_query].
    + exists 13, [n2b 13], (utf8_encode (tx "binlog.000007")). split; [reflexivity|]. split; [constructor; lia|reflexivity].
Qed.

(* ---- C75 ---- *)
Lemma starts_with_iff p : forall t, starts_with p t = true <-> exists b, t = p ++ b.
Proof.
  induction p as [|x p IH]; intros t; cbn [starts_with app]; [split; eauto|].
  destruct t as [|y t]; [split; [discriminate|intros [b E]; discriminate]|].
  rewrite Bool.andb_true_iff, N.eqb_eq, IH. split.
  - intros [-> [b ->]]. eauto.
  - intros [b E]. injection E as -> ->. eauto.
Qed.
Lemma contains_iff p : forall t, contains p t = true <-> exists a b, t = a ++ p ++ b.
Proof.
  induction t as [|y t IH]; cbn [contains]; rewrite Bool.orb_true_iff, starts_with_iff.
  - split; [intros [[b E]|E]; [exists [], b; exact E|discriminate]|]. intros (a & b & E). destruct a; [|discriminate]. left. eauto.
  - rewrite IH. split.
    + intros [[b E]|(a & b & ->)]; [exists [], b; exact E|exists (y :: a), b; reflexivity].
    + intros ([|z a] & b & E); [left; eauto|right]. cbn [app] in E. injection E as _ ->. eauto.
Qed.
Theorem C75_flavour : forall v, provider_from v = MariaDB <-> exists a b, v = a ++ tx "MariaDB" ++ b.
Proof. intros v. rewrite <- contains_iff. unfold provider_from. destruct (contains _ v); split; congruence. Qed.
Print Assumptions C75_flavour.
(* the flavour that decides about all further commands (C61) is read from the greeting *)
Theorem C75_from_greeting : forall bl ev st h post s ps t rest w pr w', hello_ok h ->
  pending (w_in w) ((hello_bytes h ++ post, s) :: ps) t rest -> connect bl ev st w = (Ok pr, w') ->
  (pr = MariaDB <-> exists a b, he_version h = a ++ tx "MariaDB" ++ b) /\ (pr = MySQL <-> ~ exists a b, he_version h = a ++ tx "MariaDB" ++ b).
Proof.
  intros bl ev st h post s ps t rest w pr w' H P E.
  assert (pr = provider_from (he_version h)) as ->.
  { destruct (a_read_ok w _ _ _ _ P) as (cs & R & _). unfold connect in E. rewrite (abind_ok _ _ _ _ _ R) in E. cbn [fst snd] in E.
    unfold abind at 1, alift in E. destruct (check_error_packet _ _) as [?|?| |]; try discriminate E.
    unfold abind at 1 in E. rewrite (handshake_ok h post H) in E. cbv iota in E.
    unfold abind at 1 in E. destruct (get_auth_plugin _) as [?|?| |]; try discriminate E.
    unfold abind at 1 in E. destruct (uadd _ _ _ _) as [?|?| |]; try discriminate E.
    unfold abind in E. destruct (authenticate _ _ _ _ _ _ _) as [[?|?| |] ?]; try discriminate E. unfold aret in E. cbn [hs_version] in E. congruence. }
  rewrite <- C75_flavour. split; [reflexivity|]. destruct (provider_from (he_version h)); split; congruence.
Qed.
Print Assumptions C75_from_greeting.
Example C75_example : provider_from (tx "5.5.5-10.6.12-MariaDB-log") = MariaDB /\ provider_from (tx "8.0.34-maria") = MySQL /\
  fst (connect Release env0 st0 (start o_here [mysql_hello; okp])) = Ok MySQL /\ fst (connect Release env0 st0 (start o_here [maria_hello; okp])) = Ok MariaDB.
Proof. vm_compute. repeat split. Qed.

(* ---- C81: where replication starts, for each way of constructing the options (binlog_options.rs:33-85) ---- *)
Lemma keeps_options bl ev st w ck w' o : c_opts (w_client w) = o -> strategy_eqb (o_strategy o) FromEnd = false -> replicate bl ev st w = (Ok ck, w') -> c_opts (w_client w') = o.
Proof. intros O S E. rewrite (C62_not_asked_again bl ev st w (Ok ck) w'); [exact O| |exact E]. left. rewrite O. intros X. rewrite X in S. discriminate S. Qed.
Lemma last_request : forall bl ev st w ck w' (Q : provider -> list byte -> Prop), w_log w = [] -> request_fits ev st (c_opts (w_client w)) -> replicate bl ev st w = (Ok ck, w') ->
  (forall pr, exists l P, plan pr st (c_opts (w_client w)) (c_opts (w_client w')) = l ++ [P] /\ forall p, P p -> Q pr p) ->
  exists pr w1 ps p, connect bl ev st w = (Ok pr, w1) /\ sent (w_log w') = ps ++ [(p, 0)] /\ Q pr p.
Proof.
  intros bl ev st w ck w' Q L F E H. destruct (C61_plan bl ev st w (Ok ck) w' L F E) as (login & rest & LL & _ & C).
  destruct (connect bl ev st w) as [[pr|x| |] w1]; try (destruct C as (_ & _ & C); exfalso; now apply (C ck)).
  destruct C as (_ & (d & lf & E1 & F2) & Len). specialize (Len ck eq_refl). destruct (H pr) as (l & P & E2 & HP).
  assert (lf = []) as ->. { pose proof (Forall2_len _ _ _ F2) as X. rewrite E1, app_length in Len. destruct lf; [reflexivity|cbn [length] in Len; lia]. }
  rewrite app_nil_r in E1. rewrite <- E1, E2 in F2. apply Forall2_app_inv_r in F2. destruct F2 as (a & b & _ & F2 & E3).
  inversion F2 as [|[p n] P' b' l' [X1 X2] F3]; subst. inversion F3; subst. cbn [fst snd] in X1, X2. subst n.
  exists pr, w1, (sent login ++ a), p. split; [reflexivity|]. split; [|now apply HP]. rewrite LL. unfold sent in *. rewrite flat_map_app, E3. now rewrite app_assoc.
Qed.
Definition dump_id (st : settings) : N := if s_blocking st then s_server_id st else 0.
(* from the first event of the first file *)
Theorem C81_from_start : forall bl ev st w ck w', w_log w = [] -> c_opts (w_client w) = from_start -> request_fits ev st from_start ->
  replicate bl ev st w = (Ok ck, w') -> exists ps p, sent (w_log w') = ps ++ [(p, 0)] /\ srv_dump p = Some (4, 0, dump_id st, []).
Proof.
  intros bl ev st w ck w' L O F E. pose proof (keeps_options bl ev st w ck w' _ O eq_refl E) as K.
  destruct (last_request bl ev st w ck w' (fun _ p => srv_dump p = Some (4, 0, dump_id st, [])) L) as (pr & w1 & ps & p & _ & S & Q); [now rewrite O|exact E| |eauto].
  rewrite O, K. intros [|]; [exists (firstn 4 (plan MariaDB st from_start from_start))|exists (firstn 3 (plan MySQL st from_start from_start))]; exists (asks_position from_start (dump_id st)); (split; [reflexivity|]); intros p X; exact X.
Qed.
Print Assumptions C81_from_start.
(* from the file and position given *)
Theorem C81_from_position : forall bl ev st w f n ck w', w_log w = [] -> c_opts (w_client w) = from_position f n -> request_fits ev st (from_position f n) ->
  replicate bl ev st w = (Ok ck, w') -> exists ps p, sent (w_log w') = ps ++ [(p, 0)] /\ srv_dump p = Some (n, 0, dump_id st, utf8_encode f).
Proof.
  intros bl ev st w f n ck w' L O F E. pose proof (keeps_options bl ev st w ck w' _ O eq_refl E) as K.
  destruct (last_request bl ev st w ck w' (fun _ p => srv_dump p = Some (n, 0, dump_id st, utf8_encode f)) L) as (pr & w1 & ps & p & _ & S & Q); [now rewrite O|exact E| |eauto].
  rewrite O, K. intros [|]; [exists (firstn 4 (plan MariaDB st (from_position f n) (from_position f n)))|exists (firstn 3 (plan MySQL st (from_position f n) (from_position f n)))]; exists (asks_position (from_position f n) (dump_id st)); (split; [reflexivity|]); intros p X; exact X.
Qed.
Print Assumptions C81_from_position.
(* a MySQL server is sent exactly the given set, and no file *)
Theorem C81_from_mysql_gtid : forall bl ev st w s ck w' w1, w_log w = [] -> c_opts (w_client w) = from_mysql_gtid s -> request_fits ev st (from_mysql_gtid s) ->
  connect bl ev st w = (Ok MySQL, w1) -> replicate bl ev st w = (Ok ck, w') ->
  exists ps p r, sent (w_log w') = ps ++ [(p, 0)] /\ srv_dump_gtid p = Some r /\ sg_id r = dump_id st /\ sg_name r = [] /\ sg_pos r = 4 /\
    forall d n, srv_has (sg_set r) d n <-> set_has s d n.
Proof.
  intros bl ev st w s ck w' w1 L O F EC E. pose proof (keeps_options bl ev st w ck w' _ O eq_refl E) as K.
  pose proof (C61_plan bl ev st w (Ok ck) w' L) as C. rewrite O in C. destruct (C F E) as (login & rest & LL & _ & C2). rewrite EC, K in C2.
  destruct C2 as (_ & (d & lf & E1 & F2) & Len). specialize (Len ck eq_refl).
  assert (lf = []) as ->. { pose proof (Forall2_len _ _ _ F2) as X. rewrite E1, app_length in Len. destruct lf; [reflexivity|cbn [length] in Len; lia]. }
  rewrite app_nil_r in E1. rewrite <- E1 in F2. change (plan MySQL st (from_mysql_gtid s) (from_mysql_gtid s)) with (firstn 3 (plan MySQL st (from_mysql_gtid s) (from_mysql_gtid s)) ++ [asks_gtids s (from_mysql_gtid s) (dump_id st)]) in F2.
  apply Forall2_app_inv_r in F2. destruct F2 as (a & b & _ & F2 & E3). inversion F2 as [|[p n] P' b' l' [X1 X2] F3]; subst. inversion F3; subst. cbn [fst snd] in X1, X2. subst n.
  destruct X1 as (r & R1 & R2 & R3 & R4 & R5). exists (sent login ++ a), p, r. split; [rewrite LL; unfold sent in *; rewrite flat_map_app, E3; now rewrite app_assoc|]. auto.
Qed.
Print Assumptions C81_from_mysql_gtid.
(* a MariaDB server is told the given list before the dump is requested *)
Theorem C81_from_mariadb_gtid : forall bl ev st w l ck w' w1, w_log w = [] -> c_opts (w_client w) = from_mariadb_gtid l -> request_fits ev st (from_mariadb_gtid l) ->
  connect bl ev st w = (Ok MariaDB, w1) -> replicate bl ev st w = (Ok ck, w') ->
  exists ps q more p, sent (w_log w') = ps ++ (q, 0) :: more ++ [(p, 0)] /\ asks (tx "SET @slave_connect_state='" ++ gtid_list_text l ++ tx "'") q /\
    srv_dump p = Some (4, 0, dump_id st, []).
Proof.
  intros bl ev st w l ck w' w1 L O F EC E. pose proof (keeps_options bl ev st w ck w' _ O eq_refl E) as K.
  pose proof (C61_plan bl ev st w (Ok ck) w' L) as C. rewrite O in C. destruct (C F E) as (login & rest & LL & _ & C2). rewrite EC, K in C2.
  destruct C2 as (_ & (d & lf & E1 & F2) & Len). specialize (Len ck eq_refl).
  assert (lf = []) as ->. { pose proof (Forall2_len _ _ _ F2) as X. rewrite E1, app_length in Len. destruct lf; [reflexivity|cbn [length] in Len; lia]. }
  rewrite app_nil_r in E1. rewrite <- E1 in F2. unfold plan in F2. cbn [o_strategy o_file from_mariadb_gtid o_list app] in F2.
  repeat match goal with X : Forall2 _ _ (_ :: _) |- _ => inversion X; clear X; subst | X : Forall2 _ _ [] |- _ => inversion X; clear X; subst end.
  repeat match goal with X : _ /\ snd ?y = 0 |- _ => destruct y as [? ?]; destruct X as [? X]; cbn [fst snd] in *; subst end.
  match goal with X : _ = sent rest |- _ => rename X into SR | X : sent rest = _ |- _ => symmetry in X; rename X into SR end.
  match type of SR with ?a :: ?b :: ?c :: ?d :: (?q, 0) :: ?m1 :: ?m2 :: ?m3 :: (?p, 0) :: [] = _ => exists (sent login ++ [a; b; c; d]), q, [m1; m2; m3], p end.
  split; [rewrite LL; unfold sent in *; rewrite flat_map_app, <- SR, <- app_assoc; reflexivity|]. auto.
Qed.
Print Assumptions C81_from_mariadb_gtid.
Example C81_example : let run o := let '(r, w) := replicate Release env0 st0 (start o ([mysql_hello; okp] ++ good_answers)) in
    (r, srv_dump (fst (last (sent (w_log w)) ([], 9)))) in
  run from_start = (Ok CkCrc32, Some (4, 0, 42, [])) /\ run (from_position (tx "binlog.000009") 777) = (Ok CkCrc32, Some (777, 0, 42, utf8_encode (tx "binlog.000009"))) /\
  request_fits env0 st0 from_start.
Proof. split; [vm_compute; reflexivity|]. split; [vm_compute; reflexivity|]. repeat split; try reflexivity; try discriminate. Qed.
