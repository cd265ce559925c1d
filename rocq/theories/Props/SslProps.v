(* Claimed properties of the SSL modes (ssl_mode.rs, connect.rs:30-57): C83. *)
From Coq Require Import Strings.String.
From Verif Require Import Base.Tac Base.Bytes Base.Text Base.Res Base.Str Base.Parse Model.Events Model.Client Model.Commands Model.Responses Model.Channel Model.Session
  Spec.CommandSpec Spec.ChannelSpec Spec.SessionSpec Proofs.ChannelProofs Proofs.ReplicateProofs Proofs.PlanProofs Proofs.LoginProofs
  Props.CommandProps Props.ChannelProps Props.SessionProps.
Local Open Scope N_scope.

Definition requires (m : ssl_mode) : Prop := m = Require \/ m = RequireVerifyCa \/ m = RequireVerifyFull.
(* the server's flag for SSL is bit 11 of the capabilities in its greeting *)
Definition offers (h : hello) : bool := N.testbit (he_caps h) 11.
(* nothing is sent but possibly an SSL request, which contains neither user name nor anything made from the password *)
Definition only_ssl_request (l : list packet) : Prop :=
  l = [] \/ exists s caps, l = [(ssl_request_command 45, s)] /\ srv_ssl_request (ssl_request_command 45) = Some (caps, 0, 45).

Lemma land_bit a : (N.land a 2048 =? 0) = negb (N.testbit a 11).
Proof.
  destruct (N.testbit a 11) eqn:E; cbn [negb].
  - apply N.eqb_neq. intros H. assert (X : N.testbit (N.land a 2048) 11 = true) by (rewrite N.land_spec, E; reflexivity). rewrite H in X. discriminate.
  - apply N.eqb_eq, N.bits_inj. intros i. rewrite N.land_spec, N.bits_0. change 2048 with (2 ^ 11). rewrite N.pow2_bits_eqb.
    destruct (N.eqb_spec 11 i) as [<-|]; [now rewrite E|apply Bool.andb_false_r].
Qed.
Lemma ssl_sent s : only_ssl_request [(ssl_request_command 45, s)].
Proof. right. destruct (C51_ssl_request 45 eq_refl) as (caps & E & _). exists s, caps. auto. Qed.
(* up to the decision about SSL nothing is sent *)
Lemma connect_open bl ev st w r w' : connect bl ev st w = (r, w') ->
  ((forall pr, r <> Ok pr) /\ exists l, w_log w' = w_log w ++ l /\ sent l = []) \/
  exists hs p s w1 l, w_log w1 = w_log w ++ l /\ sent l = [] /\ abind (authenticate bl ev st hs p s) (fun _ => aret (provider_from (hs_version hs))) w1 = (r, w').
Proof.
  unfold connect. intros E. unfold abind at 1 in E. unfold a_read at 1 in E. destruct (read_packet (w_in w)) as [[[p q]|e| |] cs];
    try (left; injection E as <- <-; split; [discriminate|]; exists []; cbn [w_log]; now rewrite app_nil_r).
  cbn [fst snd] in E. set (w1 := World (w_client w) cs (w_log w ++ [Received p q])) in *.
  assert (L : forall (x : res provider) w2, (x, w1) = (r, w2) -> (forall pr, x <> Ok pr) -> w2 = w' -> (forall pr, r <> Ok pr) /\ exists l, w_log w' = w_log w ++ l /\ sent l = []).
  { intros x w2 X N <-. injection X as <- <-. split; [exact N|]. exists [Received p q]. split; reflexivity. }
  unfold abind at 1, alift in E. destruct (check_error_packet p _) as [[]|e| |]; try (left; apply (L _ _ E); [discriminate|reflexivity]).
  unfold abind at 1 in E. destruct (parse_handshake p) as [hs|e| |]; try (left; apply (L _ _ E); [discriminate|reflexivity]).
  unfold abind at 1 in E. destruct (get_auth_plugin _) as [ap|e| |]; try (left; apply (L _ _ E); [discriminate|reflexivity]).
  unfold abind at 1 in E. destruct (uadd _ _ _ _) as [s|e| |]; try (left; apply (L _ _ E); [discriminate|reflexivity]).
  right. exists hs, ap, s, w1, [Received p q]. split; [reflexivity|]. split; [reflexivity|]. exact E.
Qed.
Lemma authenticate_ssl {A} bl ev st hs p s (f : unit -> act A) w r w' : s_ssl st <> Disabled -> (requires (s_ssl st) \/ N.testbit (hs_capabilities hs) 11 = true) ->
  abind (authenticate bl ev st hs p s) f w = (r, w') -> (forall a, r <> Ok a) /\ exists l, w_log w' = w_log w ++ l /\ only_ssl_request (sent l).
Proof.
  intros D H E. unfold abind at 1, authenticate in E. unfold abind at 1 in E.
  assert (C0 : (ssl_code (s_ssl st) =? 0) = false) by (destruct (s_ssl st); [contradiction|reflexivity..]). rewrite C0 in E.
  unfold cap_ssl in E. rewrite land_bit in E. destruct (N.testbit (hs_capabilities hs) 11) eqn:B; cbn [negb] in E.
  - unfold abind at 1 in E. destruct (a_write _ s w) as [r1 w1] eqn:W. unfold a_write in W.
    change (16777216 <=? N.of_nat (length (ssl_request_command utf8_mb4_general_ci)) mod u32max1) with false in W. cbv iota in W. injection W as <- <-.
    unfold abind, alift in E. assert (X : (forall a, r <> Ok a) /\ w' = World (w_client w) (w_in w) (w_log w ++ [Sent (ssl_request_command utf8_mb4_general_ci) s])).
    { destruct (uadd 256 bl s 1) as [?|?| |]; injection E as <- <-; (split; [discriminate|reflexivity]). }
    destruct X as [X ->]. split; [exact X|]. exists [Sent (ssl_request_command utf8_mb4_general_ci) s]. split; [reflexivity|]. apply ssl_sent.
  - destruct H as [H|H]; [|discriminate H]. assert (C2 : (2 <=? ssl_code (s_ssl st)) = true) by (destruct H as [SM|[SM|SM]]; rewrite SM; reflexivity). rewrite C2 in E.
    unfold alift in E. injection E as <- <-. split; [discriminate|]. exists []. rewrite app_nil_r. split; [reflexivity|now left].
Qed.
(* with a mode that requires SSL, whatever the server sends, no login packet leaves the client and no session comes about *)
Theorem C83_required : forall bl ev st w r w', w_log w = [] -> requires (s_ssl st) -> replicate bl ev st w = (r, w') ->
  (forall ck, r <> Ok ck) /\ only_ssl_request (sent (w_log w')).
Proof.
  intros bl ev st w r w' L H E. rewrite replicate_eq in E. unfold abind in E. destruct (connect bl ev st w) as [r1 w1] eqn:C.
  assert (X : (forall pr, r1 <> Ok pr) /\ only_ssl_request (sent (w_log w1))).
  { destruct (connect_open _ _ _ _ _ _ C) as [(N & l & L1 & S)|(hs & p & s & w2 & l & L1 & S & A)].
    - split; [exact N|]. rewrite L1, L. cbn [app]. rewrite S. now left.
    - assert (D : s_ssl st <> Disabled) by (destruct H as [SM|[SM|SM]]; rewrite SM; discriminate).
      destruct (authenticate_ssl bl ev st hs p s _ w2 r1 w1 D (or_introl H) A) as (N & l2 & L2 & O).
      split; [exact N|]. rewrite L2, L1, L, !sent_app, S. exact O. }
  destruct X as [N O]. destruct r1 as [pr|e| |]; [now destruct (N pr)|..]; injection E as <- <-; (split; [discriminate|exact O]).
Qed.
Print Assumptions C83_required.
(* IfAvailable with a server that offers SSL: the same *)
Theorem C83_offered : forall bl ev st h post s ps t rest w r w', w_log w = [] -> s_ssl st <> Disabled -> hello_ok h -> offers h = true ->
  pending (w_in w) ((hello_bytes h ++ post, s) :: ps) t rest -> replicate bl ev st w = (r, w') ->
  (forall ck, r <> Ok ck) /\ only_ssl_request (sent (w_log w')).
Proof.
  intros bl ev st h post s ps t rest w r w' L D H O P E. rewrite replicate_eq in E. unfold abind in E. destruct (connect bl ev st w) as [r1 w1] eqn:C.
  assert (X : (forall pr, r1 <> Ok pr) /\ only_ssl_request (sent (w_log w1))).
  { destruct (a_read_ok w _ _ _ _ P) as (cs & R & _). unfold connect in C. rewrite (abind_ok _ _ _ _ _ R) in C. cbn [fst snd] in C. set (w2 := World _ cs _) in *.
    assert (B : forall (x : res provider), (x, w2) = (r1, w1) -> (forall pr, x <> Ok pr) -> (forall pr, r1 <> Ok pr) /\ only_ssl_request (sent (w_log w1))).
    { intros x X N. injection X as <- <-. split; [exact N|]. unfold w2. cbn [w_log]. rewrite L. now left. }
    unfold abind at 1, alift in C. destruct (check_error_packet _ _) as [[]|?| |]; try (apply (B _ C); discriminate).
    unfold abind at 1 in C. rewrite (handshake_ok h post H) in C. cbv iota in C.
    unfold abind at 1 in C. destruct (get_auth_plugin _) as [ap|?| |]; try (apply (B _ C); discriminate).
    unfold abind at 1 in C. destruct (uadd _ _ _ _) as [q|?| |]; try (apply (B _ C); discriminate).
    destruct (authenticate_ssl bl ev st _ ap q _ w2 r1 w1 D (or_intror (eq_trans (C60_capability_bits h post _ 11 H (handshake_ok h post H) eq_refl) O)) C) as (N & l2 & L2 & Q).
    split; [exact N|]. rewrite L2. unfold w2. cbn [w_log]. rewrite L. cbn [app]. exact Q. }
  destruct X as [N Q]. destruct r1 as [pr|e| |]; [now destruct (N pr)|..]; injection E as <- <-; (split; [discriminate|exact Q]).
Qed.
Print Assumptions C83_offered.
(* a mode that requires SSL and a server without: the error, and nothing sent *)
Theorem C83_refused : forall bl ev st h p s ps t rest w r w', w_log w = [] -> requires (s_ssl st) -> hello_for h p -> offers h = false -> s < 255 ->
  pending (w_in w) ((hello_bytes h, s) :: ps) t rest -> replicate bl ev st w = (r, w') ->
  r = Err (EString (tx "The server doesn't support SSL encryption")) /\ sent (w_log w') = [] /\ w_client w' = w_client w.
Proof.
  intros bl ev st h p s ps t rest w r w' L RQ (H & HP & PA & PN) O S P E. rewrite replicate_eq in E. unfold abind at 1 in E. destruct (connect bl ev st w) as [r1 w1] eqn:C.
  destruct (a_read_ok w _ _ _ _ P) as (cs & R & _). unfold connect in C. rewrite (abind_ok _ _ _ _ _ R) in C. cbn [fst snd] in C.
  unfold abind at 1, alift in C. rewrite check_pass in C by (apply hello_not_error; assumption). destruct (C60_handshake h [] H) as (hs & E1 & E2 & _ & E3 & E4 & _). rewrite app_nil_r in E1.
  unfold abind at 1 in C. rewrite E1 in C. unfold abind at 1 in C. rewrite E4, PA, PN in C.
  assert (GP : get_auth_plugin (plugin_text p) = Ok p) by (destruct p; reflexivity). rewrite GP in C.
  unfold abind at 1 in C. rewrite uadd_ok in C by lia. unfold abind at 1, authenticate in C. unfold abind at 1 in C.
  assert (C0 : (ssl_code (s_ssl st) =? 0) = false) by (destruct RQ as [SM|[SM|SM]]; rewrite SM; reflexivity). rewrite C0 in C.
  unfold cap_ssl in C. rewrite land_bit, (C60_capability_bits h [] hs 11 H) in C by (rewrite ?app_nil_r; auto; reflexivity).
  unfold offers in O. rewrite O in C. cbn [negb] in C.
  assert (C2 : (2 <=? ssl_code (s_ssl st)) = true) by (destruct RQ as [SM|[SM|SM]]; rewrite SM; reflexivity). rewrite C2 in C.
  injection C as <- <-. injection E as <- <-. cbn [w_log w_client]. rewrite L. repeat split.
Qed.
Print Assumptions C83_refused.
(* IfAvailable and a server without SSL: exactly as with SSL disabled *)
Definition without_ssl (st : settings) : settings := Settings Disabled (s_user st) (s_password st) (s_database st) (s_server_id st) (s_blocking st) (s_heartbeat st).
Theorem C83_if_available : forall bl ev st h post s ps t rest w, s_ssl st = IfAvailable -> hello_ok h -> offers h = false ->
  pending (w_in w) ((hello_bytes h ++ post, s) :: ps) t rest -> replicate bl ev st w = replicate bl ev (without_ssl st) w.
Proof.
  intros bl ev st h post s ps t rest w SS H O P. rewrite !replicate_eq. destruct st as [ss u pw db id bk hb]. cbn [s_ssl] in SS. subst ss.
  assert (C : connect bl ev (Settings IfAvailable u pw db id bk hb) w = connect bl ev (without_ssl (Settings IfAvailable u pw db id bk hb)) w).
  { destruct (a_read_ok w _ _ _ _ P) as (cs & R & _). unfold connect. rewrite !(abind_ok _ _ _ _ _ R). cbn [fst snd].
    unfold abind at 1 6, alift. destruct (check_error_packet _ _) as [[]|?| |]; try reflexivity.
    rewrite (handshake_ok h post H). unfold abind at 1 5. unfold abind at 1 4. destruct (get_auth_plugin _) as [ap|?| |]; try reflexivity.
    unfold abind at 1 3. destruct (uadd _ _ _ _) as [q|?| |]; try reflexivity.
    unfold abind at 1 2. unfold authenticate. unfold abind at 1 13. cbn [s_ssl without_ssl ssl_code N.eqb]. unfold cap_ssl.
    rewrite land_bit, (C60_capability_bits h post _ 11 H (handshake_ok h post H) eq_refl). unfold offers in O. rewrite O. reflexivity. }
  unfold abind. rewrite C. reflexivity.
Qed.
Print Assumptions C83_if_available.
Definition st_mode (m : ssl_mode) : settings := Settings m (tx "repl") (tx "secret") None 42 true 30000000000.
Definition ssl_hello : list byte := hello_bytes (Hello 10 (tx "8.0.30") 7 (tx "abcdefgh") 559616 45 2 21 (repeat 0 6) 0 (tx "ijklmnopqrst") native_name).
Example C83_example : let run m hi := let '(r, w) := replicate Release env0 (st_mode m) (start o_here ([hi; okp] ++ good_answers)) in (r, length (sent (w_log w))) in
  map (fun m => run m mysql_hello) [Disabled; IfAvailable; Require; RequireVerifyCa; RequireVerifyFull] =
    [(Ok CkCrc32, 5%nat); (Ok CkCrc32, 5%nat); (Err (EString (tx "The server doesn't support SSL encryption")), 0%nat);
     (Err (EString (tx "The server doesn't support SSL encryption")), 0%nat); (Err (EString (tx "The server doesn't support SSL encryption")), 0%nat)] /\
  map (fun m => run m ssl_hello) [Disabled; IfAvailable; Require; RequireVerifyCa; RequireVerifyFull] =
    [(Ok CkCrc32, 5%nat); (Panic, 1%nat); (Panic, 1%nat); (Panic, 1%nat); (Panic, 1%nat)] /\
  offers (hello_of (tx "8.0.30") native_name) = false /\ offers (Hello 10 (tx "8.0.30") 7 (tx "abcdefgh") 559616 45 2 21 (repeat 0 6) 0 (tx "ijklmnopqrst") native_name) = true.
Proof. split; [vm_compute; reflexivity|]. split; [vm_compute; reflexivity|]. split; reflexivity. Qed.
