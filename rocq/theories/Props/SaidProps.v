(* Claimed property of everything replicate() writes, for every server: C100. *)
From Coq Require Import Sorting.Permutation Strings.String.
From Verif Require Import Base.Tac Base.Bytes Base.Text Base.Res Base.Str Model.Gtid Model.GtidMaria Model.Events Model.Client Model.Commands
  Model.Responses Model.Channel Model.Session Spec.GtidSpec Spec.CodecSpec Spec.CommandSpec Spec.ChannelSpec Spec.SessionSpec Spec.TalkSpec
  Proofs.CommandProofs Proofs.LoginProofs Proofs.PlanProofs Proofs.TalkPacketProofs Props.CommandProps Props.SessionProps.
Local Open Scope N_scope.
Lemma text_eqb_eq a b : text_eqb a b = true -> a = b. Proof. destruct (text_eqb_spec a b); [auto|discriminate]. Qed.

(* ---- what may be said while logging in ---- *)
(* the answer to a challenge *)
Definition digest (H : list byte -> list byte) (password scramble : list byte) : list byte := xor_cycled (H password) (H (scramble ++ H (H password))).
(* the hash function that goes with a method *)
Definition method (cr : crypto) (name : text) (H : list byte -> list byte) : Prop :=
  name = tx "mysql_native_password" /\ H = sha1 cr \/ name = tx "caching_sha2_password" /\ H = sha256 cr.
Definition answers (ev : env) (st : settings) (name scramble : text) (reply : list byte) : Prop :=
  exists H, method (e_crypto ev) name H /\ reply = digest H (utf8_encode (s_password st)) (utf8_encode scramble).
(* the login: the configured user and database, the method the server named, the answer to its challenge *)
Definition logs_in (ev : env) (st : settings) (h : handshake) (p : list byte) : Prop :=
  exists l, srv_login_packet p = Some l /\ lo_user l = utf8_encode (s_user st) /\ lo_database l = option_map utf8_encode (s_database st) /\
    lo_plugin l = Some (utf8_encode (hs_plugin h)) /\ lo_collation l = 45 /\ lo_max l = 0 /\ answers ev st (hs_plugin h) (hs_scramble h) (lo_auth l).
(* at most one packet received, nothing sent *)
Definition listens (l : list io) : Prop := exists ps, (length ps <= 1)%nat /\ l = map got ps.
(* the caching_sha2_password dialogue: nothing, a request for the key, the password encrypted with the key received *)
Definition says_sha (ev : env) (st : settings) (scramble : text) (l : list io) : Prop :=
  listens l \/ (exists s l', l = Sent [n2b 2] s :: l' /\ listens l') \/
  exists s key e s' l', l = Sent [n2b 2] s :: got key :: Sent e s' :: l' /\ listens l' /\
    rsa (e_crypto ev) (skipn 1 (fst key)) (xor_cycled (utf8_encode (s_password st) ++ [n2b 0]) (utf8_encode scramble)) = Ok e.
(* after the login packet *)
Definition says_next (ev : env) (st : settings) (h : handshake) (l : list io) : Prop :=
  listens l \/ (exists a l', l = got a :: l' /\ says_sha ev st (hs_scramble h) l') \/
  exists a name scramble reply s l', l = got a :: Sent reply s :: l' /\ switches (fst a) name scramble /\ answers ev st name scramble reply /\
    (listens l' \/ exists b l2, l' = got b :: l2 /\ name = tx "caching_sha2_password" /\ says_sha ev st scramble l2).
Definition says (ev : env) (st : settings) (l : list io) : Prop :=
  listens l \/
  (exists g h p s, l = [got g; Sent p s] /\ greets (fst g) h /\ s_ssl st <> Disabled /\ exists x, srv_ssl_request p = Some x) \/
  exists g h p s l', l = got g :: Sent p s :: l' /\ greets (fst g) h /\ logs_in ev st h p /\ says_next ev st h l'.

(* ---- walking through a function, collecting what it reads and writes ---- *)
Definition logs {A} (m : act A) (P : list io -> Prop) : Prop := forall w, exists l, w_log (snd (m w)) = w_log w ++ l /\ P l.
Lemma lg_none {A} (m : act A) (P : list io -> Prop) : (forall w, w_log (snd (m w)) = w_log w) -> P [] -> logs m P.
Proof. intros H K w. exists []. rewrite app_nil_r. auto. Qed.
Lemma lg_ret {A} (a : A) (P : list io -> Prop) : P [] -> logs (aret a) P. Proof. now apply lg_none. Qed.
Lemma lg_lift {A} (r : res A) (P : list io -> Prop) : P [] -> logs (alift r) P. Proof. now apply lg_none. Qed.
Lemma lg_lift_bind {A B} (r : res A) (f : A -> act B) (P : list io -> Prop) : P [] -> (forall a, r = Ok a -> logs (f a) P) -> logs (abind (alift r) f) P.
Proof. intros H K w. unfold abind, alift. destruct r as [a|e| |]; try (exists []; rewrite app_nil_r; auto; fail). exact (K a eq_refl w). Qed.
Lemma lg_read_bind {B} (f : packet -> act B) (P : list io -> Prop) : P [] -> (forall p s, logs (f (p, s)) (fun l => P (Received p s :: l))) -> logs (abind a_read f) P.
Proof.
  intros H K w. unfold abind, a_read. destruct (read_packet (w_in w)) as [[[p s]|e| |] cs]; try (exists []; rewrite app_nil_r; auto; fail).
  destruct (K p s (World (w_client w) cs (w_log w ++ [Received p s]))) as (l & E & Q). exists (Received p s :: l). rewrite E. cbn [w_log]. rewrite <- app_assoc. auto.
Qed.
Lemma lg_write_bind {B} p s (f : unit -> act B) (P : list io -> Prop) : P [] -> logs (f tt) (fun l => P (Sent p s :: l)) -> logs (abind (a_write p s) f) P.
Proof.
  intros H K w. unfold abind, a_write. destruct (16777216 <=? N.of_nat (length p) mod u32max1); [exists []; rewrite app_nil_r; auto|].
  destruct (K (World (w_client w) (w_in w) (w_log w ++ [Sent p s]))) as (l & E & Q). exists (Sent p s :: l). rewrite E. cbn [w_log]. rewrite <- app_assoc. auto.
Qed.
Lemma lg_imp {A} (m : act A) (P Q : list io -> Prop) : logs m P -> (forall l, P l -> Q l) -> logs m Q.
Proof. intros H K w. destruct (H w) as (l & E & X). exists l. auto. Qed.
Lemma lg_bind_ret {A B} (m : act A) (f : A -> B) (P : list io -> Prop) : logs m P -> logs (abind m (fun a => aret (f a))) P.
Proof. intros H w. destruct (H w) as (l & E & X). exists l. split; [|exact X]. rewrite <- E. unfold abind, aret. destruct (m w) as [[a|e| |] w']; reflexivity. Qed.
Lemma listens_0 : listens []. Proof. exists []. split; [cbn; lia|reflexivity]. Qed.
Lemma listens_1 p s : listens [Received p s]. Proof. exists [(p, s)]. split; [cbn; lia|reflexivity]. Qed.

Lemma lg_quiet_bind {A B} (m : act A) (f : A -> act B) (P : list io -> Prop) : (forall w, w_log (snd (m w)) = w_log w) -> P [] -> (forall a, logs (f a) P) -> logs (abind m f) P.
Proof.
  intros Q H K w. specialize (Q w). unfold abind. destruct (m w) as [[a|e| |] w']; cbn [snd] in Q; try (exists []; rewrite app_nil_r; auto; fail).
  destruct (K a w') as (l & E & X). exists l. rewrite E, Q. auto.
Qed.

Lemma lg_sha bl ev st packet scramble seq : logs (authenticate_sha_256 bl ev st packet scramble seq false) (says_sha ev st scramble).
Proof.
  assert (N0 : says_sha ev st scramble []) by (left; apply listens_0).
  unfold authenticate_sha_256. apply lg_lift_bind; [exact N0|]. intros b0 _. apply lg_quiet_bind; [|exact N0|].
  { intros w. destruct (b0 =? 1); [|reflexivity]. unfold abind, alift, aret. now destruct (byte_at packet 1). }
  intros [|]; [now apply lg_ret|]. cbv zeta iota.
  apply lg_write_bind; [exact N0|]. assert (N1 : says_sha ev st scramble [Sent [n2b 2] seq]) by (right; left; exists seq, []; split; [reflexivity|apply listens_0]).
  apply lg_read_bind; [exact N1|]. intros key sk. assert (N2 : says_sha ev st scramble [Sent [n2b 2] seq; Received key sk]) by (right; left; exists seq, [Received key sk]; split; [reflexivity|apply listens_1]).
  apply lg_lift_bind; [exact N2|]. intros _ _. apply lg_lift_bind; [exact N2|]. intros x X. apply lg_lift_bind; [exact N2|]. intros e E.
  apply lg_lift_bind; [exact N2|]. intros s _. apply lg_write_bind; [exact N2|].
  assert (X2 : x = xor_cycled (utf8_encode (s_password st) ++ [n2b 0]) (utf8_encode scramble)).
  { destruct (utf8_encode scramble) as [|y ys] eqn:SC; [destruct (utf8_encode (s_password st)); discriminate X|]. rewrite xor_bytes_ok in X by discriminate. now injection X. }
  rewrite X2 in E. assert (N3 : forall l, listens l -> says_sha ev st scramble (Sent [n2b 2] seq :: Received key sk :: Sent e s :: l)).
  { intros l L. right. right. exists seq, (key, sk), e, s, l. auto. }
  apply lg_read_bind; [apply N3, listens_0|]. intros p n. apply lg_lift. apply N3, listens_1.
Qed.
Lemma plugin_method ev st name p scramble c : hashes ev -> get_auth_plugin name = Ok p -> encrypt_password (e_crypto ev) (s_password st) scramble p = Ok c -> answers ev st name scramble c.
Proof.
  intros HH G E. assert (NE : forall p m, hash_of (e_crypto ev) p m <> []).
  { intros p' m Z. destruct (HH p') as (k & K1 & K2). specialize (K1 m). rewrite Z in K1. cbn in K1. lia. }
  unfold get_auth_plugin in G. destruct (text_eqb name native_name) eqn:E1.
  - injection G as <-. apply text_eqb_eq in E1. cbn [encrypt_password] in E. rewrite hashed_ok in E by (exact (NE NativePassword)). injection E as <-. exists (sha1 (e_crypto ev)). split; [left; auto|reflexivity].
  - destruct (text_eqb name caching_name) eqn:E2; [|discriminate G]. injection G as <-. apply text_eqb_eq in E2. cbn [encrypt_password] in E. rewrite hashed_ok in E by (exact (NE CachingSha2)). injection E as <-. exists (sha256 (e_crypto ev)). split; [right; auto|reflexivity].
Qed.
(* the user and the database can be written as strings ended by a NUL byte *)
Definition names_plain (st : settings) : Prop := cstring_ok (s_user st) /\ forall d, s_database st = Some d -> cstring_ok d.
Lemma login_said ev st h p c : hashes ev -> names_plain st -> get_auth_plugin (hs_plugin h) = Ok p ->
  authenticate_command (e_crypto ev) (s_user st) (s_password st) (s_database st) (hs_scramble h) p (hs_plugin h) utf8_mb4_general_ci = Ok c -> logs_in ev st h c.
Proof.
  intros HH ((U1 & U2) & D) G E. destruct (HH p) as (k & K1 & K2).
  assert (NP : valid_text (hs_plugin h) /\ ~ In 0 (hs_plugin h)).
  { unfold get_auth_plugin in G. destruct (text_eqb (hs_plugin h) native_name) eqn:E1; [apply text_eqb_eq in E1; rewrite E1|destruct (text_eqb (hs_plugin h) caching_name) eqn:E2; [apply text_eqb_eq in E2; rewrite E2|discriminate G]];
      (split; [repeat constructor|cbn; intuition discriminate]). }
  destruct NP as [NP1 NP2].
  destruct (C51_login (e_crypto ev) (s_user st) (s_password st) (s_database st) (hs_scramble h) p (hs_plugin h) utf8_mb4_general_ci k) as (bs & e & l & B & L & EN & F1 & F2 & F3 & F4 & F5 & F6 & _); [intros m; specialize (K1 m); now destruct p|exact K2|reflexivity|exact U1|exact U2|exact NP1|exact NP2|exact D|].
  rewrite E in B. injection B as <-. exists l. split; [exact L|]. split; [exact F1|]. split; [exact F3|]. split; [exact F4|]. split; [exact F5|]. split; [exact F6|].
  rewrite F2. eapply plugin_method; eassumption.
Qed.
Lemma lg_switch bl ev st name scramble seq (P : list io -> Prop) : hashes ev -> P [] ->
  (forall reply l', answers ev st name scramble reply -> listens l' \/ (exists b l2, l' = got b :: l2 /\ name = tx "caching_sha2_password" /\ says_sha ev st scramble l2) -> P (Sent reply seq :: l')) ->
  logs (handle_switch bl ev st (name, scramble) seq false) P.
Proof.
  intros HH P0 K. unfold handle_switch. cbn [fst snd]. apply lg_lift_bind; [exact P0|]. intros p G. apply lg_lift_bind; [exact P0|]. intros c C.
  pose proof (plugin_method _ _ _ _ _ _ HH G C) as AN. apply lg_write_bind; [exact P0|]. apply lg_read_bind; [apply K; [exact AN|left; apply listens_0]|]. intros b n. cbn [fst snd].
  assert (L1 : P [Sent c seq; Received b n]) by (apply K; [exact AN|left; apply listens_1]).
  apply lg_lift_bind; [exact L1|]. intros _ _. destruct (text_eqb name caching_name) eqn:E2; [|now apply lg_ret]. apply text_eqb_eq in E2.
  apply lg_lift_bind; [exact L1|]. intros s _. eapply lg_imp; [apply lg_sha|]. intros l X. apply (K c (Received b n :: l)); [exact AN|]. right. exists (b, n), l. auto.
Qed.
Lemma lg_connect bl ev st : hashes ev -> names_plain st -> logs (connect bl ev st) (says ev st).
Proof.
  intros HH NP. unfold connect. apply lg_read_bind; [left; apply listens_0|]. intros g n. cbn [fst snd].
  assert (N1 : says ev st [Received g n]) by (left; apply listens_1).
  apply lg_lift_bind; [exact N1|]. intros _ _. apply lg_lift_bind; [exact N1|]. intros h H. apply greets_exact in H. apply lg_lift_bind; [exact N1|]. intros p G.
  apply lg_lift_bind; [exact N1|]. intros s _. apply lg_bind_ret. unfold authenticate.
  assert (REST : logs (abind (alift (authenticate_command (e_crypto ev) (s_user st) (s_password st) (s_database st) (hs_scramble h) p (hs_plugin h) utf8_mb4_general_ci)) (fun c =>
    _ <== a_write c s ;; r <== a_read ;; _ <== alift (check_error_packet (fst r) (tx "Authentication error.")) ;; b <== alift (byte_at (fst r) 0) ;;
    if b =? resp_ok then aret tt
    else if b =? resp_switch then sw <== alift (parse_auth_switch (skipn 1 (fst r))) ;; s <== alift (uadd 256 bl (snd r) 1) ;; handle_switch bl ev st sw s false
    else s <== alift (uadd 256 bl (snd r) 1) ;; authenticate_sha_256 bl ev st (fst r) (hs_scramble h) s false)) (fun l => says ev st (Received g n :: l))).
  { apply lg_lift_bind; [exact N1|]. intros c C. pose proof (login_said _ _ _ _ _ HH NP G C) as LI. apply lg_write_bind; [exact N1|].
    assert (K : forall l, says_next ev st h l -> says ev st (Received g n :: Sent c s :: l)) by (intros l L; right; right; exists (g, n), h, c, s, l; auto).
    apply lg_read_bind; [apply K; left; apply listens_0|]. intros a na. cbn [fst snd]. assert (K1 : says ev st [Received g n; Sent c s; Received a na]) by (apply K; left; apply listens_1).
    apply lg_lift_bind; [exact K1|]. intros _ _. apply lg_lift_bind; [exact K1|]. intros b B. destruct (b =? resp_ok); [now apply lg_ret|]. destruct (b =? resp_switch) eqn:SW.
    - apply lg_lift_bind; [exact K1|]. intros [name scr] PS. assert (SWS : switches a name scr).
      { apply switch_exact. split; [|exact PS]. apply N.eqb_eq in SW. subst b. destruct a as [|x d]; cbn [byte_at nth_error] in B; [discriminate B|]. injection B as B. exists d. f_equal. apply b2n_inj. rewrite B. reflexivity. }
      apply lg_lift_bind; [exact K1|]. intros s2 _. apply lg_switch; [exact HH|exact K1|]. intros reply l' AN L. apply K. right. right. exists (a, na), name, scr, reply, s2, l'. auto.
    - apply lg_lift_bind; [exact K1|]. intros s2 _. eapply lg_imp; [apply lg_sha|]. intros l X. apply K. right. left. exists (a, na), l. auto. }
  destruct (ssl_code (s_ssl st) =? 0) eqn:S0; [apply lg_quiet_bind; [reflexivity|exact N1|]; intros _; exact REST|].
  destruct (N.land (hs_capabilities h) cap_ssl =? 0); [destruct (2 <=? ssl_code (s_ssl st)); [apply lg_quiet_bind; [reflexivity|exact N1|]; intros _; exact REST|apply lg_quiet_bind; [reflexivity|exact N1|]; intros _; exact REST]|].
  intros w. unfold abind at 1. unfold abind at 1. unfold a_write.
  replace (16777216 <=? N.of_nat (length (ssl_request_command utf8_mb4_general_ci)) mod u32max1) with false by (vm_compute; reflexivity).
  assert (SS : says ev st [Received g n; Sent (ssl_request_command utf8_mb4_general_ci) s]).
  { right. left. exists (g, n), h, (ssl_request_command utf8_mb4_general_ci), s. split; [reflexivity|]. split; [exact H|]. split; [intros Z; rewrite Z in S0; discriminate S0|].
    destruct (C51_ssl_request utf8_mb4_general_ci) as (caps & X & _); [reflexivity|]. eauto. }
  exists [Sent (ssl_request_command utf8_mb4_general_ci) s]. split; [|exact SS].
  unfold abind, alift. destruct (uadd 256 bl s 1); reflexivity.
Qed.

(* ---- C100 ---- *)
(* Everything the client writes, whatever the server sends: in the login the packets of [says], then commands according to the plan *)
Theorem C100_all_that_is_said : forall bl ev st w r w', w_log w = [] -> hashes ev -> names_plain st -> request_fits ev st (c_opts (w_client w)) ->
  replicate bl ev st w = (r, w') ->
  exists login rest, w_log w' = login ++ rest /\ says ev st login /\ in_turn login /\
    (sent rest = [] \/ exists pr, follows (sent rest) (plan pr st (c_opts (w_client w)) (c_opts (w_client w')))).
Proof.
  intros bl ev st w r w' L HH NP F E. destruct (C61_plan bl ev st w r w' L F E) as (login & rest & E1 & T & C).
  destruct (lg_connect bl ev st HH NP w) as (l & EL & S). rewrite L in EL. cbn [app] in EL. exists login, rest. split; [exact E1|].
  destruct (connect bl ev st w) as [r1 w1]. cbn [snd] in EL.
  destruct r1 as [pr|e| |].
  - destruct C as (C1 & C2 & _). rewrite <- C1, EL. rewrite <- EL at 2. rewrite C1. split; [exact S|]. split; [exact T|]. right. eauto.
  - destruct C as (-> & -> & _). rewrite app_nil_r in E1. rewrite <- E1, EL. rewrite EL in E1. subst l. split; [exact S|]. split; [exact T|]. now left.
  - destruct C as (-> & -> & _). rewrite app_nil_r in E1. rewrite <- E1, EL. rewrite EL in E1. subst l. split; [exact S|]. split; [exact T|]. now left.
  - destruct C as (-> & -> & _). rewrite app_nil_r in E1. rewrite <- E1, EL. rewrite EL in E1. subst l. split; [exact S|]. split; [exact T|]. now left.
Qed.
Print Assumptions C100_all_that_is_said.
(* at most 4 packets for the login and 10 commands, however many packets the server sends *)
Lemma sent_got ps : sent (map got ps) = []. Proof. induction ps; [reflexivity|]. cbn. exact IHps. Qed.
Lemma listens_sent l : listens l -> sent l = []. Proof. intros (ps & _ & ->). apply sent_got. Qed.
Lemma says_sha_sent ev st scr l : says_sha ev st scr l -> (length (sent l) <= 2)%nat.
Proof.
  intros [H|[(s & l' & -> & H)|(s & k & e & s' & l' & -> & H & _)]]; [rewrite (listens_sent _ H)|cbn [sent flat_map app got]; fold (sent l'); rewrite (listens_sent _ H)|cbn [sent flat_map app got]; fold (sent l'); rewrite (listens_sent _ H)]; cbn; lia.
Qed.
Lemma says_sent ev st l : says ev st l -> (length (sent l) <= 4)%nat.
Proof.
  intros [H|[(g & h & p & s & -> & _)|(g & h & p & s & l' & -> & _ & _ & H)]]; [rewrite (listens_sent _ H); cbn; lia|cbn; lia|].
  cbn [sent flat_map app got length]. fold (sent l'). enough (length (sent l') <= 3)%nat by lia.
  destruct H as [H|[(a & l2 & -> & H)|(a & name & scr & reply & s2 & l2 & -> & _ & _ & H)]]; [rewrite (listens_sent _ H); cbn; lia| |].
  - cbn [sent flat_map app got]. fold (sent l2). apply says_sha_sent in H. lia.
  - cbn [sent flat_map app got length]. fold (sent l2). destruct H as [H|(b & l3 & -> & _ & H)]; [rewrite (listens_sent _ H); cbn; lia|].
    cbn [sent flat_map app got]. fold (sent l3). apply says_sha_sent in H. lia.
Qed.
Lemma forall2_long {A B} (R : A -> B -> Prop) l m : Forall2 R l m -> length l = length m. Proof. induction 1; cbn; congruence. Qed.
Theorem C100_bounded : forall bl ev st w r w', w_log w = [] -> hashes ev -> names_plain st -> request_fits ev st (c_opts (w_client w)) ->
  replicate bl ev st w = (r, w') -> (length (sent (w_log w')) <= 14)%nat.
Proof.
  intros bl ev st w r w' L HH NP F E. destruct (C100_all_that_is_said bl ev st w r w' L HH NP F E) as (login & rest & -> & S & _ & K).
  unfold sent. rewrite flat_map_app, app_length. fold (sent login) (sent rest). apply says_sent in S. enough (length (sent rest) <= 10)%nat by lia.
  destruct K as [->|(pr & done & left & P & F2)]; [cbn; lia|]. apply forall2_long in F2. rewrite F2. apply (Nat.le_trans _ (length (done ++ left))); [rewrite app_length; lia|]. rewrite <- P.
  unfold plan. destruct (o_strategy (c_opts (w_client w))), (o_file (c_opts (w_client w))), pr, (o_strategy (c_opts (w_client w'))), (o_set (c_opts (w_client w'))), (o_list (c_opts (w_client w'))); cbn; lia.
Qed.
Print Assumptions C100_bounded.
(* a server that asks for another method, then for the full authentication, then sends whatever it likes (a request for a local file): 7
   packets are sent, and nothing after the odd answer *)
Definition odd_server : list (list byte) := [mysql_hello; n2b 0xFE :: cstring caching_name ++ cstring (tx "01234567890123456789"); [n2b 1; n2b 4]; n2b 1 :: utf8_encode (tx "KEY"); okp; okp; n2b 0xFB :: utf8_encode (tx "/etc/passwd")].
Example C100_example : let '(r, w) := replicate Release env0 st0 (start o_here odd_server) in
  length (sent (w_log w)) = 7%nat /\ (exists a b c d, map fst (firstn 4 (sent (w_log w))) = [a; b; [n2b 2]; d] /\ answers env0 st0 caching_name (tx "01234567890123456789") b /\
    rsa toy (utf8_encode (tx "KEY")) (xor_cycled (utf8_encode (tx "secret") ++ [n2b 0]) (utf8_encode (tx "01234567890123456789"))) = Ok d /\ srv_login_packet a = Some c) /\
  asks (tx "SELECT @master_binlog_checksum") (fst (last (sent (w_log w)) ([], 0))).
Proof.
  set (x := replicate _ _ _ _). vm_compute in x. subst x. split; [vm_compute; reflexivity|]. split; [|vm_compute; reflexivity].
  eexists _, _, _, _. split; [vm_compute; reflexivity|]. split; [exists (sha256 toy); split; [right; split; reflexivity|vm_compute; reflexivity]|]. split; vm_compute; reflexivity.
Qed.
Example C100_example_names : names_plain st0 /\ names_plain (Settings Disabled (tx "repl") (tx "secret") (Some (tx "shop")) 42 true 0).
Proof. split; (split; [|intros d E; cbn in E; try discriminate E; try (injection E as <-)]); (split; [repeat constructor|cbn; intuition discriminate]). Qed.
