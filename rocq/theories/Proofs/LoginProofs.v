(* A server that follows the protocol: login and set-up succeed *)
From Coq Require Import Sorting.Permutation Strings.String.
From Verif Require Import Base.Tac Base.Bytes Base.Text Base.Res Base.Str Base.Parse Model.Codec Model.Gtid Model.GtidMaria Model.Events Model.Client
  Model.Commands Model.Responses Model.Channel Model.Session Spec.GtidSpec Spec.GtidMariaSpec Spec.CodecSpec Spec.CommandSpec Spec.ChannelSpec Spec.SessionSpec
  Proofs.CodecProofs Proofs.CommandProofs Proofs.ChannelProofs Proofs.ReplicateProofs Proofs.PlanProofs.
Local Open Scope N_scope.

(* m, started with the packets ps and then qs pending, uses up ps, leaves the client, returns v and adds l to the log *)
Definition does {A} (m : act A) (w : world) (qs : list packet) (t : list byte) (rest : list portion) (v : A) (l : list io) : Prop :=
  exists cs, m w = (Ok v, World (w_client w) cs (w_log w ++ l)) /\ pending cs qs t rest.
Lemma does_bind {A B} (m : act A) (f : A -> act B) w qs1 qs t rest v u l1 l2 :
  does m w qs1 t rest v l1 ->
  (forall cs, pending cs qs1 t rest -> does (f v) (World (w_client w) cs (w_log w ++ l1)) qs t rest u l2) -> does (abind m f) w qs t rest u (l1 ++ l2).
Proof.
  intros (cs & E & P) H. destruct (H cs P) as (cs' & E' & P'). exists cs'. split; [|exact P']. rewrite (abind_ok _ _ _ _ _ E), E'. cbn [w_client w_log].
  now rewrite <- app_assoc.
Qed.
Lemma does_read w p qs t rest : pending (w_in w) (p :: qs) t rest -> does a_read w qs t rest p [got p].
Proof. intros H. destruct (a_read_ok w p qs t rest H) as (cs & E & P). exists cs. auto. Qed.
Lemma does_write w p s qs t rest : N.of_nat (length p) < 16777216 -> pending (w_in w) qs t rest -> does (a_write p s) w qs t rest tt [Sent p s].
Proof. intros H P. exists (w_in w). split; [now apply a_write_ok|exact P]. Qed.
Lemma does_lift {A} w (r : res A) v qs t rest : r = Ok v -> pending (w_in w) qs t rest -> does (alift r) w qs t rest v [].
Proof. intros -> P. exists (w_in w). rewrite app_nil_r. split; [now destruct w|exact P]. Qed.
Lemma does_ret {A} w (v : A) qs t rest : pending (w_in w) qs t rest -> does (aret v) w qs t rest v [].
Proof. intros P. now apply does_lift. Qed.
Lemma does_client w qs t rest : pending (w_in w) qs t rest -> does a_client w qs t rest (w_client w) [].
Proof. intros P. exists (w_in w). rewrite app_nil_r. split; [now destruct w|exact P]. Qed.
Lemma does_bind0 {A B} (m : act A) (f : A -> act B) w qs1 qs t rest v u l :
  does m w qs1 t rest v [] ->
  (forall cs, pending cs qs1 t rest -> does (f v) (World (w_client w) cs (w_log w)) qs t rest u l) -> does (abind m f) w qs t rest u l.
Proof. intros H K. apply (does_bind m f w qs1 qs t rest v u [] l H). intros cs P. rewrite app_nil_r. now apply K. Qed.
(* an answer that is not an error *)
Lemma does_statement w sql m p qs t rest : N.of_nat (length (utf8_encode sql)) < 16777215 -> not_byte 0xFF (fst p) -> pending (w_in w) (p :: qs) t rest ->
  does (statement sql m) w qs t rest tt [Sent (query_command sql) 0; got p].
Proof.
  intros L N P. unfold statement. apply (does_bind _ _ _ (p :: qs) _ _ _ tt _ [_] [_]); [apply does_write; [unfold query_command; cbn [length]; lia|exact P]|].
  intros cs P1. apply (does_bind _ _ _ qs _ _ _ p _ [_] []); [now apply does_read|]. intros cs2 P2. apply does_lift; [now apply check_pass|exact P2].
Qed.
Lemma does_query_rows w sql r rows ps qs t rest : N.of_nat (length (utf8_encode sql)) < 16777215 -> result_ok r -> rs_rows r = map plain rows -> map fst ps = result_bodies r ->
  pending (w_in w) (ps ++ qs) t rest ->
  does (_ <== a_write (query_command sql) 0 ;; read_result_set) w qs t rest rows (Sent (query_command sql) 0 :: map got ps).
Proof.
  intros L O R M P. apply (does_bind _ _ _ (ps ++ qs) _ _ _ tt _ [_] (map got ps)); [apply does_write; [unfold query_command; cbn [length]; lia|exact P]|].
  intros cs P1. destruct (read_result_set_ok r rows (World (w_client w) cs (w_log w ++ [Sent (query_command sql) 0])) ps qs t rest O R M P1) as (cs2 & E2 & P2). exists cs2. auto.
Qed.

(* lengths of texts of numbers *)
Lemma dec_aux_length fuel : forall n, (length (dec_aux fuel n) <= fuel)%nat.
Proof. induction fuel as [|fuel IH]; intros n; cbn [dec_aux]; [cbn; lia|]. rewrite app_length. destruct (n <? 10); cbn [length]; [lia|]. specialize (IH (n / 10)). lia. Qed.
Lemma dec_text_length n : (length (dec_text n) <= S (N.to_nat (N.log2 n)))%nat.
Proof. apply dec_aux_length. Qed.
Lemma ascii_length t : Forall (fun c => c < 128) t -> length (utf8_encode t) = length t.
Proof.
  unfold utf8_encode. induction 1 as [|c t H _ IH]; cbn [flat_map length]; [reflexivity|]. rewrite app_length, IH. unfold utf8_char. destruct (N.ltb_spec c 128); [reflexivity|lia].
Qed.
Lemma heartbeat_sql_length hb : hb < 2 ^ 100 -> N.of_nat (length (utf8_encode (heartbeat_sql hb))) < 1000.
Proof.
  intros H. rewrite ascii_length.
  - unfold heartbeat_sql. rewrite app_length. pose proof (dec_text_length (heartbeat_period hb)) as L. pose proof (heartbeat_period_bounds hb) as [[B _] _].
    assert (N.log2 (heartbeat_period hb) < 100 + 1).
    { destruct (N.eq_dec (heartbeat_period hb) 0) as [->|Z]; [reflexivity|]. apply N.log2_lt_pow2; [lia|]. change (2 ^ (100 + 1)) with (2 * 2 ^ 100). lia. }
    change (length (tx "set @master_heartbeat_period=")) with 29%nat. lia.
  - unfold heartbeat_sql. apply Forall_app. split; [repeat constructor|]. apply Forall_forall. intros c Hc. apply dec_text_In in Hc. lia.
Qed.

(* ---- login with mysql_native_password ---- *)
Lemma login_size cr user password database scramble p plugin co bs k :
  (forall m, length (match p with NativePassword => sha1 cr m | CachingSha2 => sha256 cr m end) = k) -> (0 < k < 256)%nat ->
  N.of_nat (length (utf8_encode user)) < 1000000 -> (forall d, database = Some d -> N.of_nat (length (utf8_encode d)) < 1000000) -> N.of_nat (length (utf8_encode plugin)) < 1000000 ->
  authenticate_command cr user password database scramble p plugin co = Ok bs -> N.of_nat (length bs) < 16777216.
Proof.
  intros Hk K U D Pl E. unfold authenticate_command in E.
  assert (X : exists e, encrypt_password cr password scramble p = Ok e /\ length e = k).
  { destruct p; cbn [encrypt_password]; destruct (native_ok _ k password scramble Hk) as (r & E1 & E2 & _); try lia; eauto. }
  destruct X as (e & E1 & E2). rewrite E1 in E. cbn [rbind] in E. 
  assert (B : bs = le_enc 4 (client_capabilities database) ++ le_enc 4 0 ++ le_enc 1 co ++ repeat (n2b 0) 23
      ++ write_null_term_string user ++ le_enc 1 (N.of_nat (length e)) ++ e
      ++ match database with Some d => write_null_term_string d | None => [] end ++ write_null_term_string plugin) by congruence.
  rewrite B. unfold write_null_term_string. rewrite !app_length, !le_enc_length, repeat_length. cbn [length].
  assert (N.of_nat (length (match database with Some d => utf8_encode d ++ [n2b 0] | None => [] end)) < 1000002).
  { destruct database as [d|]; [|reflexivity]. rewrite app_length. cbn [length]. specialize (D d eq_refl). lia. }
  lia.
Qed.
Lemma login_sent cr user password database scramble p plugin co k :
  (forall m, length (match p with NativePassword => sha1 cr m | CachingSha2 => sha256 cr m end) = k) -> (0 < k < 256)%nat ->
  exists bs, authenticate_command cr user password database scramble p plugin co = Ok bs.
Proof.
  intros Hk K. assert (X : exists e, encrypt_password cr password scramble p = Ok e).
  { destruct p; cbn [encrypt_password]; destruct (native_ok _ k password scramble Hk) as (r & E1 & E2 & _); try lia; eauto. }
  destruct X as (e & E). unfold authenticate_command. rewrite E. cbn [rbind]. eauto.
Qed.
Definition he_scramble (h : hello) : text := he_part1 h ++ if secure h then he_part2 h else [].
Lemma hello_not_error h : hello_ok h -> he_protocol h <> 255 -> not_byte 0xFF (hello_bytes h).
Proof.
  intros H N. unfold hello_bytes. destruct H as (H & _). exists (n2b (he_protocol h)). eexists. split; [cbn [le_enc app]; reflexivity|]. rewrite b2n_n2b by exact H. exact N.
Qed.
Lemma parse_hello h : hello_ok h -> exists hs, parse_handshake (hello_bytes h) = Ok hs /\ hs_version hs = he_version h /\ hs_scramble hs = he_scramble h /\
  hs_plugin hs = (if plugin_auth h then he_plugin h else []).
Proof. intros H. rewrite <- (app_nil_r (hello_bytes h)). rewrite handshake_ok by exact H. eexists. split; [reflexivity|]. auto. Qed.
Lemma native_lookup : get_auth_plugin native_name = Ok NativePassword. Proof. reflexivity. Qed.
Lemma caching_lookup : get_auth_plugin caching_name = Ok CachingSha2. Proof. reflexivity. Qed.

(* ---- caching_sha2_password, full authentication ---- *)
Definition rsa_ok (ev : env) (st : settings) (pem : list byte) (decrypt : list byte -> list byte) : Prop :=
  forall m, length m = S (length (utf8_encode (s_password st))) ->
    exists e, rsa (e_crypto ev) pem m = Ok e /\ N.of_nat (length e) < 16777216 /\ decrypt e = m.
Definition delivers (st : settings) (decrypt : list byte -> list byte) (scramble : text) (e : list byte) : Prop :=
  xor_cycled (decrypt e) (utf8_encode scramble) = utf8_encode (s_password st) ++ [n2b 0].
Definition cipher (ev : env) (st : settings) (pem : list byte) (scramble : text) (e : list byte) : Prop :=
  rsa (e_crypto ev) pem (xor_cycled (utf8_encode (s_password st) ++ [n2b 0]) (utf8_encode scramble)) = Ok e /\ N.of_nat (length e) < 16777216.
Lemma cipher_exists ev st pem decrypt scramble : rsa_ok ev st pem decrypt -> exists e, cipher ev st pem scramble e /\ delivers st decrypt scramble e.
Proof.
  intros R. set (plain := utf8_encode (s_password st) ++ [n2b 0]).
  destruct (R (xor_cycled plain (utf8_encode scramble))) as (e & E1 & E2 & E3).
  { rewrite xor_cycled_length. unfold plain. rewrite app_length. cbn [length]. lia. }
  exists e. split; [split; assumption|]. unfold delivers. rewrite E3. apply xor_cycled_twice.
Qed.
Lemma does_sha bl ev st pem e n scramble sq s2 ok w qs t rest :
  cipher ev st pem scramble e -> utf8_encode scramble <> [] -> s2 < 255 -> not_byte 0xFF (fst ok) ->
  pending (w_in w) ((n2b 1 :: pem, s2) :: ok :: qs) t rest ->
  does (authenticate_sha_256 bl ev st (n2b 1 :: n2b 4 :: n) scramble sq false) w qs t rest tt [Sent [n2b 2] sq; got (n2b 1 :: pem, s2); Sent e (s2 + 1); got ok].
Proof.
  intros [E1 E2] SC S OK P. unfold authenticate_sha_256. set (plain := utf8_encode (s_password st) ++ [n2b 0]) in *.
  apply (does_bind0 _ _ _ ((n2b 1 :: pem, s2) :: ok :: qs) _ _ _ 1); [apply does_lift; [now apply byte_at_head|exact P]|]. intros c1 P1.
  change (1 =? 1) with true. cbv iota.
  apply (does_bind0 _ _ _ ((n2b 1 :: pem, s2) :: ok :: qs) _ _ _ false).
  { apply (does_bind0 _ _ _ ((n2b 1 :: pem, s2) :: ok :: qs) _ _ _ 4); [apply does_lift; [reflexivity|exact P1]|]. intros c2 P2. now apply does_ret. }
  intros c2 P2. cbv iota zeta.
  apply (does_bind _ _ _ ((n2b 1 :: pem, s2) :: ok :: qs) _ _ _ tt _ [_] [_; _; _]); [apply does_write; [reflexivity|exact P2]|]. intros c3 P3.
  apply (does_bind _ _ _ (ok :: qs) _ _ _ (n2b 1 :: pem, s2) _ [_] [_; _]); [now apply does_read|]. intros c4 P4.
  apply (does_bind0 _ _ _ (ok :: qs) _ _ _ tt); [apply does_lift; [apply check_pass; eexists; eexists; split; [reflexivity|]; rewrite b2n_n2b; lia|exact P4]|]. intros c5 P5.
  cbn [fst snd skipn].
  apply (does_bind0 _ _ _ (ok :: qs) _ _ _ (xor_cycled plain (utf8_encode scramble))); [apply does_lift; [now apply xor_bytes_ok|exact P5]|]. intros c6 P6.
  apply (does_bind0 _ _ _ (ok :: qs) _ _ _ e); [apply does_lift; [exact E1|exact P6]|]. intros c7 P7.
  apply (does_bind0 _ _ _ (ok :: qs) _ _ _ (s2 + 1)); [apply does_lift; [apply uadd_ok; lia|exact P7]|]. intros c8 P8.
  apply (does_bind _ _ _ (ok :: qs) _ _ _ tt _ [_] [_]); [apply does_write; [exact E2|exact P8]|]. intros c9 P9.
  apply (does_bind _ _ _ qs _ _ _ ok _ [_] []); [now apply does_read|]. intros c10 P10. apply does_lift; [now apply check_pass|exact P10].
Qed.

(* the common first part of a login: hello, login packet, first answer; [answer] goes on *)
Definition hash_of (cr : crypto) (p : auth_plugin) : list byte -> list byte := match p with NativePassword => sha1 cr | CachingSha2 => sha256 cr end.
Definition plugin_text (p : auth_plugin) : text := match p with NativePassword => native_name | CachingSha2 => caching_name end.
Definition hashes (ev : env) : Prop := forall p, exists k, (forall m, length (hash_of (e_crypto ev) p m) = k) /\ (0 < k < 256)%nat.
Definition names_fit (st : settings) : Prop :=
  N.of_nat (length (utf8_encode (s_user st))) < 1000000 /\ (forall d, s_database st = Some d -> N.of_nat (length (utf8_encode d)) < 1000000).
Definition hello_for (h : hello) (p : auth_plugin) : Prop := hello_ok h /\ he_protocol h <> 255 /\ plugin_auth h = true /\ he_plugin h = plugin_text p.
Lemma does_connect bl ev st h p s login answer w qs qs2 t rest l :
  hashes ev -> names_fit st -> s_ssl st = Disabled -> hello_for h p -> s < 255 -> not_byte 0xFF (fst answer) ->
  authenticate_command (e_crypto ev) (s_user st) (s_password st) (s_database st) (he_scramble h) p (plugin_text p) 45 = Ok login ->
  pending (w_in w) ((hello_bytes h, s) :: answer :: qs) t rest ->
  (forall w', pending (w_in w') qs t rest -> does
    (b <== alift (byte_at (fst answer) 0) ;;
     if b =? resp_ok then aret tt
     else if b =? resp_switch then
       sw <== alift (parse_auth_switch (skipn 1 (fst answer))) ;;
       s <== alift (uadd 256 bl (snd answer) 1) ;;
       handle_switch bl ev st sw s false
     else
       s <== alift (uadd 256 bl (snd answer) 1) ;;
       authenticate_sha_256 bl ev st (fst answer) (he_scramble h) s false) w' qs2 t rest tt l) ->
  does (connect bl ev st) w qs2 t rest (provider_from (he_version h)) ([got (hello_bytes h, s); Sent login (s + 1); got answer] ++ l).
Proof.
  intros HH (L2 & L3) SSL (H & HP & PA & PN) S OK B P G. destruct (parse_hello h H) as (hs & E1 & E2 & E3 & E4). rewrite PA, PN in E4. destruct (HH p) as (k & K1 & K2).
  unfold connect. set (qq := answer :: qs) in *.
  apply (does_bind _ _ _ qq _ _ _ (hello_bytes h, s) _ [_] ([_; _] ++ l)); [now apply does_read|]. intros c1 P1.
  apply (does_bind0 _ _ _ qq _ _ _ tt); [apply does_lift; [apply check_pass, hello_not_error; assumption|exact P1]|]. intros c2 P2.
  apply (does_bind0 _ _ _ qq _ _ _ hs); [apply does_lift; [exact E1|exact P2]|]. intros c3 P3.
  apply (does_bind0 _ _ _ qq _ _ _ p); [apply does_lift; [rewrite E4; destruct p; reflexivity|exact P3]|]. intros c4 P4.
  apply (does_bind0 _ _ _ qq _ _ _ (s + 1)); [apply does_lift; [apply uadd_ok; cbn [snd]; lia|exact P4]|]. intros c5 P5.
  rewrite <- (app_nil_r ([_; _] ++ l)).
  apply (does_bind _ _ _ qs2 _ _ _ tt _ ([_; _] ++ l) []); [|intros c6 P6; rewrite E2; now apply does_ret].
  unfold authenticate. rewrite SSL. change (ssl_code Disabled =? 0) with true. cbv iota.
  apply (does_bind0 _ _ _ qq _ _ _ tt); [now apply does_ret|]. intros c6 P6.
  apply (does_bind0 _ _ _ qq _ _ _ login); [apply does_lift; [rewrite E3, E4; exact B|exact P6]|]. intros c7 P7.
  apply (does_bind _ _ _ qq _ _ _ tt _ [_] ([_] ++ l)).
  { apply does_write; [|exact P7]. apply (login_size (e_crypto ev) (s_user st) (s_password st) (s_database st) (he_scramble h) p (plugin_text p) 45 login k); auto.
    - destruct p; exact K1.
    - destruct p; reflexivity. }
  intros c8 P8. apply (does_bind _ _ _ qs _ _ _ answer _ [_] l); [now apply does_read|]. intros c9 P9.
  apply (does_bind0 _ _ _ qs _ _ _ tt); [apply does_lift; [now apply check_pass|exact P9]|]. intros c10 P10. rewrite E3. apply G. exact P10.
Qed.
Lemma login_exists ev st h p : hashes ev -> exists login,
  authenticate_command (e_crypto ev) (s_user st) (s_password st) (s_database st) (he_scramble h) p (plugin_text p) 45 = Ok login.
Proof. intros H. destruct (H p) as (k & K1 & K2). eapply login_sent; [|exact K2]. intros m. specialize (K1 m). destruct p; exact K1. Qed.
(* accepted at once *)
Lemma does_connect_ok bl ev st h p s login ok w qs t rest :
  hashes ev -> names_fit st -> s_ssl st = Disabled -> hello_for h p -> s < 255 -> starts_byte 0 (fst ok) ->
  authenticate_command (e_crypto ev) (s_user st) (s_password st) (s_database st) (he_scramble h) p (plugin_text p) 45 = Ok login ->
  pending (w_in w) ((hello_bytes h, s) :: ok :: qs) t rest ->
  does (connect bl ev st) w qs t rest (provider_from (he_version h)) [got (hello_bytes h, s); Sent login (s + 1); got ok].
Proof.
  intros HH NF SSL HF S OK B P. destruct OK as [d OK].
  eapply (does_connect bl ev st h p s login ok w qs qs t rest []); eauto.
  - exists (n2b 0), d. split; [exact OK|]. rewrite b2n_n2b; lia.
  - intros w' P'. rewrite OK. apply (does_bind0 _ _ _ qs _ _ _ 0); [apply does_lift; [now apply byte_at_head|exact P']|]. intros c P1.
    change (0 =? resp_ok) with true. cbv iota. now apply does_ret.
Qed.
(* full authentication *)
Lemma does_connect_full bl ev st h s login n s1 pem e s2 ok w qs t rest :
  hashes ev -> names_fit st -> s_ssl st = Disabled -> hello_for h CachingSha2 -> s < 255 -> s1 < 255 -> s2 < 255 -> not_byte 0xFF (fst ok) ->
  utf8_encode (he_scramble h) <> [] -> cipher ev st pem (he_scramble h) e ->
  authenticate_command (e_crypto ev) (s_user st) (s_password st) (s_database st) (he_scramble h) CachingSha2 caching_name 45 = Ok login ->
  pending (w_in w) ((hello_bytes h, s) :: (n2b 1 :: n2b 4 :: n, s1) :: (n2b 1 :: pem, s2) :: ok :: qs) t rest ->
  does (connect bl ev st) w qs t rest (provider_from (he_version h))
    [got (hello_bytes h, s); Sent login (s + 1); got (n2b 1 :: n2b 4 :: n, s1); Sent [n2b 2] (s1 + 1); got (n2b 1 :: pem, s2); Sent e (s2 + 1); got ok].
Proof.
  intros HH NF SSL HF S S1 S2 OK SC CI B P.
  apply (does_connect bl ev st h CachingSha2 s login (n2b 1 :: n2b 4 :: n, s1) w ((n2b 1 :: pem, s2) :: ok :: qs) qs t rest [_; _; _; _]); auto.
  - eexists; eexists; split; [reflexivity|]. rewrite b2n_n2b; lia.
  - intros w' P'. cbn [fst snd skipn].
    apply (does_bind0 _ _ _ ((n2b 1 :: pem, s2) :: ok :: qs) _ _ _ 1); [apply does_lift; [now apply byte_at_head|exact P']|]. intros c1 P1.
    change (1 =? resp_ok) with false. change (1 =? resp_switch) with false. cbv iota.
    apply (does_bind0 _ _ _ ((n2b 1 :: pem, s2) :: ok :: qs) _ _ _ (s1 + 1)); [apply does_lift; [apply uadd_ok; lia|exact P1]|]. intros c2 P2.
    apply does_sha; auto.
Qed.
(* a switch of the authentication method: name and new scramble *)
Definition switch_body (p : auth_plugin) (scramble : text) : list byte := n2b 0xFE :: cstring (plugin_text p) ++ cstring scramble.
Lemma parse_switch p scramble : cstring_ok scramble -> parse_auth_switch (cstring (plugin_text p) ++ cstring scramble) = Ok (plugin_text p, scramble).
Proof.
  intros H. unfold parse_auth_switch, auth_switch_parser. rewrite <- (app_nil_r (_ ++ cstring scramble)). apply on_slice_runs.
  eapply runs_bind; [apply runs_cstring; destruct p; split; [repeat constructor|cbn; intuition discriminate|repeat constructor|cbn; intuition discriminate]|].
  eapply runs_bind_last; [apply runs_cstring, H|]. apply runs_ret.
Qed.
Lemma does_connect_switch bl ev st h p s login p2 scramble s1 reply answer l w qs qs2 t rest :
  hashes ev -> names_fit st -> s_ssl st = Disabled -> hello_for h p -> s < 255 -> s1 < 255 -> not_byte 0xFF (fst answer) -> cstring_ok scramble ->
  authenticate_command (e_crypto ev) (s_user st) (s_password st) (s_database st) (he_scramble h) p (plugin_text p) 45 = Ok login ->
  encrypt_password (e_crypto ev) (s_password st) scramble p2 = Ok reply ->
  pending (w_in w) ((hello_bytes h, s) :: (switch_body p2 scramble, s1) :: answer :: qs) t rest ->
  (forall w', pending (w_in w') qs t rest -> does
    (if text_eqb (plugin_text p2) caching_name then
       s <== alift (uadd 256 bl (snd answer) 1) ;;
       authenticate_sha_256 bl ev st (fst answer) scramble s false
     else aret tt) w' qs2 t rest tt l) ->
  does (connect bl ev st) w qs2 t rest (provider_from (he_version h))
    ([got (hello_bytes h, s); Sent login (s + 1); got (switch_body p2 scramble, s1); Sent reply (s1 + 1); got answer] ++ l).
Proof.
  intros HH NF SSL HF S S1 A CS B R P G.
  apply (does_connect bl ev st h p s login (switch_body p2 scramble, s1) w (answer :: qs) qs2 t rest ([_; _] ++ l)); auto.
  - eexists; eexists; split; [reflexivity|]. rewrite b2n_n2b; lia.
  - intros w' P'. cbn [fst snd]. unfold switch_body at 1 2. cbn [skipn].
    apply (does_bind0 _ _ _ (answer :: qs) _ _ _ 0xFE); [apply does_lift; [now apply byte_at_head|exact P']|]. intros c1 P1.
    change (0xFE =? resp_ok) with false. change (0xFE =? resp_switch) with true. cbv iota.
    apply (does_bind0 _ _ _ (answer :: qs) _ _ _ (plugin_text p2, scramble)); [apply does_lift; [now apply parse_switch|exact P1]|]. intros c2 P2.
    apply (does_bind0 _ _ _ (answer :: qs) _ _ _ (s1 + 1)); [apply does_lift; [apply uadd_ok; lia|exact P2]|]. intros c3 P3.
    unfold handle_switch. cbn [fst snd].
    apply (does_bind0 _ _ _ (answer :: qs) _ _ _ p2); [apply does_lift; [destruct p2; reflexivity|exact P3]|]. intros c4 P4.
    apply (does_bind0 _ _ _ (answer :: qs) _ _ _ reply); [apply does_lift; [exact R|exact P4]|]. intros c5 P5.
    apply (does_bind _ _ _ (answer :: qs) _ _ _ tt _ [_] ([_] ++ l)).
    { apply does_write; [|exact P5]. destruct (HH p2) as (k & K1 & K2). assert (length reply = k); [|lia].
      assert (Hk : forall m, length (match p2 with NativePassword => sha1 (e_crypto ev) m | CachingSha2 => sha256 (e_crypto ev) m end) = k) by (intros m; specialize (K1 m); destruct p2; exact K1).
      destruct p2; cbn [encrypt_password] in R; destruct (native_ok _ k (s_password st) scramble Hk) as (r & X1 & X2 & _); try lia; congruence. }
    intros c6 P6. apply (does_bind _ _ _ qs _ _ _ answer _ [_] l); [now apply does_read|]. intros c7 P7.
    apply (does_bind0 _ _ _ qs _ _ _ tt); [apply does_lift; [now apply check_pass|exact P7]|]. intros c8 P8. apply G. exact P8.
Qed.

(* ---- set-up ---- *)
Definition sizes_ok (pr : provider) (st : settings) (o : options) : Prop :=
  s_heartbeat st < 2 ^ 100 /\ N.of_nat (length (utf8_encode (o_file o))) < 1000000 /\
  (o_strategy o = FromGtid -> match pr with
    | MySQL => exists s, o_set o = Some s /\ N.of_nat (length (flat_map entry_bytes s)) < 10000000
    | MariaDB => exists l, o_list o = Some l /\ N.of_nat (length (gtid_list_text l)) < 10000000
    end).
Lemma does_dump st w qs t rest : N.of_nat (length (utf8_encode (o_file (c_opts (w_client w))))) < 1000000 -> pending (w_in w) qs t rest ->
  exists l, does (a_write (dump_command (the_id st) (o_file (c_opts (w_client w))) (o_pos (c_opts (w_client w)))) 0) w qs t rest tt l.
Proof.
  intros L P. eexists. apply does_write; [|exact P]. unfold dump_command. rewrite !app_length, !le_enc_length. cbn [length]. lia.
Qed.
Lemma does_client_bind {A} (f : client -> act A) w qs t rest v l : does (f (w_client w)) w qs t rest v l -> does (abind a_client f) w qs t rest v l.
Proof. intros H. exact H. Qed.
Lemma does_mysql bl ev st w qs t rest : request_ok ev st (c_opts (w_client w)) -> sizes_ok MySQL st (c_opts (w_client w)) -> pending (w_in w) qs t rest ->
  exists l, does (replicate_mysql bl ev (the_id st)) w qs t rest tt l.
Proof.
  intros R (_ & L & G) P. unfold replicate_mysql. set (o := c_opts (w_client w)) in *.
  destruct (strategy_eqb (o_strategy o) FromGtid) eqn:S.
  - assert (S' : o_strategy o = FromGtid) by (destruct (o_strategy o); discriminate || reflexivity). destruct (G S') as (s & E & LS).
    destruct R as (R1 & R2 & R3). destruct (R3 s S' E) as (K1 & K2 & K3 & K4 & K5 & K6).
    assert (LE : forall a b : gtid_set, Permutation a b -> length (flat_map entry_bytes a) = length (flat_map entry_bytes b)).
    { clear. intros a b H. induction H; cbn [flat_map]; rewrite ?app_length; lia. }
    assert (SS : sendable (e_order ev s)) by (pose proof (set_ok_sendable s K1 K2 K3) as SS; unfold sendable in *; now rewrite <- K4).
    assert (ES : dump_sets bl (e_order ev s) = Ok (flat_map entry_bytes (e_order ev s))).
    { apply dump_sets_ok. eapply Forall_impl; [|exact SS]. cbn beta. intros e (_ & _ & K). eapply Forall_impl; [|exact K]. cbn beta. tauto. }
    eexists. apply does_client_bind. fold o. cbv zeta. rewrite S, E. unfold dump_gtid_command. rewrite ES. cbn [rbind].
    eapply (does_bind0 _ _ _ qs); [apply does_lift; [reflexivity|exact P]|]. intros cs Pc. apply does_write; [|exact Pc].
    rewrite !app_length, !le_enc_length. cbn [length]. specialize (LE _ _ K4). lia.
  - destruct (does_dump st w qs t rest L P) as (l & D). exists l. apply does_client_bind. fold o. cbv zeta. rewrite S. exact D.
Qed.
Lemma list_text_length l : length (utf8_encode (gtid_list_text l)) = length (gtid_list_text l).
Proof. apply ascii_length. eapply Forall_impl; [|apply gtid_list_chars]. cbn beta. intros. lia. Qed.
Lemma does_mariadb ev st w ps qs t rest : request_ok ev st (c_opts (w_client w)) -> sizes_ok MariaDB st (c_opts (w_client w)) ->
  Forall (fun p => not_byte 0xFF (fst p)) ps -> length ps = (match o_strategy (c_opts (w_client w)) with FromGtid => 5 | _ => 1 end)%nat -> pending (w_in w) (ps ++ qs) t rest ->
  exists l, does (replicate_mariadb st (the_id st)) w qs t rest tt l.
Proof.
  intros R (_ & L & G) N LP P. unfold replicate_mariadb. destruct ps as [|p ps]; [destruct (o_strategy _) in LP; discriminate LP|].
  apply Forall_cons_iff in N. destruct N as [N1 N]. cbn [app length] in *.
  destruct (does_statement w (tx "SET @mariadb_slave_capability=4") (tx "Setting @mariadb_slave_capability error.") p (ps ++ qs) t rest ltac:(reflexivity) N1 P) as (c1 & E1 & P1).
  set (l1 := [Sent (query_command (tx "SET @mariadb_slave_capability=4")) 0; got p]) in *. set (w1 := World (w_client w) c1 (w_log w ++ l1)) in *.
  assert (X : exists l2, does (c <== a_client ;; let o := c_opts c in
    _ <== (if strategy_eqb (o_strategy o) FromGtid then match o_list o with Some l => register_gtid_slave (s_server_id st) l | None => alift (Err (EString no_gtid_list)) end else aret tt) ;;
    a_write (dump_command (the_id st) (o_file o) (o_pos o)) 0) w1 qs t rest tt l2).
  2: { destruct X as (l2 & c2 & E2 & P2). exists (l1 ++ l2), c2. split; [|exact P2]. rewrite (abind_ok _ _ _ _ _ E1). fold w1. etransitivity; [exact E2|]. unfold w1. cbn [w_client w_log]. now rewrite <- app_assoc. }
  clear E1. set (o := c_opts (w_client w)) in *.
  destruct (o_strategy o) eqn:S.
  4: { destruct (G eq_refl) as (l & E & LL). destruct ps as [|p2 [|p3 [|p4 [|p5 [|? ?]]]]]; cbn [length] in LP; try discriminate LP.
    apply Forall_cons_iff in N. destruct N as [N2 N]. apply Forall_cons_iff in N. destruct N as [N3 N]. apply Forall_cons_iff in N. destruct N as [N4 N]. apply Forall_cons_iff in N. destruct N as [N5 N].
    cbn [app] in P1.
    assert (Y : exists l2, does (register_gtid_slave (s_server_id st) l) w1 qs t rest tt l2).
    { unfold register_gtid_slave. eexists.
      eapply (does_bind _ _ _ (p3 :: p4 :: p5 :: qs)); [apply does_statement; [|exact N2|exact P1]|intros c2 P2].
      { unfold connect_state_sql. rewrite !utf8_encode_app, !app_length, list_text_length.
        change (length (utf8_encode (tx "SET @slave_connect_state='"))) with 26%nat. change (length (utf8_encode (tx "'"))) with 1%nat. lia. }
      eapply (does_bind _ _ _ (p4 :: p5 :: qs)); [apply does_statement; [reflexivity|exact N3|exact P2]|intros c3 P3].
      eapply (does_bind _ _ _ (p5 :: qs)); [apply does_statement; [reflexivity|exact N4|exact P3]|intros c4 P4].
      eapply (does_bind _ _ _ (p5 :: qs)); [apply does_write; [unfold register_command; rewrite !app_length, !le_enc_length; cbn [length]; lia|exact P4]|intros c5 P5].
      eapply (does_bind _ _ _ qs); [apply does_read; exact P5|intros c6 P6]. apply does_lift; [now apply check_pass|exact P6]. }
    destruct Y as (l2 & c2 & E2 & P2). set (w2 := World (w_client w1) c2 (w_log w1 ++ l2)) in *.
    destruct (does_dump st w2 qs t rest L P2) as (l3 & D3). exists (l2 ++ l3). apply does_client_bind. change (c_opts (w_client w1)) with o. cbv zeta. rewrite S, E. cbn [strategy_eqb].
    destruct D3 as (c3 & E3 & P3). exists c3. split; [|exact P3]. rewrite (abind_ok _ _ _ _ _ E2). fold w2. change (c_opts (w_client w2)) with o in E3. rewrite E3. unfold w2. cbn [w_client w_log]. now rewrite <- app_assoc. }
  all: destruct ps; [|discriminate LP]; cbn [app] in P1; destruct (does_dump st w1 qs t rest L P1) as (l3 & c3 & E3 & P3); exists l3; apply does_client_bind;
    change (c_opts (w_client w1)) with o in *; cbv zeta; rewrite S; cbn [strategy_eqb]; exists c3; split; [|exact P3]; exact E3.
Qed.
Lemma checksum_named ck : checksum_from_name (checksum_name ck) = Ok ck.
Proof. destruct ck; reflexivity. Qed.
Lemma accepts_adjust pr o0 ps o ck : accepts pr o0 ps o ck -> adjusted o0 o.
Proof.
  intros (status & a1 & a2 & sums & more & rs & _ & H & _). unfold adjusted. destruct (o_strategy o0) eqn:S, (o_file o0); try (destruct H as [_ ->]; auto; fail).
  destruct H as (s & f & p & cl & _ & _ & _ & Hp & ->). cbn. auto.
Qed.
Lemma set_up_completes bl ev st pr o0 o ck w ps qs t rest : c_opts (w_client w) = o0 -> accepts pr o0 ps o ck -> request_ok ev st o -> sizes_ok pr st o ->
  pending (w_in w) (ps ++ qs) t rest ->
  exists cs l, set_up bl ev st pr w = (Ok ck, World (Client o false None None) cs (w_log w ++ l)) /\ pending cs qs t rest.
Proof.
  intros O A R SZ P. pose proof (accepts_adjust _ _ _ _ _ A) as (AD1 & _). destruct A as (status & a1 & a2 & sums & more & rs & -> & HS & N1 & N2 & RO & RB & RR & NM & LM).
  rewrite <- !app_assoc in P. cbn [app] in P.
  assert (ADJ : exists cs l, adjust_starting_position (World (client_reset (w_client w)) (w_in w) (w_log w)) = (Ok tt, World (Client o false None None) cs (w_log w ++ l)) /\
    pending cs (a1 :: a2 :: sums ++ more ++ qs) t rest).
  { set (w0 := World (client_reset (w_client w)) (w_in w) (w_log w)).
    destruct (asks_end o0) eqn:AE.
    - unfold asks_end in AE. destruct (o_strategy o0) eqn:S; try discriminate AE. destruct (o_file o0) eqn:F; [|discriminate AE].
      destruct HS as (s & file & pos & cells & H1 & H2 & H3 & H4 & ->).
      destruct (does_query_rows w0 (tx "show master status") s [file :: dec_text pos :: cells] status (a1 :: a2 :: sums ++ more ++ qs) t rest ltac:(reflexivity) H1 H3 H2 P) as (cs & E & P').
      exists cs. eexists. split; [|exact P']. unfold adjust_starting_position. unfold abind at 1, a_client. cbn [w0 w_client client_reset c_opts]. rewrite O, S, F. cbn [strategy_eqb negb].
      assert (X : forall (f : list (list text) -> act unit), abind (a_write (query_command (tx "show master status")) 0) (fun _ => abind read_result_set f) w0 = f [file :: dec_text pos :: cells] (World (w_client w0) cs (w_log w0 ++ Sent (query_command (tx "show master status")) 0 :: map got status))).
      { intros f. revert E. unfold abind. destruct (a_write (query_command (tx "show master status")) 0 w0) as [[u|?| |] w1]; intros E; try discriminate E. now rewrite E. }
      rewrite X. unfold abind, a_set_client, alift. rewrite parse_dec_text by exact H4. unfold with_coords. cbn [w_client w_in w_log w0 client_reset c_txn c_maria c_mysql]. rewrite S. reflexivity.
    - assert (HO : status = [] /\ o = o0) by (unfold asks_end in AE; destruct (o_strategy o0), (o_file o0); try exact HS; discriminate AE). destruct HO as [-> ->].
      exists (w_in w), []. rewrite app_nil_r. split; [|exact P].
      destruct (adjust_starting_position w0) as [r w'] eqn:E. destruct (adjust_none w0 r w') as [-> ->]; [unfold w0; cbn [w_client client_reset c_opts]; now rewrite O|exact E|].
      unfold w0, client_reset. now rewrite O. }
  destruct ADJ as (c1 & l1 & E1 & P1). unfold set_up. set (w1 := World (Client o false None None) c1 (w_log w ++ l1)) in *.
  assert (REST : exists l, does (_ <== set_master_heartbeat st ;; ck <== set_master_binlog_checksum ;;
    _ <== match pr with MariaDB => replicate_mariadb st (the_id st) | MySQL => replicate_mysql bl ev (the_id st) end ;; aret ck) w1 qs t rest ck l).
  { destruct SZ as (Z1 & Z2 & Z3).
    destruct (does_statement w1 (heartbeat_sql (s_heartbeat st)) (tx "Setting master heartbeat error.") a1 (a2 :: sums ++ more ++ qs) t rest) as (c2 & E2 & P2); [|exact N1|exact P1|].
    { pose proof (heartbeat_sql_length _ Z1). lia. }
    set (w2 := World (w_client w1) c2 (w_log w1 ++ [Sent (query_command (heartbeat_sql (s_heartbeat st))) 0; got a1])) in *.
    destruct (does_statement w2 (tx "SET @master_binlog_checksum= @@global.binlog_checksum") (tx "Setting master_binlog_checksum error.") a2 (sums ++ more ++ qs) t rest ltac:(reflexivity) N2 P2) as (c3 & E3 & P3).
    set (w3 := World (w_client w2) c3 (w_log w2 ++ [Sent (query_command (tx "SET @master_binlog_checksum= @@global.binlog_checksum")) 0; got a2])) in *.
    destruct (does_query_rows w3 (tx "SELECT @master_binlog_checksum") rs [[checksum_name ck]] sums (more ++ qs) t rest ltac:(reflexivity) RO RR RB P3) as (c4 & E4 & P4).
    set (w4 := World (w_client w3) c4 (w_log w3 ++ Sent (query_command (tx "SELECT @master_binlog_checksum")) 0 :: map got sums)) in *.
    assert (CK : set_master_binlog_checksum w2 = (Ok ck, w4)).
    { unfold set_master_binlog_checksum. rewrite (abind_ok _ _ _ _ _ E3). fold w3. revert E4. unfold abind.
      destruct (a_write (query_command (tx "SELECT @master_binlog_checksum")) 0 w3) as [[u|?| |] w5]; intros E4; try discriminate E4. rewrite E4. unfold alift. now rewrite checksum_named. }
    assert (D : exists l5, does (match pr with MariaDB => replicate_mariadb st (the_id st) | MySQL => replicate_mysql bl ev (the_id st) end) w4 qs t rest tt l5).
    { destruct pr.
      - apply (does_mariadb ev st w4 more qs t rest); [exact R|exact (conj Z1 (conj Z2 Z3))|exact NM| |exact P4]. cbn [w4 w3 w2 w1 w_client c_opts]. rewrite AD1. exact LM.
      - destruct more; [|discriminate LM]. apply (does_mysql bl ev st w4 qs t rest); [exact R|exact (conj Z1 (conj Z2 Z3))|exact P4]. }
    destruct D as (l5 & c5 & E5 & P5).
    eexists. exists c5. split; [|exact P5]. unfold set_master_heartbeat. rewrite (abind_ok _ _ _ _ _ E2). fold w2. rewrite (abind_ok _ _ _ _ _ CK). rewrite (abind_ok _ _ _ _ _ E5).
    unfold aret. f_equal. cbn [w4 w3 w2 w1 w_client w_log]. rewrite <- !app_assoc. reflexivity. }
  destruct REST as (l & c2 & E2 & P2). exists c2. exists (l1 ++ l). split; [|exact P2].
  unfold abind at 1, a_client. unfold abind at 1, a_set_client. rewrite (abind_ok _ _ _ _ _ E1). rewrite E2. unfold w1. cbn [w_client w_log]. now rewrite <- app_assoc.
Qed.
