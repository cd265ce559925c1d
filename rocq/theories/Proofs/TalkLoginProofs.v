(* Exactly which packets lead replicate() to an event stream, and which to a panic: the login. *)
From Coq Require Import Strings.String.
From Verif Require Import Base.Tac Base.Bytes Base.Text Base.Res Base.Str Base.Parse Model.Codec Model.Gtid Model.GtidMaria Model.Events Model.Client Model.Commands
  Model.Responses Model.Channel Model.Session Spec.GtidSpec Spec.CodecSpec Spec.CommandSpec Spec.ChannelSpec Spec.SessionSpec Spec.PanicSpec Spec.GtidTextSpec Spec.TalkSpec
  Proofs.CodecProofs Proofs.EventSafe Proofs.CommandProofs Proofs.ChannelProofs Proofs.ReplicateProofs Proofs.PlanProofs Proofs.LoginProofs Proofs.PanicProofs
  Proofs.TalkProofs Proofs.TalkPacketProofs Spec.TalkSpec.
Local Open Scope N_scope.

Lemma counts_dec bl n : counts bl n \/ ~ counts bl n.
Proof. unfold counts. destruct bl; [|left; discriminate]. destruct (N.eq_dec n 255) as [->|H]; [right; intros H; now apply H|left; auto]. Qed.
Lemma counts_ok bl n : n < 256 -> counts bl n -> exists s, uadd 256 bl n 1 = Ok s.
Proof.
  intros L C. unfold uadd. destruct (N.ltb_spec (n + 1) 256); [eauto|]. unfold counts in C. destruct bl; [exfalso; apply C; [reflexivity|lia]|eauto].
Qed.
Lemma counts_panic bl n : ~ counts bl n -> uadd 256 bl n 1 = Panic.
Proof.
  unfold counts. intros C. destruct bl; [|exfalso; apply C; discriminate]. destruct (N.eq_dec n 255) as [->|H]; [reflexivity|]. exfalso. apply C. auto.
Qed.
Lemma text_empty_encode t : utf8_encode t = [] <-> t = [].
Proof. split; [apply encode_nil|intros ->; reflexivity]. Qed.

Section Login.
Context (bl : build) (ev : env) (st : settings).
Context (HH : hashes ev) (NF : names_fit st).
Context (RS : forall k m, rsa (e_crypto ev) k m <> Panic /\ forall e, rsa (e_crypto ev) k m = Ok e -> N.of_nat (length e) < 16777216).

Definition full_ok (scramble : text) (ps : list packet) : Prop :=
  exists key fin, ps = [key; fin] /\ not_byte 0xFF (fst key) /\ scramble <> [] /\ encrypts ev st scramble (fst key) /\ counts bl (snd key) /\ not_byte 0xFF (fst fin).
Definition full_stops (scramble : text) (ps : list packet) : Prop :=
  exists key, ps = [key] /\ not_byte 0xFF (fst key) /\ (scramble = [] \/ encrypts ev st scramble (fst key) /\ ~ counts bl (snd key)).
Lemma tr_full c scr n : tr c
  (_ <== a_write [n2b 2] n ;;
   r <== a_read ;;
   _ <== alift (check_error_packet (fst r) (tx "Requesting caching_sha2_password public key.")) ;;
   x <== alift (xor_bytes (utf8_encode (s_password st) ++ [n2b 0]) (utf8_encode scr)) ;;
   e <== alift (rsa (e_crypto ev) (skipn 1 (fst r)) x) ;;
   s <== alift (uadd 256 bl (snd r) 1) ;;
   _ <== a_write e s ;;
   r <== a_read ;;
   alift (check_error_packet (fst r) (tx "Authentication error."))) (fun c' _ ps => c' = c /\ full_ok scr ps) (full_stops scr).
Proof.
  apply tr_write_bind; [reflexivity|]. apply tr_check_bind.
  { split; [intros c' _ ps (_ & key & fin & -> & H & _); eauto|intros ps (key & -> & H & _); eauto]. }
  intros key K1 K2. destruct scr as [|y scr'] eqn:ES.
  { eapply tr_conv; [apply tr_panic_bind| |].
    - unfold xor_bytes. cbn [utf8_encode flat_map]. destruct (utf8_encode (s_password st) ++ [n2b 0]) eqn:Z; [now apply app_eq_nil in Z|reflexivity].
    - intros c' [] ps _. unfold Ono. split; [contradiction|]. intros (_ & k & fin & _ & _ & N & _). now apply N.
    - intros ps _. unfold Xnow. split; [intros ->; exists key; auto|]. intros (k & E & _). now injection E as _ ->. }
  rewrite <- ES. assert (NS : scr <> []) by (rewrite ES; discriminate). clear ES y scr'.
  apply (tr_ok_bind c _ _ _ _ _ (xor_bytes_ok _ _ (fun Z => NS (proj1 (text_empty_encode _) Z)))).
  destruct (rsa (e_crypto ev) (skipn 1 (fst key)) (xor_cycled (utf8_encode (s_password st) ++ [n2b 0]) (utf8_encode scr))) as [e|e| |] eqn:R.
  2: { eapply tr_conv; [apply (tr_fail_bind c _ e); reflexivity| |]; unfold Ono, Xno.
    - intros c' [] ps _. split; [contradiction|]. intros (_ & k & fin & E & _ & _ & (z & Z) & _). injection E as -> _. congruence.
    - intros ps _. split; [contradiction|]. intros (k & E & _ & [Z|[(z & Z) _]]); [now apply NS|]. injection E as -> _. congruence. }
  2: { exfalso. now apply (RS (skipn 1 (fst key)) (xor_cycled (utf8_encode (s_password st) ++ [n2b 0]) (utf8_encode scr))). }
  2: { eapply tr_conv; [apply (tr_diverge_bind c); reflexivity| |]; unfold Ono, Xno.
    - intros c' [] ps _. split; [contradiction|]. intros (_ & k & fin & E & _ & _ & (z & Z) & _). injection E as -> _. congruence.
    - intros ps _. split; [contradiction|]. intros (k & E & _ & [Z|[(z & Z) _]]); [now apply NS|]. injection E as -> _. congruence. }
  assert (EN : encrypts ev st scr (fst key)) by (exists e; exact R). apply (tr_ok_bind c _ e); [reflexivity|]. destruct (counts_dec bl (snd key)) as [C|C].
  - destruct (counts_ok bl (snd key) (proj2 K1) C) as (s & S). apply (tr_ok_bind c _ s); [exact S|]. apply tr_write_bind; [exact (proj2 (RS _ _) _ R)|]. eapply tr_conv; [apply tr_check_end| |]; unfold Xno.
    + intros c' [] ps _. split.
      * intros (-> & p & -> & H). split; [reflexivity|]. exists key, p. auto 10.
      * intros (-> & k & fin & E & _ & _ & _ & _ & H). injection E as _ ->. eauto.
    + intros ps _. split; [contradiction|]. intros (k & E & _ & [Z|[_ Z]]); [now apply NS|]. injection E as -> _. contradiction.
  - eapply tr_conv; [apply tr_panic_bind; now apply counts_panic| |]; unfold Ono, Xnow.
    + intros c' [] ps _. split; [contradiction|]. intros (_ & k & fin & E & _ & _ & _ & Z & _). injection E as -> _. contradiction.
    + intros ps _. split; [intros ->; exists key; auto|]. intros (k & E & _). now injection E as _ ->.
Qed.
Lemma b2n_eq b n : b2n b = n -> b = n2b n. Proof. intros <-. symmetry. apply n2b_b2n. Qed.
Lemma tr_sha c x scr n : fst x <> [] ->
  tr c (authenticate_sha_256 bl ev st (fst x) scr n false) (fun c' _ ps => c' = c /\ sha_ok bl ev st scr (x :: ps)) (fun ps => sha_stops bl ev st scr (x :: ps)).
Proof.
  destruct x as [[|b d] s]; cbn [fst]; [congruence|]. intros _. unfold authenticate_sha_256. apply (tr_ok_bind c _ (b2n b)); [reflexivity|].
  assert (FULL : asks_full (b :: d) -> (forall d0, b :: d <> n2b 1 :: n2b 3 :: d0) -> b :: d <> [n2b 1] -> tr c
    (_ <== a_write [n2b 2] n ;;
     r <== a_read ;;
     _ <== alift (check_error_packet (fst r) (tx "Requesting caching_sha2_password public key.")) ;;
     x <== alift (xor_bytes (utf8_encode (s_password st) ++ [n2b 0]) (utf8_encode scr)) ;;
     e <== alift (rsa (e_crypto ev) (skipn 1 (fst r)) x) ;;
     s <== alift (uadd 256 bl (snd r) 1) ;;
     _ <== a_write e s ;;
     r <== a_read ;;
     alift (check_error_packet (fst r) (tx "Authentication error."))) (fun c' _ ps => c' = c /\ sha_ok bl ev st scr ((b :: d, s) :: ps)) (fun ps => sha_stops bl ev st scr ((b :: d, s) :: ps))).
  { intros AF N1 N2. eapply tr_conv; [apply tr_full| |].
    - intros c' [] ps _. split.
      + intros (-> & key & fin & -> & H). split; [reflexivity|]. right. exists (b :: d, s), key, fin. auto.
      + intros (-> & [(d0 & s0 & E)|(x & key & fin & E & _ & H)]); [exfalso; eapply N1; injection E as -> ->; reflexivity|]. split; [reflexivity|]. injection E as _ ->. exists key, fin. auto.
    - intros ps _. split.
      + intros (key & -> & H). right. exists (b :: d, s), key. auto.
      + intros [(s0 & E)|(x & key & E & _ & H)]; [exfalso; apply N2; injection E as -> ->; reflexivity|]. injection E as _ ->. exists key. auto. }
  destruct (N.eqb_spec (b2n b) 1) as [B|B].
  - apply b2n_eq in B. subst b. destruct d as [|c1 d].
    + apply tr_assoc. eapply tr_conv; [apply tr_panic_bind; reflexivity| |]; unfold Ono, Xnow.
      * intros c' [] ps _. split; [contradiction|]. intros (_ & [(d0 & s0 & E)|(x & key & fin & E & (b & d & E2 & AF) & _)]); [discriminate E|]. injection E as <- _. injection E2 as <- <-. destruct (AF eq_refl) as (? & ? & Z & _). discriminate Z.
      * intros ps _. split; [intros ->; left; eauto|]. intros [(s0 & E)|(x & key & E & (b & d & E2 & AF) & _)]; [now injection E as _ ->|]. injection E as <- _. injection E2 as <- <-. destruct (AF eq_refl) as (? & ? & Z & _). discriminate Z.
    + apply tr_assoc. apply (tr_ok_bind c _ (b2n c1)); [reflexivity|]. apply tr_ret_bind. destruct (N.eqb_spec (b2n c1) 3) as [C|C].
      * apply b2n_eq in C. subst c1. assert (NA : ~ asks_full (n2b 1 :: n2b 3 :: d)).
        { intros (b & d' & E & AF). injection E as <- <-. destruct (AF eq_refl) as (? & ? & Z & K). injection Z as <- <-. now apply K. }
        eapply tr_conv; [apply tr_ret| |]; unfold Oret, Xno.
        -- intros c' [] ps _. split; [intros (-> & _ & ->); split; [reflexivity|]; left; eauto|]. intros (-> & [(d0 & s0 & E)|(x & key & fin & E & AF & _)]); [now injection E as _ _ ->|]. injection E as <- _. contradiction.
        -- intros ps _. split; [contradiction|]. intros [(s0 & E)|(x & key & E & AF & _)]; [discriminate E|]. injection E as <- _. contradiction.
      * apply FULL; [exists (n2b 1), (c1 :: d); split; [reflexivity|]; intros _; exists c1, d; auto| |discriminate]. intros d0 E. injection E as -> ->. now apply C.
  - apply tr_ret_bind. apply FULL; [exists b, d; split; [reflexivity|]; intros Z; contradiction| |]; [intros d0 E|intros E]; injection E as -> _; now apply B.
Qed.

Lemma plugin_cases name : (name = tx "mysql_native_password" /\ get_auth_plugin name = Ok NativePassword) \/ (name = tx "caching_sha2_password" /\ get_auth_plugin name = Ok CachingSha2) \/
  (~ known name /\ exists e, get_auth_plugin name = Err e).
Proof.
  unfold get_auth_plugin, known, native_name, caching_name. destruct (text_eqb_spec name (tx "mysql_native_password")) as [E|E]; [auto|].
  destruct (text_eqb_spec name (tx "caching_sha2_password")) as [F|F]; [auto|]. right. right. split; [tauto|eauto].
Qed.
Definition switch_goes (name scr : text) (ps : list packet) : Prop :=
  (name = tx "mysql_native_password" /\ exists b, ps = [b] /\ not_byte 0xFF (fst b)) \/
  (name = tx "caching_sha2_password" /\ exists b rs, ps = b :: rs /\ not_byte 0xFF (fst b) /\ counts bl (snd b) /\ sha_ok bl ev st scr (b :: rs)).
Definition switch_stops (name scr : text) (ps : list packet) : Prop :=
  name = tx "caching_sha2_password" /\ exists b rs, ps = b :: rs /\ not_byte 0xFF (fst b) /\ ((rs = [] /\ ~ counts bl (snd b)) \/ (counts bl (snd b) /\ sha_stops bl ev st scr (b :: rs))).
Lemma not_nil n p : not_byte n p -> p <> []. Proof. intros (x & d & -> & _). discriminate. Qed.
Lemma tr_switch c name scr n : tr c (handle_switch bl ev st (name, scr) n false) (fun c' _ ps => c' = c /\ switch_goes name scr ps) (switch_stops name scr).
Proof.
  unfold handle_switch. cbn [fst snd].
  assert (W : forall pl (f : unit -> act unit) O X, get_auth_plugin name = Ok pl -> tr c (f tt) O X ->
    tr c (p <== alift (get_auth_plugin name) ;; x <== alift (auth_switch_command (e_crypto ev) (s_password st) scr p) ;; u <== a_write x n ;; f u) O X).
  { intros pl f O X PL F. destruct (HH pl) as (k & Hk & Kk). assert (E : exists e, auth_switch_command (e_crypto ev) (s_password st) scr pl = Ok e /\ length e = k).
    { unfold auth_switch_command, hash_of in *. destruct pl; cbn [encrypt_password]; destruct (native_ok _ k (s_password st) scr Hk) as (r & E1 & E2 & _); try lia; eauto. }
    destruct E as (e & E & LE). apply (tr_ok_bind c _ pl); [exact PL|]. apply (tr_ok_bind c _ e); [exact E|]. apply tr_write_bind; [lia|exact F]. }
  destruct (plugin_cases name) as [[E PL]|[[E PL]|[E (e & PL)]]].
  - eapply (W _ (fun _ => r <== a_read ;; _ <== alift (check_error_packet (fst r) _) ;; if text_eqb name caching_name then _ else _)); [exact PL|]. apply tr_check_bind.
    { split; [intros c' _ ps (_ & [(_ & b & -> & H)|(_ & b & rs & -> & H & _)]); eauto|intros ps (_ & b & rs & -> & H & _); eauto]. }
    intros b P NB. subst name. change (text_eqb _ caching_name) with false. cbv iota. eapply tr_conv; [apply tr_ret| |]; unfold Oret, Xno.
    + intros c' [] ps _. split; [intros (-> & _ & ->); split; [reflexivity|]; left; eauto|]. intros (-> & [(_ & q & E & _)|(E & _)]); [now injection E as _ ->|discriminate E].
    + intros ps _. split; [contradiction|]. intros (E & _). discriminate E.
  - eapply (W _ (fun _ => r <== a_read ;; _ <== alift (check_error_packet (fst r) _) ;; if text_eqb name caching_name then _ else _)); [exact PL|]. apply tr_check_bind.
    { split; [intros c' _ ps (_ & [(_ & b & -> & H)|(_ & b & rs & -> & H & _)]); eauto|intros ps (_ & b & rs & -> & H & _); eauto]. }
    intros b P NB. subst name. change (text_eqb _ caching_name) with true. cbv iota. destruct (counts_dec bl (snd b)) as [C|C].
    + destruct (counts_ok bl (snd b) (proj2 P) C) as (s & S). apply (tr_ok_bind c _ s); [exact S|]. eapply tr_conv; [apply tr_sha; exact (not_nil _ _ NB)| |].
      * intros c' [] ps _. split.
        -- intros (-> & H). split; [reflexivity|]. right. split; [reflexivity|]. exists b, ps. auto.
        -- intros (-> & [(E & _)|(_ & b' & rs & E & _ & _ & H)]); [discriminate E|]. injection E as <- <-. auto.
      * intros ps _. split.
        -- intros H. split; [reflexivity|]. exists b, ps. auto.
        -- intros (_ & b' & rs & E & _ & [(_ & H)|(_ & H)]); injection E as <- <-; [contradiction|exact H].
    + eapply tr_conv; [apply tr_panic_bind; now apply counts_panic| |]; unfold Ono, Xnow.
      * intros c' [] ps _. split; [contradiction|]. intros (_ & [(E & _)|(_ & b' & rs & E & _ & H & _)]); [discriminate E|]. injection E as <- <-. contradiction.
      * intros ps _. split; [intros ->; split; [reflexivity|]; exists b, []; auto|]. intros (_ & b' & rs & E & _ & [(H & _)|(H & _)]); injection E as <- <-; [exact H|contradiction].
  - eapply tr_conv; [apply (tr_fail_bind c _ e); exact PL| |]; unfold Ono, Xno, known in *.
    + intros c' [] ps _. split; [contradiction|]. intros (_ & [(Z & _)|(Z & _)]); exfalso; tauto.
    + intros ps _. split; [contradiction|]. intros (Z & _); exfalso; tauto.
Qed.

Definition answers_ok (scr0 : text) (qs : list packet) : Prop :=
  (exists a, qs = [a] /\ starts_byte 0 (fst a)) \/
  (exists a rs, qs = a :: rs /\ goes_on (fst a) /\ counts bl (snd a) /\ sha_ok bl ev st scr0 qs) \/
  (exists a scramble, switches (fst a) (tx "mysql_native_password") scramble /\ counts bl (snd a) /\ exists b, qs = [a; b] /\ not_byte 0xFF (fst b)) \/
  (exists a scramble, switches (fst a) (tx "caching_sha2_password") scramble /\ counts bl (snd a) /\
     exists b rs, qs = a :: b :: rs /\ not_byte 0xFF (fst b) /\ counts bl (snd b) /\ sha_ok bl ev st scramble (b :: rs)).
Definition answers_stop (scr0 : text) (qs : list packet) : Prop :=
  (exists a, qs = [a] /\ (goes_on (fst a) \/ exists n s, switches (fst a) n s) /\ ~ counts bl (snd a)) \/
  (exists a rs, qs = a :: rs /\ goes_on (fst a) /\ counts bl (snd a) /\ sha_stops bl ev st scr0 (a :: rs)) \/
  (exists a scramble b, qs = [a; b] /\ switches (fst a) (tx "caching_sha2_password") scramble /\ counts bl (snd a) /\ not_byte 0xFF (fst b) /\ ~ counts bl (snd b)) \/
  (exists a scramble b rs, qs = a :: b :: rs /\ switches (fst a) (tx "caching_sha2_password") scramble /\ counts bl (snd a) /\ not_byte 0xFF (fst b) /\ counts bl (snd b) /\ sha_stops bl ev st scramble (b :: rs)).
Lemma switches_starts p n s : switches p n s -> starts_byte 0xFE p.
Proof. intros (x & y & z & -> & _). exists x. reflexivity. Qed.
Lemma switches_same p n s n' s' : switches p n s -> switches p n' s' -> n = n' /\ s = s'.
Proof. intros A B. apply switch_exact in A, B. destruct A as [_ A]. destruct B as [_ B]. split; congruence. Qed.
Lemma starts_other a b p : starts_byte a p -> a < 256 -> a <> b -> not_byte b p.
Proof. intros (d & ->) L N. exists (n2b a), d. split; [reflexivity|]. now rewrite b2n_n2b. Qed.
Lemma answers_first scr0 : @first_ok unit (fun c' _ ps => c' = c' /\ answers_ok scr0 ps) (answers_stop scr0).
Proof.
  assert (SW : forall p n s, switches p n s -> not_byte 0xFF p) by (intros p n s H; apply switches_starts in H; apply (starts_other _ _ _ H); lia).
  split.
  - intros _ _ ps (_ & [(a & -> & H)|[(a & rs & -> & (H & _) & _)|[(a & scr & H & _ & b & -> & _)|(a & scr & H & _ & b & rs & -> & _)]]]); do 2 eexists; (split; [reflexivity|]); eauto.
    apply (starts_other _ _ _ H); lia.
  - intros ps [(a & -> & [(H & _)|(n & s & H)] & _)|[(a & rs & -> & (H & _) & _)|[(a & scr & b & -> & H & _)|(a & scr & b & rs & -> & H & _)]]]; do 2 eexists; (split; [reflexivity|]); eauto.
Qed.
Lemma tr_answers c scr0 : tr c
  (r <== a_read ;;
  _ <== alift (check_error_packet (fst r) (tx "Authentication error.")) ;;
  b <== alift (byte_at (fst r) 0) ;;
  if b =? resp_ok then aret tt
  else if b =? resp_switch then
    sw <== alift (parse_auth_switch (skipn 1 (fst r))) ;;
    s <== alift (uadd 256 bl (snd r) 1) ;;
    handle_switch bl ev st sw s false
  else
    s <== alift (uadd 256 bl (snd r) 1) ;;
    authenticate_sha_256 bl ev st (fst r) scr0 s false) (fun c' _ ps => c' = c /\ answers_ok scr0 ps) (answers_stop scr0).
Proof.
  apply tr_check_bind; [destruct (answers_first scr0) as [F1 F2]; split; [intros c' u ps [_ H]; apply (F1 c' tt); auto|exact F2]|].
  intros a P NB. destruct (fst a) as [|b d] eqn:A; [now apply not_nil in NB|]. apply (tr_ok_bind c _ (b2n b)); [reflexivity|].
  assert (G0 : forall n, n < 256 -> b2n b <> n -> forall d', fst a <> n2b n :: d') by (intros n L N d' E; rewrite A in E; injection E as -> _; now rewrite b2n_n2b in N).
  unfold resp_ok, resp_switch. destruct (N.eqb_spec (b2n b) 0) as [B|B].
  { apply b2n_eq in B. assert (NG : ~ goes_on (fst a)) by (rewrite A, B; intros (_ & _ & x & d' & E & H); injection E as <- _; now apply H).
    assert (NW : forall n s, ~ switches (fst a) n s) by (intros n s H; apply switches_starts in H; destruct H as (d' & H); rewrite A, B in H; discriminate H).
    eapply tr_conv; [apply tr_ret| |]; unfold Oret, Xno.
    - intros c' [] ps _. split; [intros (-> & _ & ->); split; [reflexivity|]; left; exists a; split; [reflexivity|]; rewrite A, B; exists d; reflexivity|].
      intros (-> & [(a' & E & H)|[(a' & rs & E & H & _)|[(a' & scr & H & _ & b' & E & _)|(a' & scr & H & _ & b' & rs & E & _)]]]); injection E as <- ?; [auto|contradiction|now apply NW in H..].
    - intros ps _. split; [contradiction|].
      intros [(a' & E & [H|(n & s & H)] & _)|[(a' & rs & E & H & _)|[(a' & scr & b' & E & H & _)|(a' & scr & b' & rs & E & H & _)]]]; injection E as <- ?; try contradiction; now apply NW in H. }
  assert (N0 : ~ starts_byte 0 (fst a)) by (intros (d' & H); now apply (G0 0 ltac:(lia) B) in H).
  destruct (N.eqb_spec (b2n b) 0xFE) as [B2|B2].
  { assert (NG : ~ goes_on (fst a)) by (rewrite A; intros (_ & (x & d' & E & H) & _); injection E as <- _; contradiction).
    assert (SF : starts_byte 0xFE (fst a)) by (rewrite A, (b2n_eq _ _ B2); exists d; reflexivity).
    assert (NO : (forall n s, ~ switches (fst a) n s) -> forall (m : act unit), tr c m Ono Xno -> tr c m (fun c' _ ps => c' = c /\ answers_ok scr0 (a :: ps)) (fun ps => answers_stop scr0 (a :: ps))).
    { intros NW m M. eapply tr_conv; [exact M| |]; unfold Ono, Xno.
      - intros c' [] ps _. split; [contradiction|].
        intros (-> & [(a' & E & H)|[(a' & rs & E & H & _)|[(a' & scr & H & _ & b' & E & _)|(a' & scr & H & _ & b' & rs & E & _)]]]); injection E as <- ?; [contradiction..|now apply NW in H|now apply NW in H].
      - intros ps _. split; [contradiction|].
        intros [(a' & E & [H|(n & s & H)] & _)|[(a' & rs & E & H & _)|[(a' & scr & b' & E & H & _)|(a' & scr & b' & rs & E & H & _)]]]; injection E as <- ?; try contradiction; now apply NW in H. }
    rewrite <- A. destruct (parse_auth_switch (skipn 1 (fst a))) as [[n s]|e| |] eqn:W.
    2,3,4: apply NO; [intros n s H; apply switch_exact in H; destruct H as [_ H]; congruence|].
    2: now apply (tr_fail_bind c _ e). 2: now apply switch_panic in W. 2: now apply tr_diverge_bind.
    assert (SW : switches (fst a) n s) by (apply switch_exact; auto). apply (tr_ok_bind c _ (n, s)); [reflexivity|].
    destruct (counts_dec bl (snd a)) as [C|C].
    - destruct (counts_ok bl (snd a) (proj2 P) C) as (k & K). apply (tr_ok_bind c _ k); [exact K|]. eapply tr_conv; [apply tr_switch| |].
      + intros c' [] ps _. split.
        * intros (-> & [(-> & b' & -> & H)|(-> & b' & rs & -> & H)]); (split; [reflexivity|]); right; right; [left; exists a, s|right; exists a, s]; (split; [exact SW|]; split; [exact C|]); [exists b'|exists b', rs]; tauto.
        * intros (-> & [(a' & E & H)|[(a' & rs & E & H & _)|[(a' & scr & H & _ & b' & E & H2)|(a' & scr & H & _ & b' & rs & E & H2)]]]); injection E as <- ->; [contradiction..| |]; (split; [reflexivity|]);
            destruct (switches_same _ _ _ _ _ SW H) as [-> ->]; [left|right]; (split; [reflexivity|]); [exists b'|exists b', rs]; tauto.
      + intros ps _. split.
        * intros (-> & b' & rs & -> & NF' & [(-> & H)|(H1 & H2)]); right; right; [left; exists a, s, b'|right; exists a, s, b', rs]; tauto.
        * intros [(a' & E & _ & H)|[(a' & rs & E & H & _)|[(a' & scr & b' & E & H & _ & H2 & H3)|(a' & scr & b' & rs & E & H & _ & H2 & H3)]]]; injection E as <- ->; [contradiction..| |];
            destruct (switches_same _ _ _ _ _ SW H) as [-> ->]; (split; [reflexivity|]); [exists b', []|exists b', rs]; tauto.
    - eapply tr_conv; [apply tr_panic_bind; now apply counts_panic| |]; unfold Ono, Xnow.
      + intros c' [] ps _. split; [contradiction|].
        intros (_ & [(a' & E & H)|[(a' & rs & E & H & _)|[(a' & scr & _ & H & b' & E & _)|(a' & scr & _ & H & b' & rs & E & _)]]]); injection E as <- ?; contradiction.
      + intros ps _. split; [intros ->; left; exists a; eauto 6|].
        intros [(a' & E & _ & _)|[(a' & rs & E & H & _)|[(a' & scr & b' & E & _ & H & _)|(a' & scr & b' & rs & E & _ & H & _)]]]; injection E as <- ?; [assumption|contradiction..]. }
  assert (NW : forall n s, ~ switches (fst a) n s) by (intros n s H; apply switches_starts in H; destruct H as (d' & H); now apply (G0 0xFE ltac:(lia) B2) in H).
  rewrite <- A in *. assert (GO : goes_on (fst a)) by (split; [exact NB|]; rewrite A; split; exists b, d; auto).
  destruct (counts_dec bl (snd a)) as [C|C].
  - destruct (counts_ok bl (snd a) (proj2 P) C) as (k & K). apply (tr_ok_bind c _ k); [exact K|]. eapply tr_conv; [apply tr_sha; exact (not_nil _ _ NB)| |].
    + intros c' [] ps _. split.
      * intros (-> & H). split; [reflexivity|]. right. left. exists a, ps. auto.
      * intros (-> & [(a' & E & H)|[(a' & rs & E & _ & _ & H)|[(a' & scr & H & _ & b' & E & _)|(a' & scr & H & _ & b' & rs & E & _)]]]); injection E as <- ?; [contradiction|auto|now apply NW in H..].
    + intros ps _. split.
      * intros H. right. left. exists a, ps. auto.
      * intros [(a' & E & _ & H)|[(a' & rs & E & _ & _ & H)|[(a' & scr & b' & E & H & _)|(a' & scr & b' & rs & E & H & _)]]]; injection E as <- ?; [contradiction|now subst|now apply NW in H..].
  - eapply tr_conv; [apply tr_panic_bind; now apply counts_panic| |]; unfold Ono, Xnow.
    + intros c' [] ps _. split; [contradiction|].
      intros (_ & [(a' & E & H)|[(a' & rs & E & _ & H & _)|[(a' & scr & _ & H & b' & E & _)|(a' & scr & _ & H & b' & rs & E & _)]]]); injection E as <- ?; contradiction.
    + intros ps _. split; [intros ->; left; exists a; auto|].
      intros [(a' & E & _ & _)|[(a' & rs & E & _ & H & _)|[(a' & scr & b' & E & _ & H & _)|(a' & scr & b' & rs & E & _ & H & _)]]]; injection E as <- ?; [assumption|contradiction..].
Qed.

Lemma tr_authenticate c hs pl n : get_auth_plugin (hs_plugin hs) = Ok pl ->
  tr c (authenticate bl ev st hs pl n) (fun c' _ ps => c' = c /\ plain st hs /\ answers_ok (hs_scramble hs) ps)
    (fun ps => (ps = [] /\ s_ssl st <> Disabled /\ N.testbit (hs_capabilities hs) 11 = true) \/ (plain st hs /\ answers_stop (hs_scramble hs) ps)).
Proof.
  intros PL. unfold authenticate.
  assert (GO : forall X, plain st hs -> (forall ps, X ps <-> answers_stop (hs_scramble hs) ps) -> forall (m : act unit), (forall w, m w = (Ok tt, w)) ->
    tr c (_ <== m ;;
      x <== alift (authenticate_command (e_crypto ev) (s_user st) (s_password st) (s_database st) (hs_scramble hs) pl (hs_plugin hs) utf8_mb4_general_ci) ;;
      _ <== a_write x n ;;
      r <== a_read ;;
      _ <== alift (check_error_packet (fst r) (tx "Authentication error.")) ;;
      b <== alift (byte_at (fst r) 0) ;;
      if b =? resp_ok then aret tt
      else if b =? resp_switch then
        sw <== alift (parse_auth_switch (skipn 1 (fst r))) ;;
        s <== alift (uadd 256 bl (snd r) 1) ;;
        handle_switch bl ev st sw s false
      else
        s <== alift (uadd 256 bl (snd r) 1) ;;
        authenticate_sha_256 bl ev st (fst r) (hs_scramble hs) s false) (fun c' _ ps => c' = c /\ plain st hs /\ answers_ok (hs_scramble hs) ps) X).
  { intros X PN HX m M. eapply tr_eq; [intros w _; unfold abind at 1; rewrite M; reflexivity|].
    destruct (HH pl) as (k & Hk & Kk). destruct (login_sent (e_crypto ev) (s_user st) (s_password st) (s_database st) (hs_scramble hs) pl (hs_plugin hs) utf8_mb4_general_ci k) as (x & E); [intros z; specialize (Hk z); destruct pl; exact Hk|exact Kk|].
    apply (tr_ok_bind c _ x); [exact E|]. apply tr_write_bind.
    { destruct NF as [N1 N2]. eapply (login_size _ _ _ _ _ pl _ _ _ k); [intros z; specialize (Hk z); destruct pl; exact Hk|exact Kk|exact N1|exact N2|eapply plugin_short; exact PL|exact E]. }
    eapply tr_conv; [apply tr_answers| |]; [intros c' [] ps _; tauto|intros ps _; symmetry; apply HX]. }
  unfold plain in *. change (N.land (hs_capabilities hs) cap_ssl) with (N.land (hs_capabilities hs) (2 ^ 11)).
  destruct (N.testbit (hs_capabilities hs) 11) eqn:TB; pose proof TB as TB'; rewrite bit_cap in TB'.
  - apply N.ltb_lt in TB'.
    assert (ST : s_ssl st <> Disabled -> tr c (_ <== (_ <== a_write (ssl_request_command utf8_mb4_general_ci) n ;; _ <== alift (uadd 256 bl n 1) ;; @alift unit Panic) ;;
      x <== alift (authenticate_command (e_crypto ev) (s_user st) (s_password st) (s_database st) (hs_scramble hs) pl (hs_plugin hs) utf8_mb4_general_ci) ;;
      _ <== a_write x n ;;
      r <== a_read ;;
      _ <== alift (check_error_packet (fst r) (tx "Authentication error.")) ;;
      b <== alift (byte_at (fst r) 0) ;;
      if b =? resp_ok then aret tt
      else if b =? resp_switch then
        sw <== alift (parse_auth_switch (skipn 1 (fst r))) ;;
        s <== alift (uadd 256 bl (snd r) 1) ;;
        handle_switch bl ev st sw s false
      else
        s <== alift (uadd 256 bl (snd r) 1) ;;
        authenticate_sha_256 bl ev st (fst r) (hs_scramble hs) s false)
        (fun c' _ ps => c' = c /\ match s_ssl st with Disabled => True | IfAvailable => true = false | _ => False end /\ answers_ok (hs_scramble hs) ps)
        (fun ps => (ps = [] /\ s_ssl st <> Disabled /\ true = true) \/ (match s_ssl st with Disabled => True | IfAvailable => true = false | _ => False end /\ answers_stop (hs_scramble hs) ps))).
    { intros NS. apply tr_assoc, tr_write_bind; [reflexivity|]. apply tr_assoc. eapply tr_conv with (O := Ono) (X := Xnow).
      - destruct (uadd 256 bl n 1) eqn:U; [|unfold uadd in U; destruct (n + 1 <? 256); [discriminate|destruct bl; discriminate]| |unfold uadd in U; destruct (n + 1 <? 256); [discriminate|destruct bl; discriminate]].
        + eapply tr_ok_bind; [reflexivity|]. now apply tr_panic_bind.
        + now apply tr_panic_bind.
      - intros c' [] ps _. unfold Ono. split; [contradiction|]. intros (_ & Z & _). destruct (s_ssl st); [now apply NS|discriminate Z|contradiction..].
      - intros ps _. unfold Xnow. split; [auto|]. intros [(Z & _)|(Z & _)]; [exact Z|]. destruct (s_ssl st); [exfalso; now apply NS|discriminate Z|contradiction..]. }
    destruct (N.eqb_spec (N.land (hs_capabilities hs) (2 ^ 11)) 0); [exfalso; lia|].
    destruct (s_ssl st) eqn:SS; cbn [ssl_code]; try (apply ST; congruence).
    apply GO; [exact I| |reflexivity]. intros ps. split; [intros [(_ & Z & _)|(_ & H)]; [exfalso; now apply Z|exact H]|auto].
  - apply N.ltb_ge in TB'. destruct (N.eqb_spec (N.land (hs_capabilities hs) (2 ^ 11)) 0); [|exfalso; lia].
    assert (NO : forall e, tr c (_ <== @alift unit (Err e) ;;
      x <== alift (authenticate_command (e_crypto ev) (s_user st) (s_password st) (s_database st) (hs_scramble hs) pl (hs_plugin hs) utf8_mb4_general_ci) ;;
      _ <== a_write x n ;;
      r <== a_read ;;
      _ <== alift (check_error_packet (fst r) (tx "Authentication error.")) ;;
      b <== alift (byte_at (fst r) 0) ;;
      if b =? resp_ok then aret tt
      else if b =? resp_switch then
        sw <== alift (parse_auth_switch (skipn 1 (fst r))) ;;
        s <== alift (uadd 256 bl (snd r) 1) ;;
        handle_switch bl ev st sw s false
      else
        s <== alift (uadd 256 bl (snd r) 1) ;;
        authenticate_sha_256 bl ev st (fst r) (hs_scramble hs) s false)
        (fun c' _ ps => c' = c /\ False /\ answers_ok (hs_scramble hs) ps)
        (fun ps => (ps = [] /\ s_ssl st <> Disabled /\ false = true) \/ (False /\ answers_stop (hs_scramble hs) ps))).
    { intros e0. eapply tr_conv; [apply (tr_fail_bind c _ e0); reflexivity| |]; unfold Ono, Xno.
      - intros c' [] ps _. tauto.
      - intros ps _. split; [contradiction|]. intros [(_ & _ & Z)|(Z & _)]; [discriminate Z|exact Z]. }
    destruct (s_ssl st) eqn:SS; cbn [ssl_code]; try (apply NO).
    + apply GO; [exact I| |reflexivity]. intros ps. split; [intros [(_ & Z & _)|(_ & H)]; [exfalso; now apply Z|exact H]|auto].
    + apply GO; [reflexivity| |reflexivity]. intros ps. split; [intros [(_ & _ & Z)|(_ & H)]; [discriminate Z|exact H]|auto].
Qed.
Definition login_stops (ps : list packet) : Prop :=
  (exists g h, ps = [g] /\ not_byte 0xFF (fst g) /\ greets (fst g) h /\ known (hs_plugin h) /\ ~ counts bl (snd g)) \/
  (exists g h, ps = [g] /\ greeted bl g h /\ s_ssl st <> Disabled /\ N.testbit (hs_capabilities h) 11 = true) \/
  (exists g h qs, ps = g :: qs /\ greeted bl g h /\ plain st h /\ answers_stop (hs_scramble h) qs).
Lemma greets_same p h h' : greets p h -> greets p h' -> h = h'.
Proof. intros A B. apply greets_exact in A, B. congruence. Qed.
Lemma tr_connect c : tr c (connect bl ev st) (fun c' pr ps => c' = c /\ login_ok bl ev st ps pr) login_stops.
Proof.
  unfold connect. apply tr_check_bind.
  { split; [intros c' pr ps (_ & g & h & qs & -> & (H & _) & _); eauto|]. intros ps [(g & h & -> & H & _)|[(g & h & -> & (H & _) & _)|(g & h & qs & -> & (H & _) & _)]]; eauto. }
  intros g P NB.
  assert (NO : (forall h, greets (fst g) h -> ~ known (hs_plugin h)) -> forall (m : act provider), tr c m Ono Xno -> tr c m (fun c' pr ps => c' = c /\ login_ok bl ev st (g :: ps) pr) (fun ps => login_stops (g :: ps))).
  { intros K m M. eapply tr_conv; [exact M| |]; unfold Ono, Xno.
    - intros c' pr ps _. split; [contradiction|]. intros (_ & g' & h & qs & E & (_ & G & Z & _) & _). injection E as <- _. exact (K _ G Z).
    - intros ps _. split; [contradiction|]. intros [(g' & h & E & _ & G & Z & _)|[(g' & h & E & (_ & G & Z & _) & _)|(g' & h & qs & E & (_ & G & Z & _) & _)]]; injection E as <- _; exact (K _ G Z). }
  destruct (parse_handshake (fst g)) as [h|e| |] eqn:HS.
  2,3,4: apply NO; [intros h H; apply greets_exact in H; congruence|].
  2: now apply (tr_fail_bind c _ e). 2: now apply handshake_panic in HS. 2: now apply tr_diverge_bind.
  pose proof (proj1 (greets_exact _ _) HS) as GR. apply (tr_ok_bind c _ h); [reflexivity|].
  assert (PC : (known (hs_plugin h) /\ exists pl, get_auth_plugin (hs_plugin h) = Ok pl) \/ (~ known (hs_plugin h) /\ exists e, get_auth_plugin (hs_plugin h) = Err e)).
  { unfold known. destruct (plugin_cases (hs_plugin h)) as [[E PL]|[[E PL]|[E PL]]]; [left; eauto..|right; eauto]. }
  destruct PC as [[KN (pl & PL)]|[KN (e & PL)]].
  2: { apply NO; [intros h' H; now rewrite (greets_same _ _ _ H GR)|]. now apply (tr_fail_bind c _ e). }
  apply (tr_ok_bind c _ pl); [exact PL|]. destruct (counts_dec bl (snd g)) as [C|C].
  - destruct (counts_ok bl (snd g) (proj2 P) C) as (k & K). apply (tr_ok_bind c _ k); [exact K|].
    assert (GD : greeted bl g h) by (split; auto). eapply tr_conv.
    + apply (tr_bind c _ _ _ _ (fun c1 _ => Oret c1 (provider_from (hs_version h))) (fun _ _ => Xno) (tr_authenticate c h pl k PL)). intros c1 [] p _ _. apply tr_ret.
    + intros c' pr ps _. unfold Oret. split.
      * intros (c1 & [] & p & q & -> & (-> & PN & H) & (-> & -> & ->)). rewrite app_nil_r. split; [reflexivity|]. exists g, h, p. auto 10.
      * intros (-> & g' & h' & qs & E & (_ & G & _) & PN & -> & H). injection E as <- ->. rewrite (greets_same _ _ _ G GR) in *. exists c, tt, qs, []. rewrite app_nil_r. auto 10.
    + intros ps _. unfold Xno. split.
      * intros [[(-> & H1 & H2)|(PN & H)]|(? & ? & ? & ? & _ & _ & [])]; [right; left; exists g, h; auto|right; right; exists g, h, ps; auto].
      * intros [(g' & h' & E & _ & _ & _ & Z)|[(g' & h' & E & (_ & G & _) & H)|(g' & h' & qs & E & (_ & G & _) & PN & H)]]; injection E as <- ->; [contradiction| |]; rewrite (greets_same _ _ _ G GR) in *; left; [left; tauto|right; auto].
  - eapply tr_conv; [apply tr_panic_bind; now apply counts_panic| |]; unfold Ono, Xnow.
    + intros c' pr ps _. split; [contradiction|]. intros (_ & g' & h' & qs & E & (_ & _ & _ & Z) & _). injection E as <- _. contradiction.
    + intros ps _. split; [intros ->; left; exists g, h; auto|].
      intros [(g' & h' & E & _)|[(g' & h' & E & (_ & _ & _ & Z) & _)|(g' & h' & qs & E & (_ & _ & _ & Z) & _)]]; injection E as <- ?; [assumption|contradiction..].
Qed.
End Login.
