(* Claimed properties of what is sent that depends on the password: C88. *)
From Coq Require Import Strings.String.
From Verif Require Import Base.Tac Base.Bytes Base.Text Base.Res Base.Str Base.Parse Model.Gtid Model.Events Model.Client Model.Commands Model.Responses Model.Channel Model.Session
  Spec.CommandSpec Spec.ChannelSpec Spec.SessionSpec Proofs.CommandProofs Proofs.PlanProofs Proofs.EmptyProofs Props.SessionProps.
Local Open Scope N_scope.

Definition with_password (st : settings) (pw : text) : settings :=
  Settings (s_ssl st) (s_user st) pw (s_database st) (s_server_id st) (s_blocking st) (s_heartbeat st).
(* two passwords with the same digests *)
Definition same_digests (cr : crypto) (pw1 pw2 : text) : Prop :=
  sha1 cr (utf8_encode pw1) = sha1 cr (utf8_encode pw2) /\ sha256 cr (utf8_encode pw1) = sha256 cr (utf8_encode pw2).
(* and the same encrypted form, under every key *)
Definition same_cipher (cr : crypto) (pw1 pw2 : text) : Prop :=
  forall key scramble, scramble <> [] ->
    rsa cr key (xor_cycled (utf8_encode pw1 ++ [n2b 0]) scramble) = rsa cr key (xor_cycled (utf8_encode pw2 ++ [n2b 0]) scramble).
(* the request for the server's public key *)
Definition key_asked (l : list io) : Prop := exists s, In (Sent [n2b 2] s) l.

Lemma encrypt_same cr pw1 pw2 scramble p : same_digests cr pw1 pw2 -> encrypt_password cr pw1 scramble p = encrypt_password cr pw2 scramble p.
Proof. intros [H1 H2]. destruct p; cbn [encrypt_password]; unfold hashed; [now rewrite H1|now rewrite H2]. Qed.
Lemma abind_ext {A B} (m : act A) (f g : A -> act B) w : (forall a w1, m w = (Ok a, w1) -> f a w1 = g a w1) -> abind m f w = abind m g w.
Proof. intros H. unfold abind. destruct (m w) as [[a|e| |] w1]; try reflexivity. now apply H. Qed.

Lemma bind_ok {A B} (a : A) (f : A -> act B) w : abind (alift (Ok a)) f w = f a w.
Proof. reflexivity. Qed.

(* equal runs; without [m], or the key is asked for in both *)
Definition alike {A} (m : bool) (m1 m2 : act A) : Prop :=
  forall w, m1 w = m2 w \/ (m = false /\ key_asked (w_log (snd (m1 w))) /\ key_asked (w_log (snd (m2 w)))).
Lemma alike_refl {A} b (m : act A) : alike b m m.
Proof. intros w. now left. Qed.
Lemma asked_grows {A} (m : act A) w : emp m -> key_asked (w_log w) -> key_asked (w_log (snd (m w))).
Proof.
  intros H [s K]. destruct (m w) as [r w'] eqn:E. destruct (H w r w' E) as (l & L & _). cbn [snd]. rewrite L. exists s. apply in_or_app. now left.
Qed.
Lemma alike_bind {A B} b (m1 m2 : act A) (f1 f2 : A -> act B) : alike b m1 m2 -> (forall a, alike b (f1 a) (f2 a)) -> (forall a, emp (f1 a)) ->
  (forall a, emp (f2 a)) -> alike b (abind m1 f1) (abind m2 f2).
Proof.
  intros M F E1 E2 w. unfold abind. destruct (M w) as [Q|(T & K1 & K2)].
  - rewrite Q. destruct (m2 w) as [[a|e| |] w1]; try (now left). apply F.
  - right. split; [exact T|]. destruct (m1 w) as [r1 w1], (m2 w) as [r2 w2]. cbn [snd] in K1, K2. split.
    + destruct r1 as [a|e| |]; try exact K1. now apply asked_grows.
    + destruct r2 as [a|e| |]; try exact K2. now apply asked_grows.
Qed.

Lemma asked_tail {A} sq (m : act A) w : emp m -> key_asked (w_log (snd ((_ <== a_write [n2b 2] sq ;; m) w))).
Proof.
  intros H. unfold abind, a_write. change (16777216 <=? N.of_nat (length [n2b 2]) mod u32max1) with false. cbv iota.
  apply asked_grows; [exact H|]. exists sq. cbn [w_log]. apply in_or_app. right. now left.
Qed.
Definition cipher_if (b : bool) (cr : crypto) (pw1 pw2 : text) : Prop := if b then same_cipher cr pw1 pw2 else True.
Ltac emp_rest := intros; repeat (emp_step || apply emp_sha || apply emp_switch || apply emp_authenticate).
Ltac al := apply alike_bind; [apply alike_refl| |emp_rest|emp_rest].
Lemma alike_sha m bl cr ord st pw packet scramble sq : cipher_if m cr (s_password st) pw ->
  alike m (authenticate_sha_256 bl (Env cr ord) st packet scramble sq false) (authenticate_sha_256 bl (Env cr ord) (with_password st pw) packet scramble sq false).
Proof.
  intros C. unfold authenticate_sha_256. al. intros b0. al. intros done. destruct done; [apply alike_refl|]. cbv zeta. cbn [with_password s_password e_crypto].
  destruct m.
  - al. intros _. al. intros r. al. intros _. cbn [cipher_if] in C.
    set (key := skipn 1 (fst r)).
    assert (X : forall pw', alift (xor_bytes (utf8_encode pw' ++ [n2b 0]) (utf8_encode scramble)) =
      match utf8_encode scramble with [] => alift Panic | k => alift (Ok (xor_cycled (utf8_encode pw' ++ [n2b 0]) k)) end).
    { intros pw'. destruct (utf8_encode scramble) as [|k0 ks] eqn:Q.
      - destruct (utf8_encode pw'); reflexivity.
      - now rewrite xor_bytes_ok by discriminate. }
    rewrite 2!X. specialize (C key (utf8_encode scramble)). destruct (utf8_encode scramble) as [|k0 ks]; [intros w; now left|].
    intros w. left. rewrite 2!bind_ok. now rewrite C by discriminate.
  - intros w. right. split; [reflexivity|]. split; apply asked_tail; emp_rest.
Qed.
Lemma alike_switch m bl cr ord st pw sw sq : same_digests cr (s_password st) pw -> cipher_if m cr (s_password st) pw ->
  alike m (handle_switch bl (Env cr ord) st sw sq false) (handle_switch bl (Env cr ord) (with_password st pw) sw sq false).
Proof.
  intros D C. unfold handle_switch. al. intros p. unfold auth_switch_command. cbn [e_crypto with_password s_password].
  rewrite (encrypt_same cr (s_password st) pw (snd sw) p D). al. intros c. al. intros _. al. intros r. al. intros _.
  destruct (text_eqb (fst sw) caching_name); [|apply alike_refl]. al. intros s. now apply alike_sha.
Qed.
Lemma alike_authenticate m bl cr ord st pw hs p sq : same_digests cr (s_password st) pw -> cipher_if m cr (s_password st) pw ->
  alike m (authenticate bl (Env cr ord) st hs p sq) (authenticate bl (Env cr ord) (with_password st pw) hs p sq).
Proof.
  intros D C. unfold authenticate. cbn [e_crypto with_password s_password s_ssl s_user s_database]. al. intros _.
  unfold authenticate_command. rewrite (encrypt_same cr (s_password st) pw (hs_scramble hs) p D).
  al. intros c. al. intros _. al. intros r. al. intros _. al. intros b.
  destruct (b =? resp_ok); [apply alike_refl|]. destruct (b =? resp_switch).
  - al. intros sw. al. intros s. now apply alike_switch.
  - al. intros s. now apply alike_sha.
Qed.
Lemma alike_replicate m bl cr ord st pw : same_digests cr (s_password st) pw -> cipher_if m cr (s_password st) pw ->
  alike m (replicate bl (Env cr ord) st) (replicate bl (Env cr ord) (with_password st pw)).
Proof.
  intros D C. unfold replicate. apply alike_bind; [|intros pr; apply alike_refl| |].
  - unfold connect. al. intros r. al. intros _. al. intros hs. al. intros p. al. intros s.
    apply alike_bind; [now apply alike_authenticate|intros u; apply alike_refl|emp_rest|emp_rest].
  - intros pr. emp_all; first [apply emp_adjust|apply emp_statement|apply emp_checksum|apply emp_mariadb|apply emp_mysql].
  - intros pr. emp_all; first [apply emp_adjust|apply emp_statement|apply emp_checksum|apply emp_mariadb|apply emp_mysql].
Qed.

(* ---- C88: what is sent, and everything else, depends on the password only through its digests and its encrypted form ---- *)
Theorem C88_hashed_or_encrypted : forall bl cr ord st pw w, same_digests cr (s_password st) pw -> same_cipher cr (s_password st) pw ->
  replicate bl (Env cr ord) (with_password st pw) w = replicate bl (Env cr ord) st w.
Proof. intros bl cr ord st pw w D C. destruct (alike_replicate true bl cr ord st pw D C w) as [E|[E _]]; [now symmetry|discriminate]. Qed.
Print Assumptions C88_hashed_or_encrypted.
(* as long as the client has not asked for the server's key, only through its digests *)
Theorem C88_hashed : forall bl cr ord st pw w, same_digests cr (s_password st) pw -> ~ key_asked (w_log (snd (replicate bl (Env cr ord) st w))) ->
  replicate bl (Env cr ord) (with_password st pw) w = replicate bl (Env cr ord) st w.
Proof. intros bl cr ord st pw w D N. destruct (alike_replicate false bl cr ord st pw D I w) as [E|(_ & K & _)]; [now symmetry|contradiction]. Qed.
Print Assumptions C88_hashed.
(* two passwords that agree in the bytes the toy digests keep: the key is asked for, and only a cipher that tells them apart makes a difference *)
Definition long_pw (last : string) : text := tx ("0123456789abcdefghijklmnopqrstuvwxyz" ++ last).
Definition st_long (last : string) : settings := Settings Disabled (tx "repl") (long_pw last) None 42 true 30000000000.
Definition blind : crypto := Crypto (sha1 toy) (sha256 toy) (fun _ m => Ok (firstn 10 m)).
Example C88_example_hypotheses : same_digests toy (long_pw "A") (long_pw "B") /\ same_digests blind (long_pw "A") (long_pw "B") /\ same_cipher blind (long_pw "A") (long_pw "B").
Proof. split; [split; vm_compute; reflexivity|]. split; [split; vm_compute; reflexivity|]. intros key sc H. reflexivity. Qed.
Example C88_example :
  let ps := [caching_hello; [n2b 1; n2b 4]; n2b 1 :: tx_bytes "PEM"; okp] ++ good_answers in
  let run cr last := replicate Release (Env cr (fun s => s)) (st_long last) (start o_here ps) in
  fst (run toy "A"%string) = Ok CkCrc32 /\ existsb (fun q => (length (fst q) =? 1)%nat) (sent (w_log (snd (run toy "A"%string)))) = true /\
  sent (w_log (snd (run toy "A"%string))) <> sent (w_log (snd (run toy "B"%string))) /\ run blind "A"%string = run blind "B"%string.
Proof. vm_compute. repeat split; discriminate. Qed.
(* and with the native plugin the key is never asked for *)
Example C88_example_native :
  let ps := [mysql_hello; okp] ++ good_answers in
  let run last := replicate Release env0 (st_long last) (start o_here ps) in
  fst (run "A"%string) = Ok CkCrc32 /\ existsb (fun q => (length (fst q) =? 1)%nat) (sent (w_log (snd (run "A"%string)))) = false /\ run "A"%string = run "B"%string /\
  sent (w_log (snd (run "A"%string))) <> sent (w_log (snd (replicate Release env0 st0 (start o_here ps)))).
Proof. vm_compute. repeat split; discriminate. Qed.
