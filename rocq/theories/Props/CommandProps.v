(* Claimed properties of the packets the client sends (C48, C49, C51-C53, C69). *)
From Coq Require Import Sorting.Permutation Strings.String.
From Verif Require Import Base.Tac Base.Bytes Base.Text Base.Res Base.Str Model.Gtid Model.Commands Spec.GtidSpec Spec.CommandSpec Spec.Sha
  Proofs.GtidSetProofs Proofs.CommandProofs Props.GtidProps.
Local Open Scope N_scope.

(* ---- C48: the request for a file and position (replicate() as a whole: SessionProps) ---- *)
Theorem C48_dump_packet : forall id file pos, id < 4294967296 -> pos < 4294967296 ->
  srv_dump (dump_command id file pos) = Some (pos, 0, id, utf8_encode file).
Proof. exact dump_read. Qed.
Print Assumptions C48_dump_packet.
Example C48_example_packet : srv_dump (dump_command 65535 (tx "mysql-bin.000003") 4294967295) = Some (4294967295, 0, 65535, utf8_encode (tx "mysql-bin.000003")).
Proof. vm_compute. reflexivity. Qed.

(* ---- C49: the request for a GTID set ---- *)
(* [order] is the map in any iteration order; 2^32 bytes is the largest size the packet can announce *)
Theorem C49_gtid_packet : forall bl id file pos s order,
  id < 4294967296 -> pos < 4294967296 -> N.of_nat (length (utf8_encode file)) < 4294967296 ->
  set_ok s -> set_canonical s -> (forall d, ~ set_has s d 0) -> N.of_nat (set_size s) < 4294967000 -> Permutation s order ->
  exists bs r, dump_gtid_command bl id file pos order = Ok bs /\ srv_dump_gtid bs = Some r /\
    sg_id r = id /\ sg_name r = utf8_encode file /\ sg_pos r = pos /\ forall d n, srv_has (sg_set r) d n <-> set_has s d n.
Proof.
  intros bl id file pos s order H1 H2 H3 H4 H5 H6 H7 P.
  assert (S : sendable order).
  { pose proof (set_ok_sendable s H4 H5 H6) as S. unfold sendable in *. now rewrite <- P. }
  assert (L : N.of_nat (length (flat_map entry_bytes order)) < 4294967000).
  { rewrite entry_bytes_size by (eapply Forall_impl; [|exact S]; cbn beta; tauto). unfold set_size in H7.
    replace (list_sum (map (fun e => 24 + 16 * length (us_ivs (snd e))) order)%nat) with (list_sum (map (fun e => 24 + 16 * length (us_ivs (snd e))) s)%nat); [exact H7|].
    clear - P. generalize (fun e : text * uuid_set => 24 + 16 * length (us_ivs (snd e)))%nat. intros g. induction P; cbn [map list_sum fold_right]; unfold list_sum in *; cbn [fold_right]; lia. }
  destruct (dump_gtid_read bl id file pos order H1 H2 H3 S L) as (bs & E1 & E2). exists bs. eexists. split; [exact E1|]. split; [exact E2|].
  cbn [sg_id sg_name sg_pos sg_set]. repeat split; try reflexivity.
  - intros X. apply sent_has in X. destruct X as (k & us & X1 & X2). exists k, us. split; [|exact X2]. eapply Permutation_in; [symmetry; exact P|exact X1].
  - intros (k & us & X1 & X2). apply sent_has. exists k, us. split; [|exact X2]. eapply Permutation_in; [exact P|exact X1].
Qed.
Print Assumptions C49_gtid_packet.
Definition s49 : gtid_set := [(utext u1, UuidSet u1 [Interval 1 5; Interval 9 9]); (utext u2, UuidSet u2 [Interval 7 8])].
Example C49_example : set_ok s49 /\ set_canonical s49 /\ (forall d, ~ set_has s49 d 0) /\ N.of_nat (set_size s49) < 4294967000.
Proof.
  split; [|split; [|split]].
  - split; [constructor; [|repeat constructor; auto]; cbn; intros [X|[]]; vm_compute in X; discriminate|].
    constructor; [|constructor; [|constructor]]; cbn [fst snd us_source us_ivs]; (split; [reflexivity|]; split; [vm_compute; reflexivity|]);
    repeat constructor; cbn; unfold u64_top; lia.
  - unfold set_canonical, s49. constructor; [|constructor; [|constructor]]; cbn [snd us_ivs canonical istart iend]; repeat split; try lia; discriminate.
  - intros d (k & us & [E|[E|[]]] & _ & i & Hi & Hn); inv E; cbn [us_ivs] in Hi; unfold iv_has in Hn; cbn in Hi; intuition (subst; cbn in *; lia).
  - vm_compute. reflexivity.
Qed.
Example C49_example_run : match dump_gtid_command Debug 1 [] 4 (rev s49) with Ok bs => option_map sg_set (srv_dump_gtid bs) | _ => None end =
  Some [(d2, [(7, 9)]); (d1, [(1, 6); (9, 10)])].
Proof. vm_compute. reflexivity. Qed.

(* ---- C51 ---- *)
Theorem C51_query : forall sql, srv_query (query_command sql) = Some (utf8_encode sql).
Proof. exact query_read. Qed.
Print Assumptions C51_query.
Theorem C51_register : forall id, id < 4294967296 -> srv_register (register_command id) = Some (SrvSlave id [] [] [] 0 0 0).
Proof. exact register_read. Qed.
Print Assumptions C51_register.
Lemma bits_listed caps l : forallb (fun i => Bool.eqb (N.testbit caps (N.of_nat i)) (existsb (N.eqb (N.of_nat i)) l)) (seq 0 20) = true ->
  N.log2 caps < 20 -> forallb (fun i => i <? 20) l = true -> forall i, N.testbit caps i = true <-> In i l.
Proof.
  intros H L F i. assert (X : In i l <-> existsb (N.eqb i) l = true).
  { rewrite existsb_exists. split; [intros K; exists i; split; [exact K|apply N.eqb_refl]|]. intros (j & K & E). apply N.eqb_eq in E. now subst. }
  rewrite X. destruct (N.lt_ge_cases i 20) as [S|S].
  - rewrite forallb_forall in H. specialize (H (N.to_nat i)). rewrite N2Nat.id in H. rewrite (Bool.eqb_prop _ _ (H ltac:(apply in_seq; lia))). tauto.
  - rewrite N.bits_above_log2 by lia. split; [discriminate|]. rewrite <- X. rewrite forallb_forall in F. intros K. specialize (F i K). lia.
Qed.
(* LONG_FLAG, PROTOCOL_41, SSL, SECURE_CONNECTION, PLUGIN_AUTH and nothing else *)
Theorem C51_ssl_request : forall co, co < 256 ->
  exists caps, srv_ssl_request (ssl_request_command co) = Some (caps, 0, co) /\ forall i, N.testbit caps i = true <-> In i [2; 9; 11; 15; 19].
Proof.
  intros co H. exists ssl_capabilities. split; [now apply ssl_read|]. apply bits_listed; reflexivity.
Qed.
Print Assumptions C51_ssl_request.
(* any hash function whose results have between 1 and 255 bytes *)
Theorem C51_login : forall cr user password database scramble p plugin co k,
  (forall m, length (match p with NativePassword => sha1 cr m | CachingSha2 => sha256 cr m end) = k) -> (0 < k < 256)%nat -> co < 256 ->
  valid_text user -> ~ In 0 user -> valid_text plugin -> ~ In 0 plugin ->
  (forall d, database = Some d -> valid_text d /\ ~ In 0 d) ->
  exists bs e l, authenticate_command cr user password database scramble p plugin co = Ok bs /\
    srv_login_packet bs = Some l /\ encrypt_password cr password scramble p = Ok e /\
    lo_user l = utf8_encode user /\ lo_auth l = e /\ lo_database l = option_map utf8_encode database /\ lo_plugin l = Some (utf8_encode plugin) /\
    lo_collation l = co /\ lo_max l = 0 /\
    forall i, N.testbit (lo_caps l) i = true <-> In i [2; 9; 15; 19] \/ i = 3 /\ database <> None.
Proof.
  intros cr user password database scramble p plugin co k Hk K Hc U1 U2 P1 P2 D.
  assert (X : exists e, encrypt_password cr password scramble p = Ok e /\ length e = k).
  { destruct p; cbn [encrypt_password]; destruct (native_ok _ k password scramble Hk) as (r & E1 & E2 & _); try lia; eauto. }
  destruct X as (e & E1 & E2).
  destruct (login_read cr user password database scramble p plugin co e) as (bs & B1 & B2); auto; [lia|].
  exists bs, e. eexists. split; [exact B1|]. split; [exact B2|]. split; [exact E1|]. cbn [lo_user lo_auth lo_database lo_plugin lo_collation lo_max lo_caps].
  repeat (split; [reflexivity|]). intros i.
  destruct database as [d|].
  - rewrite (bits_listed _ [3; 2; 9; 15; 19]) by reflexivity. cbn [In]. intuition (try discriminate; auto). 
  - rewrite (bits_listed _ [2; 9; 15; 19]) by reflexivity. intuition congruence.
Qed.
Print Assumptions C51_login.
Definition real : crypto := Crypto sha1_fips sha256_fips (fun _ _ => Err EErrStack).
Example C51_example : (forall m, length (sha1 real m) = 20%nat) /\ (forall m, length (sha256 real m) = 32%nat) /\ valid_text (tx "repl") /\ ~ In 0 (tx "repl").
Proof. split; [exact sha1_length|]. split; [exact sha256_length|]. split; [repeat constructor|]. cbn. intuition discriminate. Qed.
Example C51_example_run : match authenticate_command real (tx "repl") (tx "secret") (Some (tx "db")) (tx "12345678901234567890") CachingSha2 caching_name 45 with
    Ok bs => option_map (fun l => (lo_user l, lo_database l, length (lo_auth l))) (srv_login_packet bs) | _ => None end =
  Some (utf8_encode (tx "repl"), Some (utf8_encode (tx "db")), 32%nat).
Proof. vm_compute. reflexivity. Qed.

(* ---- C52 ---- *)
Theorem C52_native_accepted : forall cr k password scramble, (forall m, length (sha1 cr m) = k) -> (0 < k)%nat ->
  exists r, encrypt_password cr password scramble NativePassword = Ok r /\ length r = k /\
    native_accepts (sha1 cr) (sha1 cr (sha1 cr (utf8_encode password))) (utf8_encode scramble) r.
Proof. intros cr k password scramble H K. cbn [encrypt_password]. apply native_ok; [exact H|lia]. Qed.
Print Assumptions C52_native_accepted.
(* the same reply answers an authentication switch *)
Theorem C52_native_switch_accepted : forall cr k password scramble, (forall m, length (sha1 cr m) = k) -> (0 < k)%nat ->
  exists r, auth_switch_command cr password scramble NativePassword = Ok r /\ length r = k /\
    native_accepts (sha1 cr) (sha1 cr (sha1 cr (utf8_encode password))) (utf8_encode scramble) r.
Proof. exact C52_native_accepted. Qed.
Print Assumptions C52_native_switch_accepted.
Example C52_example : forall m, length (sha1 real m) = 20%nat.
Proof. exact sha1_length. Qed.
(* with another password the reply differs: the check is not empty *)
Example C52_example_wrong : exists r, encrypt_password real (tx "secret") (tx "12345678901234567890") NativePassword = Ok r /\
  ~ native_accepts (sha1 real) (sha1 real (sha1 real (utf8_encode (tx "Secret")))) (utf8_encode (tx "12345678901234567890")) r.
Proof. eexists. split; [vm_compute; reflexivity|]. intros [_ H]. revert H. vm_compute. discriminate. Qed.

(* ---- C53: the reply hashes scramble and password digest in the order of mysql_native_password ---- *)
Theorem C53_fast_path_refuted : exists password scramble r,
  encrypt_password real password scramble CachingSha2 = Ok r /\
  ~ caching_accepts (sha256 real) (sha256 real (sha256 real (utf8_encode password))) (utf8_encode scramble) r.
Proof.
  exists (tx "secret"), (tx "12345678901234567890"). eexists. split; [vm_compute; reflexivity|]. intros [_ H]. revert H. vm_compute. discriminate.
Qed.
Print Assumptions C53_fast_path_refuted.
(* It is so for every password and scramble: an accepted reply gives a collision of the hash function (or scramble and
   digest commute, as when they are equal). *)
Theorem C53_accepted_only_by_collision : forall cr k password scramble r, (forall m, length (sha256 cr m) = k) -> (0 < k)%nat ->
  let H := sha256 cr in let s1 := H (utf8_encode password) in let n := utf8_encode scramble in
  encrypt_password cr password scramble CachingSha2 = Ok r -> caching_accepts H (H s1) n r ->
  (exists a b, a <> b /\ length a = length b /\ H a = H b) \/ n ++ H s1 = H s1 ++ n.
Proof.
  intros cr k password scramble r Hk K H s1 n E [_ A]. cbn [encrypt_password] in E. fold H in E, Hk.
  assert (NE : forall m, H m <> []) by (intros m X; specialize (Hk m); rewrite X in Hk; cbn in Hk; lia).
  rewrite hashed_ok in E by exact NE. fold s1 n in E. assert (R : r = xor_cycled s1 (H (n ++ H s1))) by congruence. clear E.
  destruct (list_eq_dec Byte.byte_eq_dec (n ++ H s1) (H s1 ++ n)) as [|D]; [now right|left].
  destruct (list_eq_dec Byte.byte_eq_dec (H (n ++ H s1)) (H (H s1 ++ n))) as [C|C].
  - exists (n ++ H s1), (H s1 ++ n). split; [exact D|]. split; [rewrite !app_length; lia|exact C].
  - exists (xor_cycled r (H (H s1 ++ n))), s1. split; [|split; [rewrite R, !xor_cycled_length; reflexivity|exact A]].
    intros Q. apply C. rewrite R in Q. eapply xor_cycled_key; [| |exact Q]; unfold s1; now rewrite !Hk.
Qed.
Print Assumptions C53_accepted_only_by_collision.

(* ---- C69: a server whose account has no password accepts only an empty reply ---- *)
Definition no_password_accepts (reply : list byte) : Prop := reply = [].
Theorem C69_empty_password_refuted : exists scramble r,
  encrypt_password real [] scramble NativePassword = Ok r /\ ~ no_password_accepts r.
Proof. exists (tx "12345678901234567890"). eexists. split; [vm_compute; reflexivity|]. discriminate. Qed.
Print Assumptions C69_empty_password_refuted.
Theorem C69_never_accepted : forall cr k scramble p r,
  (forall m, length (sha1 cr m) = k) -> (forall m, length (sha256 cr m) = k) -> (0 < k)%nat ->
  encrypt_password cr [] scramble p = Ok r -> ~ no_password_accepts r.
Proof.
  intros cr k scramble p r H1 H2 K E ->.
  destruct p; cbn [encrypt_password] in E;
    [destruct (native_ok _ k [] scramble H1) as (r & E1 & E2 & _)|destruct (native_ok _ k [] scramble H2) as (r & E1 & E2 & _)]; try lia;
    rewrite E in E1; injection E1 as <-; cbn in E2; lia.
Qed.
Print Assumptions C69_never_accepted.
