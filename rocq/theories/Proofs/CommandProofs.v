(* Client packets are read back by the server *)
From Coq Require Import Strings.String.
From Verif Require Import Base.Tac Base.Bytes Base.Text Base.Res Base.Str Model.Codec Model.Gtid Model.Commands Spec.GtidSpec Spec.CommandSpec Proofs.GtidSetProofs.
Local Open Scope N_scope.

Definition sreads {A} (p : sreader A) (bs : list byte) (v : A) : Prop := forall post, p (bs ++ post) = Some (v, post).
Lemma sreads_ret {A} (v : A) : sreads (sret v) [] v.
Proof. intros post. reflexivity. Qed.
Lemma sreads_check b : b = true -> sreads (s_check b) [] tt.
Proof. intros -> post. reflexivity. Qed.
Lemma sreads_bind {A B} (p : sreader A) (f : A -> sreader B) b1 b2 v w : sreads p b1 v -> sreads (f v) b2 w -> sreads (sbind p f) (b1 ++ b2) w.
Proof. intros Hp Hf post. unfold sbind. rewrite <- app_assoc, Hp. apply Hf. Qed.
Lemma sreads_bind0 {A B} (p : sreader A) (f : A -> sreader B) b v w : sreads p [] v -> sreads (f v) b w -> sreads (sbind p f) b w.
Proof. intros Hp Hf. change b with ([] ++ b). eapply sreads_bind; eassumption. Qed.
Lemma sreads_bind1 {A B} (p : sreader A) (f : A -> sreader B) b v w : sreads p b v -> sreads (f v) [] w -> sreads (sbind p f) b w.
Proof. intros Hp Hf. rewrite <- (app_nil_r b). eapply sreads_bind; eassumption. Qed.
Lemma sreads_bytes n bs : length bs = n -> sreads (s_bytes n) bs bs.
Proof.
  intros <- post. unfold s_bytes. rewrite app_length. destruct (Nat.ltb_spec (length bs + length post) (length bs)); [lia|].
  now rewrite firstn_app_exact, skipn_app_exact.
Qed.
Lemma sreads_int k n : n < 256 ^ N.of_nat k -> sreads (s_int k) (le_enc k n) n.
Proof.
  intros H. unfold s_int. eapply sreads_bind1; [apply sreads_bytes, le_enc_length|]. rewrite le_dec_enc_small by exact H. apply sreads_ret.
Qed.
Lemma sreads_byte n : n < 256 -> sreads (s_int 1) [n2b n] n.
Proof.
  intros H. unfold s_int. eapply sreads_bind1; [apply sreads_bytes; reflexivity|]. cbn [le_dec]. rewrite b2n_n2b by exact H.
  replace (n + 256 * 0) with n by lia. apply sreads_ret.
Qed.
Lemma sreads_nul bs : Forall (fun b => b2n b <> 0) bs -> sreads s_nul (bs ++ [n2b 0]) bs.
Proof.
  intros H post. rewrite <- app_assoc. cbn [app]. induction H as [|b bs Hb Hbs IH]; cbn [app s_nul]; [reflexivity|].
  destruct (N.eqb_spec (b2n b) 0); [contradiction|]. now rewrite IH.
Qed.
Lemma sreads_times {A B} (p : sreader B) (enc : A -> list byte) (val : A -> B) l : Forall (fun a => sreads p (enc a) (val a)) l ->
  sreads (s_times (length l) p) (flat_map enc l) (map val l).
Proof.
  induction 1 as [|a l Ha Hl IH]; cbn [length s_times flat_map map]; [apply sreads_ret|].
  eapply sreads_bind; [exact Ha|]. eapply sreads_bind1; [exact IH|]. apply sreads_ret.
Qed.
Lemma whole_reads {A} (p : sreader A) bs v : sreads p bs v -> s_whole p bs = Some v.
Proof. intros H. unfold s_whole. specialize (H []). rewrite app_nil_r in H. now rewrite H. Qed.
Lemma whole_bind {A B} (p : sreader A) (f : A -> sreader B) b1 b2 v : sreads p b1 v -> s_whole (sbind p f) (b1 ++ b2) = s_whole (f v) b2.
Proof. intros H. unfold s_whole, sbind. now rewrite H. Qed.
Lemma whole_bind0 {A B} (p : sreader A) (f : A -> sreader B) b2 v : sreads p [] v -> s_whole (sbind p f) b2 = s_whole (f v) b2.
Proof. intros H. change b2 with ([] ++ b2) at 1. now apply whole_bind. Qed.

Lemma utf8_char_nonzero c : c <> 0 -> scalar c = true -> Forall (fun b => b2n b <> 0) (utf8_char c).
Proof.
  intros H S. unfold scalar in S. unfold utf8_char.
  repeat (destruct (_ <? _) eqn:? in |- *); repeat constructor; rewrite b2n_n2b_mod; lia.
Qed.
Lemma utf8_nonzero t : valid_text t -> ~ In 0 t -> Forall (fun b => b2n b <> 0) (utf8_encode t).
Proof.
  intros V H. unfold utf8_encode. induction V as [|c t Hc Ht IH]; cbn [flat_map]; [constructor|]. apply Forall_app. split.
  - apply utf8_char_nonzero; [|exact Hc]. intros ->. apply H. now left.
  - apply IH. intros Hin. apply H. now right.
Qed.

(* ---- dump requests ---- *)
Lemma dump_read id file pos : id < 4294967296 -> pos < 4294967296 ->
  srv_dump (dump_command id file pos) = Some (pos, 0, id, utf8_encode file).
Proof.
  intros H1 H2. unfold srv_dump, dump_command.
  rewrite (whole_bind _ _ [n2b cmd_binlog_dump] _ cmd_binlog_dump) by (apply sreads_byte; reflexivity).
  rewrite (whole_bind0 _ _ _ tt) by (apply sreads_check; reflexivity).
  rewrite (whole_bind _ _ (le_enc 4 pos) _ pos) by (apply sreads_int; exact H2).
  rewrite (whole_bind _ _ (le_enc 2 0) _ 0) by (apply sreads_int; reflexivity).
  rewrite (whole_bind _ _ (le_enc 4 id) _ id) by (apply sreads_int; exact H1). reflexivity.
Qed.

(* the set as the server sees it *)
Definition sent_iv (i : interval) : N * N := (istart i, iend i + 1).
Definition sent_entry (e : text * uuid_set) : list byte * list (N * N) := (udata (us_source (snd e)), map sent_iv (us_ivs (snd e))).
Definition iv_bytes (i : interval) : list byte := le_enc 8 (istart i) ++ le_enc 8 (iend i + 1).
Definition entry_bytes (e : text * uuid_set) : list byte :=
  udata (us_source (snd e)) ++ le_enc 8 (N.of_nat (length (us_ivs (snd e)))) ++ flat_map iv_bytes (us_ivs (snd e)).
Lemma dump_intervals_ok bl ivs : Forall (fun i => iend i < u64_top) ivs -> dump_intervals bl ivs = Ok (flat_map iv_bytes ivs).
Proof.
  induction 1 as [|i ivs Hi Hv IH]; cbn [dump_intervals flat_map]; [reflexivity|]. unfold u64_top in Hi. rewrite uadd_ok by (unfold u64max1; lia).
  cbn [rbind]. rewrite IH. cbn [rbind]. unfold iv_bytes at 2. now rewrite <- app_assoc.
Qed.
Lemma dump_sets_ok bl order : Forall (fun e => Forall (fun i => iend i < u64_top) (us_ivs (snd e))) order -> dump_sets bl order = Ok (flat_map entry_bytes order).
Proof.
  induction 1 as [|e order He Ho IH]; cbn [dump_sets flat_map]; [reflexivity|]. rewrite dump_intervals_ok by exact He. cbn [rbind].
  rewrite IH. cbn [rbind]. unfold entry_bytes at 2. now rewrite <- !app_assoc.
Qed.
Lemma iv_bytes_len ivs : length (flat_map iv_bytes ivs) = (16 * length ivs)%nat.
Proof.
  induction ivs as [|i ivs IH]; cbn [flat_map length]; [reflexivity|]. rewrite app_length, IH. unfold iv_bytes. rewrite app_length, !le_enc_length. lia.
Qed.
Lemma dump_data_len order : Forall (fun e => length (udata (us_source (snd e))) = 16%nat) order ->
  dump_data_length order = 8 + N.of_nat (length (flat_map entry_bytes order)).
Proof.
  unfold dump_data_length. intros H. cut (forall n, fold_left (fun n e => n + 16 + 8 + N.of_nat (length (us_ivs (snd e))) * (8 + 8)) order n = n + N.of_nat (length (flat_map entry_bytes order))); [intros X; apply X|].
  induction H as [|e order He Ho IH]; intros n; cbn [fold_left flat_map]; [cbn [length]; lia|]. rewrite IH, app_length.
  unfold entry_bytes at 2. rewrite !app_length, le_enc_length, iv_bytes_len, He. lia.
Qed.

Lemma ascending_canonical ivs : canonical ivs -> forall last, (match ivs with [] => True | i :: _ => last < istart i end) -> ascending last (map sent_iv ivs) = true.
Proof.
  induction ivs as [|i ivs IH]; intros C last H; cbn [map ascending sent_iv]; [reflexivity|]. destruct C as (H1 & H2 & C).
  rewrite IH; [|exact C|destruct ivs; [exact I|lia]]. lia.
Qed.

(* a set the client may hold: sixteen-byte ids, canonical intervals of transaction numbers from 1 to 2^64-2 *)
Definition sendable (s : gtid_set) : Prop :=
  Forall (fun e => length (udata (us_source (snd e))) = 16%nat /\ canonical (us_ivs (snd e)) /\
                   Forall (fun i => 0 < istart i /\ iend i < u64_top) (us_ivs (snd e))) s.

Lemma canonical_le ivs : canonical ivs -> Forall (fun i => istart i <= iend i) ivs.
Proof. induction ivs as [|i r IH]; intros C; [constructor|]. destruct C as (H1 & _ & C). constructor; auto. Qed.
Lemma sets_read order : sendable order -> N.of_nat (length (flat_map entry_bytes order)) < 4294967000 ->
  s_whole srv_sets (le_enc 8 (N.of_nat (length order)) ++ flat_map entry_bytes order) = Some (map sent_entry order).
Proof.
  intros H L. unfold srv_sets.
  assert (LL : N.of_nat (length order) <= N.of_nat (length (flat_map entry_bytes order)) /\
               Forall (fun e => N.of_nat (length (us_ivs (snd e))) <= N.of_nat (length (flat_map entry_bytes order))) order).
  { clear - H. induction H as [|e order (He & _ & _) Ho [IH1 IH2]]; [split; [cbn; lia|constructor]|]. cbn [flat_map length]. rewrite app_length.
    assert (E : length (entry_bytes e) = (24 + 16 * length (us_ivs (snd e)))%nat) by (unfold entry_bytes; rewrite !app_length, le_enc_length, iv_bytes_len, He; lia).
    rewrite E. split; [lia|]. constructor; [lia|]. eapply Forall_impl; [|exact IH2]. cbn beta. intros a Ha. lia. }
  destruct LL as [L1 L2]. assert (B : N.of_nat (length order) < 256 ^ N.of_nat 8) by (change (256 ^ N.of_nat 8) with 18446744073709551616; lia).
  rewrite (whole_bind _ _ _ _ (N.of_nat (length order))) by (apply sreads_int; exact B).
  rewrite Nat2N.id. apply whole_reads. apply (sreads_times srv_entry entry_bytes sent_entry). apply Forall_forall. intros e He.
  pose proof (proj1 (Forall_forall _ _) H e He) as (K1 & K2 & K3). pose proof (proj1 (Forall_forall _ _) L2 e He) as K4. cbn beta in K4.
  unfold srv_entry, entry_bytes, sent_entry. eapply sreads_bind; [apply sreads_bytes; exact K1|].
  eapply sreads_bind; [apply sreads_int; change (256 ^ N.of_nat 8) with 18446744073709551616; lia|]. rewrite Nat2N.id.
  eapply sreads_bind1; [apply (sreads_times srv_interval iv_bytes sent_iv)|].
  - apply Forall_forall. intros i Hi. pose proof (proj1 (Forall_forall _ _) K3 i Hi) as [_ K5]. cbn beta in K5. unfold u64_top in K5.
    pose proof (proj1 (Forall_forall _ _) (canonical_le _ K2) i Hi) as K6. cbn beta in K6.
    unfold srv_interval, iv_bytes, sent_iv. eapply sreads_bind; [apply sreads_int; change (256 ^ N.of_nat 8) with 18446744073709551616; lia|].
    eapply sreads_bind1; [apply sreads_int; change (256 ^ N.of_nat 8) with 18446744073709551616; lia|]. apply sreads_ret.
  - eapply sreads_bind0; [apply sreads_check|apply sreads_ret]. apply ascending_canonical; [exact K2|].
    destruct (us_ivs (snd e)) as [|i r]; [exact I|]. inversion K3; subst. tauto.
Qed.

Lemma dump_gtid_read bl id file pos order : id < 4294967296 -> pos < 4294967296 -> N.of_nat (length (utf8_encode file)) < 4294967296 ->
  sendable order -> N.of_nat (length (flat_map entry_bytes order)) < 4294967000 ->
  exists bs, dump_gtid_command bl id file pos order = Ok bs /\
    srv_dump_gtid bs = Some (SrvGtidRequest 0 id (utf8_encode file) pos (map sent_entry order)).
Proof.
  intros H1 H2 H3 H4 H5. unfold dump_gtid_command. rewrite dump_sets_ok.
  2:{ eapply Forall_impl; [|exact H4]. cbn beta. intros e (_ & _ & K). eapply Forall_impl; [|exact K]. cbn beta. tauto. }
  cbn [rbind]. eexists. split; [reflexivity|]. unfold srv_dump_gtid.
  rewrite (whole_bind _ _ [n2b cmd_binlog_dump_gtid] _ cmd_binlog_dump_gtid) by (apply sreads_byte; reflexivity).
  rewrite (whole_bind0 _ _ _ tt) by (apply sreads_check; reflexivity).
  rewrite (whole_bind _ _ (le_enc 2 0) _ 0) by (apply sreads_int; reflexivity).
  rewrite (whole_bind _ _ (le_enc 4 id) _ id) by (apply sreads_int; exact H1).
  rewrite (whole_bind _ _ _ _ (N.of_nat (length (utf8_encode file)))) by (apply sreads_int; exact H3). rewrite Nat2N.id.
  rewrite (whole_bind _ _ (utf8_encode file) _ (utf8_encode file)) by (apply sreads_bytes; reflexivity).
  rewrite (whole_bind _ _ (le_enc 8 pos) _ pos) by (apply sreads_int; change (256 ^ N.of_nat 8) with 18446744073709551616; lia).
  assert (D : dump_data_length order = N.of_nat (length (le_enc 8 (N.of_nat (length order)) ++ flat_map entry_bytes order))).
  { rewrite app_length, le_enc_length, dump_data_len; [lia|]. eapply Forall_impl; [|exact H4]. cbn beta. tauto. }
  assert (DL : dump_data_length order < 4294967296) by (rewrite D, app_length, le_enc_length; lia).
  rewrite (whole_bind _ _ _ _ (dump_data_length order)) by (apply sreads_int; exact DL).
  rewrite D, Nat2N.id. rewrite <- (app_nil_r (_ ++ flat_map entry_bytes order)) at 2.
  rewrite (whole_bind _ _ _ [] (le_enc 8 (N.of_nat (length order)) ++ flat_map entry_bytes order)) by (apply sreads_bytes; reflexivity).
  rewrite sets_read by assumption. reflexivity.
Qed.

(* ---- login ---- *)
Lemma sreads_cstring t : valid_text t -> ~ In 0 t -> sreads s_nul (write_null_term_string t) (utf8_encode t).
Proof. intros V H. apply sreads_nul. now apply utf8_nonzero. Qed.
Lemma sreads_short bs : N.of_nat (length bs) < 256 -> sreads s_short (le_enc 1 (N.of_nat (length bs)) ++ bs) bs.
Proof. intros H. unfold s_short. eapply sreads_bind; [apply sreads_int; exact H|]. rewrite Nat2N.id. now apply sreads_bytes. Qed.

(* ---- xor ---- *)
Lemma xor_from_spec a b : forall i, xor_from i a b = map (fun j => byte_x (nth j a (n2b 0)) (nth ((i + j) mod length b) b (n2b 0))) (seq 0 (length a)).
Proof.
  induction a as [|x a IH]; intros i; cbn [xor_from length seq map]; [reflexivity|]. rewrite IH. rewrite Nat.add_0_r. f_equal.
  rewrite <- seq_shift, map_map. apply map_ext. intros j. cbn [nth]. replace (i + S j)%nat with (S i + j)%nat by lia. reflexivity.
Qed.
Lemma xor_bytes_ok a b : b <> [] -> xor_bytes a b = Ok (xor_cycled a b).
Proof.
  intros H. unfold xor_bytes. destruct b as [|y b]; [congruence|]. rewrite xor_from_spec. unfold xor_cycled. cbn [Nat.add]. destruct a; reflexivity.
Qed.
Lemma byte_x_twice a b : byte_x (byte_x a b) b = a.
Proof.
  unfold byte_x. rewrite b2n_n2b.
  - rewrite N.lxor_assoc, N.lxor_nilpotent, N.lxor_0_r. apply n2b_b2n.
  - apply N.lt_nge. intros K. pose proof (b2n_lt a) as Ha. pose proof (b2n_lt b) as Hb.
    assert (N.log2 (N.lxor (b2n a) (b2n b)) < 8).
    { pose proof (N.log2_lxor (b2n a) (b2n b)) as X. assert (forall n, n < 256 -> N.log2 n < 8) as Y.
      { intros n Hn. destruct (N.eq_dec n 0) as [->|]; [reflexivity|]. apply N.log2_lt_pow2; [lia|exact Hn]. }
      pose proof (Y _ Ha). pose proof (Y _ Hb). lia. }
    assert (8 <= N.log2 (N.lxor (b2n a) (b2n b))) by (apply N.log2_le_pow2; [lia|exact K]). lia.
Qed.
Lemma xor_cycled_length a b : length (xor_cycled a b) = length a.
Proof. unfold xor_cycled. now rewrite map_length, seq_length. Qed.
Lemma xor_cycled_twice a b : xor_cycled (xor_cycled a b) b = a.
Proof.
  apply nth_ext with (d := n2b 0) (d' := n2b 0); [now rewrite !xor_cycled_length|]. intros i Hi. rewrite !xor_cycled_length in Hi.
  assert (E : forall x, (i < length x)%nat -> nth i (xor_cycled x b) (n2b 0) = byte_x (nth i x (n2b 0)) (nth (i mod length b) b (n2b 0))).
  { intros x Hx. unfold xor_cycled.
    rewrite nth_indep with (d' := (fun j => byte_x (nth j x (n2b 0)) (nth (j mod length b) b (n2b 0))) 0%nat) by (rewrite map_length, seq_length; exact Hx).
    rewrite (map_nth (fun j => byte_x (nth j x (n2b 0)) (nth (j mod length b) b (n2b 0)))). now rewrite seq_nth. }
  rewrite E by (rewrite xor_cycled_length; exact Hi). rewrite E by exact Hi. apply byte_x_twice.
Qed.

(* ---- queries, registration ---- *)
Lemma query_read sql : srv_query (query_command sql) = Some (utf8_encode sql).
Proof.
  unfold srv_query, query_command. change (n2b cmd_query :: utf8_encode sql) with ([n2b cmd_query] ++ utf8_encode sql).
  rewrite (whole_bind _ _ [n2b cmd_query] _ cmd_query) by (apply sreads_byte; reflexivity).
  rewrite (whole_bind0 _ _ _ tt) by (apply sreads_check; reflexivity). reflexivity.
Qed.
Lemma sreads_short0 : sreads s_short [n2b 0] [].
Proof. unfold s_short. eapply sreads_bind1; [apply sreads_byte; reflexivity|]. now apply sreads_bytes. Qed.
Lemma register_read id : id < 4294967296 -> srv_register (register_command id) = Some (SrvSlave id [] [] [] 0 0 0).
Proof.
  intros H. unfold srv_register, register_command.
  rewrite (whole_bind _ _ [n2b cmd_register_slave] _ cmd_register_slave) by (apply sreads_byte; reflexivity).
  rewrite (whole_bind0 _ _ _ tt) by (apply sreads_check; reflexivity).
  rewrite (whole_bind _ _ (le_enc 4 id) _ id) by (apply sreads_int; exact H).
  rewrite !(whole_bind _ _ [n2b 0] _ []) by apply sreads_short0.
  rewrite (whole_bind _ _ (le_enc 2 0) _ 0) by (apply sreads_int; reflexivity). reflexivity.
Qed.
Lemma zeros_ok n : forallb (fun b => b2n b =? 0) (repeat (n2b 0) n) = true.
Proof. induction n; [reflexivity|exact IHn]. Qed.
Lemma ssl_read co : co < 256 -> srv_ssl_request (ssl_request_command co) = Some (ssl_capabilities, 0, co).
Proof.
  intros H. unfold srv_ssl_request, ssl_request_command.
  rewrite (whole_bind _ _ _ _ ssl_capabilities) by (apply sreads_int; reflexivity).
  rewrite (whole_bind _ _ _ _ 0) by (apply sreads_int; reflexivity).
  rewrite (whole_bind _ _ _ _ co) by (apply sreads_int; exact H). reflexivity.
Qed.
Lemma login_read cr user password database scramble p plugin co e :
  encrypt_password cr password scramble p = Ok e -> N.of_nat (length e) < 256 -> co < 256 ->
  valid_text user -> ~ In 0 user -> valid_text plugin -> ~ In 0 plugin ->
  (forall d, database = Some d -> valid_text d /\ ~ In 0 d) ->
  exists bs, authenticate_command cr user password database scramble p plugin co = Ok bs /\
    srv_login_packet bs = Some (SrvLogin (client_capabilities database) 0 co (utf8_encode user) e (option_map utf8_encode database) (Some (utf8_encode plugin))).
Proof.
  intros He Hl Hc U1 U2 P1 P2 D. unfold authenticate_command. rewrite He. cbn [rbind]. eexists. split; [reflexivity|]. unfold srv_login_packet.
  assert (B : client_capabilities database < 256 ^ N.of_nat 4) by (destruct database; reflexivity).
  rewrite (whole_bind _ _ _ _ (client_capabilities database)) by (apply sreads_int; exact B).
  rewrite (whole_bind _ _ _ _ 0) by (apply sreads_int; reflexivity).
  rewrite (whole_bind _ _ _ _ co) by (apply sreads_int; exact Hc).
  rewrite (whole_bind _ _ _ _ (repeat (n2b 0) 23)) by (apply sreads_bytes; reflexivity).
  rewrite (whole_bind0 _ _ _ tt) by (apply sreads_check; reflexivity).
  rewrite (whole_bind0 _ _ _ tt) by (apply sreads_check; destruct database; reflexivity).
  rewrite (whole_bind _ _ _ _ (utf8_encode user)) by (apply sreads_cstring; assumption).
  rewrite (app_assoc (le_enc 1 _) e). rewrite (whole_bind _ _ _ _ e) by (apply sreads_short; exact Hl).
  destruct database as [d|].
  - change (has_flag (client_capabilities (Some d)) 3) with true. cbv iota.
    change (has_flag (client_capabilities (Some d)) 19) with true. cbv iota.
    destruct (D d eq_refl) as [D1 D2].
    rewrite (whole_bind _ _ _ _ (Some (utf8_encode d))).
    2:{ rewrite <- (app_nil_r (write_null_term_string d)). eapply sreads_bind; [apply sreads_cstring; assumption|apply sreads_ret]. }
    rewrite <- (app_nil_r (write_null_term_string plugin)).
    rewrite (whole_bind _ _ _ _ (Some (utf8_encode plugin))); [reflexivity|].
    rewrite <- (app_nil_r (write_null_term_string plugin)). eapply sreads_bind; [apply sreads_cstring; assumption|apply sreads_ret].
  - change (has_flag (client_capabilities None) 3) with false. cbv iota.
    change (has_flag (client_capabilities None) 19) with true. cbv iota.
    rewrite (whole_bind0 _ _ _ None) by apply sreads_ret. cbn [app].
    rewrite <- (app_nil_r (write_null_term_string plugin)).
    rewrite (whole_bind _ _ _ _ (Some (utf8_encode plugin))); [reflexivity|].
    rewrite <- (app_nil_r (write_null_term_string plugin)). eapply sreads_bind; [apply sreads_cstring; assumption|apply sreads_ret].
Qed.

(* ---- hashed replies ---- *)
Lemma hashed_ok h password scramble : (forall m, h m <> []) ->
  hashed h password scramble = Ok (xor_cycled (h (utf8_encode password)) (h (utf8_encode scramble ++ h (h (utf8_encode password))))).
Proof. intros H. unfold hashed. apply xor_bytes_ok, H. Qed.
Lemma native_ok h k password scramble : (forall m, length (h m) = k) -> k <> 0%nat ->
  exists r, hashed h password scramble = Ok r /\ length r = k /\ native_accepts h (h (h (utf8_encode password))) (utf8_encode scramble) r.
Proof.
  intros H K. assert (NE : forall m, h m <> []) by (intros m E; specialize (H m); rewrite E in H; cbn in H; lia).
  rewrite hashed_ok by exact NE. eexists. split; [reflexivity|]. rewrite xor_cycled_length, H. split; [reflexivity|]. split.
  - rewrite xor_cycled_length, !H. reflexivity.
  - now rewrite xor_cycled_twice.
Qed.

(* ---- membership in the sent set ---- *)
Lemma sent_has order d n : srv_has (map sent_entry order) d n <-> set_has order d n.
Proof.
  unfold srv_has, set_has, ivs_has, iv_has. split.
  - intros (ivs & a & b & H1 & H2 & H3). apply in_map_iff in H1. destruct H1 as ([k us] & E & H1). inv E. cbn [snd].
    apply in_map_iff in H2. destruct H2 as (i & E & H2). inv E. exists k, us. repeat split; auto. exists i. split; [exact H2|]. lia.
  - intros (k & us & H1 & <- & i & H2 & H3). exists (map sent_iv (us_ivs us)), (istart i), (iend i + 1). split.
    + apply in_map_iff. exists (k, us). split; [reflexivity|exact H1].
    + split; [|lia]. apply in_map_iff. exists i. auto.
Qed.
Lemma set_ok_sendable s : set_ok s -> set_canonical s -> (forall d, ~ set_has s d 0) -> sendable s.
Proof.
  intros [_ H1] H2 H3. unfold sendable. apply Forall_forall. intros e He.
  pose proof (proj1 (Forall_forall _ _) H1 e He) as (_ & U & I). pose proof (proj1 (Forall_forall _ _) H2 e He) as (C & _). cbn beta in *.
  split; [now apply uuid_ok_length|]. split; [exact C|]. apply Forall_forall. intros i Hi.
  pose proof (proj1 (Forall_forall _ _) I i Hi) as [I1 I2]. split; [|exact I2].
  destruct (N.eq_dec (istart i) 0) as [Z|]; [|lia]. exfalso. apply (H3 (udata (us_source (snd e)))). exists (fst e), (snd e).
  split; [now rewrite <- surjective_pairing|]. split; [reflexivity|]. exists i. split; [exact Hi|]. unfold iv_has. lia.
Qed.
Lemma entry_bytes_size order : Forall (fun e => length (udata (us_source (snd e))) = 16%nat) order ->
  length (flat_map entry_bytes order) = list_sum (map (fun e => 24 + 16 * length (us_ivs (snd e))) order)%nat.
Proof.
  induction 1 as [|e order He Ho IH]; [reflexivity|]. cbn [flat_map map list_sum fold_right]. rewrite app_length, IH. unfold entry_bytes.
  rewrite !app_length, le_enc_length, iv_bytes_len, He. unfold list_sum. lia.
Qed.

Lemma byte_x_comm a b : byte_x a b = byte_x b a.
Proof. unfold byte_x. now rewrite N.lxor_comm. Qed.
Lemma byte_x_key s a b : byte_x (byte_x s a) b = s -> a = b.
Proof.
  intros H. assert (E : byte_x s a = byte_x s b) by (rewrite <- (byte_x_twice (byte_x s a) b), H; reflexivity).
  rewrite <- (byte_x_twice a s), (byte_x_comm a s), E, (byte_x_comm s b). apply byte_x_twice.
Qed.
Lemma xor_cycled_nth x b i : (i < length x)%nat -> nth i (xor_cycled x b) (n2b 0) = byte_x (nth i x (n2b 0)) (nth (i mod length b) b (n2b 0)).
Proof.
  intros Hx. unfold xor_cycled.
  rewrite nth_indep with (d' := (fun j => byte_x (nth j x (n2b 0)) (nth (j mod length b) b (n2b 0))) 0%nat) by (rewrite map_length, seq_length; exact Hx).
  rewrite (map_nth (fun j => byte_x (nth j x (n2b 0)) (nth (j mod length b) b (n2b 0)))). now rewrite seq_nth.
Qed.
Lemma xor_cycled_key s a b : length a = length s -> length b = length s -> xor_cycled (xor_cycled s a) b = s -> a = b.
Proof.
  intros Ha Hb H. apply nth_ext with (d := n2b 0) (d' := n2b 0); [lia|]. intros i Hi.
  assert (E : nth i (xor_cycled (xor_cycled s a) b) (n2b 0) = nth i s (n2b 0)) by now rewrite H.
  rewrite xor_cycled_nth in E by (rewrite xor_cycled_length; lia). rewrite xor_cycled_nth in E by lia.
  rewrite !Nat.mod_small in E by lia. eapply byte_x_key. exact E.
Qed.
