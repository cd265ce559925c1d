(* replicate() over a connection with failing and short writes. *)
From Coq Require Import Strings.String.
From Verif Require Import Base.Tac Base.Bytes Base.Text Base.Res Base.Str Base.Parse Model.Codec Model.Gtid Model.GtidMaria Model.Events Model.Client
  Model.Commands Model.Responses Model.Channel Model.Session Model.SessionIo Spec.CodecSpec Spec.ChannelSpec Spec.SessionSpec Spec.SockSpec Proofs.ChannelProofs Proofs.PlanProofs.
Local Open Scope N_scope.

Lemma handed_app a u x b v y : handed a u x -> handed b v y -> handed (a ++ b) (u ++ v) (x ++ y).
Proof. induction 1 as [|p ps w n us bs W H IH]; intros HB; [exact HB|]. cbn [app]. rewrite <- !app_assoc. constructor; auto. Qed.
Lemma sent_app a b : sent (a ++ b) = sent a ++ sent b.
Proof. unfold sent. apply flat_map_app. Qed.
Lemma le_enc_mod k : forall n m, m mod 256 ^ N.of_nat k = n mod 256 ^ N.of_nat k -> le_enc k m = le_enc k n.
Proof.
  induction k as [|k IH]; intros n m H; [reflexivity|]. cbn [le_enc]. rewrite Nat2N.inj_succ, N.pow_succ_r' in H.
  assert (P : 256 ^ N.of_nat k <> 0) by (apply N.pow_nonzero; discriminate).
  assert (L : m mod 256 = n mod 256).
  { assert (G : forall z, z mod 256 = (z mod (256 * 256 ^ N.of_nat k)) mod 256). { intros z. rewrite N.mod_mul_r by (assumption || discriminate). rewrite N.mul_comm, N.mod_add by discriminate. now rewrite N.mod_mod by discriminate. }
    rewrite (G m), (G n). now rewrite H. }
  f_equal; [rewrite <- (n2b_mod m), <- (n2b_mod n); now rewrite L|]. apply IH. rewrite !N.mod_mul_r in H by (assumption || discriminate). lia.
Qed.
Lemma le3_len p : le_enc 3 (N.of_nat (length p) mod u32max1) = le_enc 3 (N.of_nat (@length byte p)).
Proof.
  apply le_enc_mod. set (n := N.of_nat (length p)). change (256 ^ N.of_nat 3) with 16777216. change u32max1 with (16777216 * 256). rewrite N.mod_mul_r by discriminate.
  rewrite N.mul_comm, N.mod_add by discriminate. apply N.mod_mod. discriminate.
Qed.
Lemma write_packet_any p s os r bs os' : (16777216 <=? N.of_nat (length p) mod u32max1) = false -> write_packet p s os = (r, bs, os') ->
  (r = Ok tt /\ exists u n, os = u ++ os' /\ written u Whole n /\ bs = firstn n (wire (p, s))) \/ exists u n, os = u ++ os' /\ broken r u n os' /\ bs = firstn n (wire (p, s)).
Proof.
  intros B H. destruct (written_some os) as (u & r0 & f & n & -> & W & Z). pose proof (writes_went p s u n r0 B (le3_len p) f W) as X.
  destruct f.
  - rewrite X in H. injection H as <- <- <-. left. split; [reflexivity|]. exists u, n. auto.
  - rewrite X in H. injection H as <- <- <-. right. exists u, n. split; [reflexivity|]. split; [now left|reflexivity].
  - rewrite (Z eq_refl) in *. rewrite app_nil_r in H. rewrite X in H. injection H as <- <- <-. right. exists u, n. split; [reflexivity|]. split; [now right|reflexivity].
Qed.

(* the run with an operating system that takes everything, and the one over any other *)
Definition done {A} (m : act A) (w : world) (l : list io) (r : res A) (x : sock) (os : list wrote) (out : list byte) : Prop :=
  r = fst (m w) /\ k_world x = snd (m w) /\ exists us bs, os = us ++ k_os x /\ handed (sent l) us bs /\ k_out x = out ++ bs.
Definition cut {A} (l : list io) (w : world) (r : res A) (x : sock) (os : list wrote) (out : list byte) : Prop :=
  exists l1 p s l2 us u bs n, l = l1 ++ Sent p s :: l2 /\ w_log (k_world x) = w_log w ++ l1 /\ os = us ++ u ++ k_os x /\ handed (sent l1) us bs /\ broken r u n (k_os x) /\ k_out x = out ++ bs ++ firstn n (wire (p, s)).
Definition sim {A} (m : act A) (n : io_act A) : Prop := forall w, exists l, w_log (snd (m w)) = w_log w ++ l /\
  forall os out, let '(r, x) := n (Sock w os out) in done m w l r x os out \/ cut l w r x os out.

Lemma sim_of {A} (m : act A) : (forall w, exists l, w_log (snd (m w)) = w_log w ++ l /\ sent l = []) -> sim m (io_of m).
Proof.
  intros H w. destruct (H w) as (l & L & S). exists l. split; [exact L|]. intros os out. unfold io_of. cbn [k_world k_os k_out]. destruct (m w) as [r w'] eqn:E. left. unfold done. rewrite E. cbn [fst snd k_world k_os k_out].
  split; [reflexivity|]. split; [reflexivity|]. exists [], []. rewrite S. split; [reflexivity|]. split; [constructor|]. now rewrite app_nil_r.
Qed.
Lemma sim_lift {A} (r : res A) : sim (alift r) (io_lift r).
Proof. intros w. exists []. unfold alift. cbn [snd]. split; [now rewrite app_nil_r|]. intros os out. left. split; [reflexivity|]. split; [reflexivity|]. exists [], []. split; [reflexivity|]. split; [constructor|]. cbn. now rewrite app_nil_r. Qed.
Lemma sim_ret {A} (a : A) : sim (aret a) (io_ret a).
Proof. exact (sim_lift (Ok a)). Qed.
Lemma sim_client : sim a_client io_client.
Proof. apply sim_of. intros w. exists []. cbn. now rewrite app_nil_r. Qed.
Lemma sim_set c : sim (a_set_client c) (io_set_client c).
Proof. apply sim_of. intros w. exists []. cbn. now rewrite app_nil_r. Qed.
Lemma sim_read : sim a_read io_read.
Proof.
  apply sim_of. intros w. unfold a_read. destruct (read_packet (w_in w)) as [[[p s]|e| |] cs]; cbn [snd w_log].
  - exists [Received p s]. auto.
  - exists []. now rewrite app_nil_r.
  - exists []. now rewrite app_nil_r.
  - exists []. now rewrite app_nil_r.
Qed.
Lemma sim_write p s : sim (a_write p s) (io_write p s).
Proof.
  intros w. unfold a_write, io_write. cbn [k_world k_os k_out]. destruct (16777216 <=? N.of_nat (length p) mod u32max1) eqn:B.
  - exists []. cbn [snd]. split; [now rewrite app_nil_r|]. intros os out. unfold write_packet. rewrite B. left. unfold done. rewrite ?B. cbn [fst snd k_world k_os k_out]. split; [reflexivity|]. split; [reflexivity|]. exists [], []. split; [reflexivity|]. split; [constructor|reflexivity].
  - exists [Sent p s]. cbn [snd w_log]. split; [reflexivity|]. intros os out. destruct (write_packet p s os) as [[r bs] os'] eqn:E. destruct (write_packet_any p s os r bs os' B E) as [(-> & u & n & EO & W & ->)|(u & n & EO & BR & ->)].
    + left. unfold done. rewrite ?B. cbn [fst snd k_world k_os k_out]. split; [reflexivity|]. split; [reflexivity|]. exists u, (firstn n (wire (p, s))). split; [exact EO|]. split; [|reflexivity].
      change (sent [Sent p s]) with [(p, s)]. rewrite <- (app_nil_r (firstn n (wire (p, s)))), <- (app_nil_r u). constructor; [exact W|constructor].
    + right. exists [], p, s, [], [], u, [], n. cbn [k_os k_out k_world]. split; [reflexivity|]. split; [destruct BR as [[-> _]|[-> _]]; now rewrite app_nil_r|]. split; [exact EO|]. split; [constructor|]. split; [exact BR|reflexivity].
Qed.
Lemma sim_bind {A B} (m : act A) n (f : A -> act B) g : sim m n -> (forall a, sim (f a) (g a)) -> sim (abind m f) (io_bind n g).
Proof.
  intros H K w. destruct (H w) as (l & L & HN). unfold abind, io_bind. destruct (m w) as [r0 w0] eqn:E. cbn [snd] in L.
  assert (T : forall (r1 : res B), (forall a, r0 <> Ok a) -> (match r0 with Ok a => f a w0 | Err e => (Err e, w0) | Panic => (Panic, w0) | Diverge => (Diverge, w0) end) = (r1, w0) ->
    (forall e, r0 = Err e -> r1 = Err e) -> (r0 = Panic -> r1 = Panic) -> (r0 = Diverge -> r1 = Diverge) ->
    exists l', w_log w0 = w_log w ++ l' /\ forall os out, let '(r, x) := match n (Sock w os out) with (Ok a, x') => g a x' | (Err e, x') => (Err e, x') | (Panic, x') => (Panic, x') | (Diverge, x') => (Diverge, x') end in
      (r = r1 /\ k_world x = w0 /\ exists us bs, os = us ++ k_os x /\ handed (sent l') us bs /\ k_out x = out ++ bs) \/ cut l' w r x os out).
  { intros r1 NO _ E1 E2 E3. exists l. split; [exact L|]. intros os out. specialize (HN os out). destruct (n (Sock w os out)) as [rr x]. unfold done in HN. rewrite E in HN. cbn [fst snd] in HN.
    destruct HN as [(-> & KW & BS)|C].
    - destruct r0 as [a|e| |]; [exfalso; now apply (NO a)|rewrite (E1 e eq_refl)|rewrite (E2 eq_refl)|rewrite (E3 eq_refl)]; left; auto.
    - destruct C as (l1 & p & s & l2 & us & u & bs & k & C1 & C2 & C3 & C4 & BR & C5). destruct BR as [[-> BR]|[-> BR]]; right; exists l1, p, s, l2, us, u, bs, k; (split; [exact C1|]); (split; [exact C2|]); (split; [exact C3|]); (split; [exact C4|]); (split; [|exact C5]); [left|right]; auto. }
  unfold done. rewrite E. destruct r0 as [a|e| |]; [|eapply T; [discriminate|reflexivity|intros ? Z; injection Z as ->; reflexivity|discriminate|discriminate]|eapply T; [discriminate|reflexivity|discriminate|reflexivity|discriminate]|eapply T; [discriminate|reflexivity|discriminate|discriminate|reflexivity]].
  clear T. destruct (K a w0) as (l2 & L2 & HK). exists (l ++ l2). split; [now rewrite L2, L, app_assoc|]. intros os out. specialize (HN os out). destruct (n (Sock w os out)) as [rr x]. unfold done in HN. rewrite E in HN. cbn [fst snd] in HN.
  destruct HN as [(-> & KW & us & bs & EO & HB & KO)|C].
  - destruct x as [xw xo xb]. cbn [k_world k_os k_out] in KW, KO, EO. subst xw xb. specialize (HK xo (out ++ bs)). destruct (g a (Sock w0 xo (out ++ bs))) as [r x]. destruct HK as [(-> & KW & us2 & bs2 & EO2 & HB2 & KO2)|(l1 & p & s & l3 & us2 & u & bs2 & k & -> & KL & EO2 & HB2 & BR & KO2)].
    + left. split; [reflexivity|]. split; [exact KW|]. exists (us ++ us2), (bs ++ bs2). split; [now rewrite EO, EO2, app_assoc|]. split; [rewrite sent_app; now apply handed_app|]. now rewrite KO2, app_assoc.
    + right. exists (l ++ l1), p, s, l3, (us ++ us2), u, (bs ++ bs2), k. split; [now rewrite <- app_assoc|]. split; [now rewrite KL, L, app_assoc|]. split; [rewrite EO, EO2; now rewrite <- app_assoc|]. split; [rewrite sent_app; now apply handed_app|]. split; [exact BR|]. rewrite KO2. now rewrite <- !app_assoc.
  - destruct C as (l1 & p & s & l3 & us2 & u & bs2 & k & -> & KL & EO2 & HB2 & BR & KO2). destruct BR as [[-> BR]|[-> BR]]; right; exists l1, p, s, (l3 ++ l2), us2, u, bs2, k; (split; [now rewrite <- app_assoc|]); (split; [exact KL|]); (split; [exact EO2|]); (split; [exact HB2|]); (split; [|exact KO2]); [left|right]; auto.
Qed.
(* reading sends nothing *)
Definition silent {A} (m : act A) : Prop := forall w, exists l, w_log (snd (m w)) = w_log w ++ l /\ sent l = [].
Lemma sil_lift {A} (r : res A) : silent (alift r).
Proof. intros w. exists []. cbn. now rewrite app_nil_r. Qed.
Lemma sil_read : silent a_read.
Proof.
  intros w. unfold a_read. destruct (read_packet (w_in w)) as [[[p s]|e| |] cs]; cbn [snd w_log].
  - exists [Received p s]. auto.
  - exists []. now rewrite app_nil_r.
  - exists []. now rewrite app_nil_r.
  - exists []. now rewrite app_nil_r.
Qed.
Lemma sil_bind {A B} (m : act A) (f : A -> act B) : silent m -> (forall a, silent (f a)) -> silent (abind m f).
Proof.
  intros H K w. unfold abind. destruct (H w) as (l & L & S). destruct (m w) as [[a|e| |] w']; cbn [snd] in *; eauto. destruct (K a w') as (l2 & L2 & S2). exists (l ++ l2). rewrite L2, L, app_assoc, sent_app, S, S2. auto.
Qed.
Lemma sil_skip f : silent (skip_columns f).
Proof. induction f as [|f IH]; cbn [skip_columns]; [apply sil_lift|]. apply sil_bind; [apply sil_read|]. intros r. apply sil_bind; [apply sil_lift|]. intros b. destruct (b =? resp_eof); [apply (sil_lift (Ok tt))|exact IH]. Qed.
Lemma sil_rows f : forall acc, silent (read_rows f acc).
Proof.
  induction f as [|f IH]; intros acc; cbn [read_rows]; [apply sil_lift|]. apply sil_bind; [apply sil_read|]. intros r. apply sil_bind; [apply sil_lift|]. intros _. apply sil_bind; [apply sil_lift|]. intros b.
  destruct (b =? resp_eof); [apply (sil_lift (Ok acc))|]. apply sil_bind; [apply sil_lift|]. intros row. apply IH.
Qed.
Lemma sim_result_set : sim read_result_set io_result_set.
Proof.
  apply sim_of. apply sil_bind; [apply sil_read|]. intros r. apply sil_bind; [apply sil_lift|]. intros _. apply sil_bind; [intros w; apply sil_skip|]. intros _ w. apply sil_rows.
Qed.
Ltac simt := repeat match goal with
  | |- sim (abind _ _) (io_bind _ _) => apply sim_bind; [|intros ?]
  | |- sim (alift _) _ => apply sim_lift
  | |- sim (aret _) _ => apply sim_ret
  | |- sim a_client _ => apply sim_client
  | |- sim (a_set_client _) _ => apply sim_set
  | |- sim a_read _ => apply sim_read
  | |- sim (a_write _ _) _ => apply sim_write
  | |- sim read_result_set _ => apply sim_result_set
  | |- sim (if ?b then _ else _) _ => destruct b
  | |- sim (match ?x with _ => _ end) _ => destruct x
  | |- sim (let _ := _ in _) _ => cbv zeta
  end.
Lemma sim_statement sql msg : sim (statement sql msg) (io_statement sql msg).
Proof. unfold statement, io_statement. simt. Qed.
Lemma sim_sha bl ev st p sc s u : sim (authenticate_sha_256 bl ev st p sc s u) (io_authenticate_sha_256 bl ev st p sc s u).
Proof. unfold authenticate_sha_256, io_authenticate_sha_256. cbv zeta. simt. Qed.
Lemma sim_switch bl ev st sw s u : sim (handle_switch bl ev st sw s u) (io_handle_switch bl ev st sw s u).
Proof. unfold handle_switch, io_handle_switch. simt. apply sim_sha. Qed.
Lemma sim_authenticate bl ev st hs p s : sim (authenticate bl ev st hs p s) (io_authenticate bl ev st hs p s).
Proof. unfold authenticate, io_authenticate. simt; (apply sim_switch || apply sim_sha). Qed.
Lemma sim_connect bl ev st : sim (connect bl ev st) (io_connect bl ev st).
Proof. unfold connect, io_connect. simt. apply sim_authenticate. Qed.
Lemma sim_adjust : sim adjust_starting_position io_adjust_starting_position.
Proof. unfold adjust_starting_position, io_adjust_starting_position. simt. Qed.
Lemma sim_replicate bl ev st : sim (replicate bl ev st) (io_replicate bl ev st).
Proof.
  unfold replicate, io_replicate. apply sim_bind; [apply sim_connect|]. intros pr. apply sim_bind; [apply sim_client|]. intros c. apply sim_bind; [apply sim_set|]. intros _. apply sim_bind; [apply sim_adjust|]. intros _.
  apply sim_bind; [apply sim_statement|]. intros _. apply sim_bind.
  - unfold set_master_binlog_checksum, io_set_master_binlog_checksum. apply sim_bind; [apply sim_statement|]. intros _. simt.
  - intros ck. cbv zeta. apply sim_bind; [|intros _; apply sim_ret]. destruct pr.
    + unfold replicate_mariadb, io_replicate_mariadb. apply sim_bind; [apply sim_statement|]. intros _. apply sim_bind; [apply sim_client|]. intros c2. cbv zeta. apply sim_bind; [|intros _; apply sim_write].
      destruct (strategy_eqb _ _); [|apply sim_ret]. destruct (o_list _); [|apply sim_lift]. unfold register_gtid_slave, io_register_gtid_slave. repeat (apply sim_bind; [apply sim_statement|intros _]). simt.
    + unfold replicate_mysql, io_replicate_mysql. simt.
Qed.
