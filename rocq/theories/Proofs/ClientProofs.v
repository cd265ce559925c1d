(* commit() over histories. *)
From Coq Require Import Strings.String.
From Verif Require Import Base.Tac Base.Bytes Base.Text Base.Res Base.Str Model.Gtid Model.GtidMaria Model.Events Model.Client
  Spec.GtidSpec Spec.GtidMariaSpec Spec.ClientSpec Proofs.GtidProofs Proofs.GtidSetProofs Proofs.GtidMariaProofs.
Local Open Scope N_scope.

Lemma commit_all_app bl a b : forall c,
  commit_all bl c (a ++ b) = (let? c' := commit_all bl c a in commit_all bl c' b).
Proof.
  induction a as [|[h e] a IH]; intros c; cbn [app commit_all]; [reflexivity|].
  destruct (commit bl c h e); cbn [rbind]; auto.
Qed.

(* the part of the client that GTID bookkeeping reads and writes *)
Definition gst (c : client) := (o_strategy (c_opts c), o_set (c_opts c), o_list (c_opts c), c_txn c, c_maria c, c_mysql c).

Lemma position_gst c h e : gst (update_binlog_position c h e) = gst c.
Proof. unfold update_binlog_position. destruct e; try reflexivity; destruct (0 <? h_next h); reflexivity. Qed.

Lemma commit_gst bl c h e c1 : update_gtid_position bl c e = Ok c1 ->
  exists c', commit bl c h e = Ok c' /\ gst c' = gst c1.
Proof.
  intros H. unfold commit. rewrite H. cbn [rbind]. eexists. split; [reflexivity|apply position_gst].
Qed.

Definition mode (c : client) : Prop := o_strategy (c_opts c) = FromGtid.
Lemma gst_mode c c' : gst c' = gst c -> mode c -> mode c'.
Proof. unfold mode, gst. intros E. congruence. Qed.

Lemma data_step bl c h e : is_data e = true -> exists c', commit bl c h e = Ok c' /\ gst c' = gst c.
Proof.
  intros Hd. apply commit_gst. unfold update_gtid_position.
  destruct (negb _); [reflexivity|]. unfold is_data, is_begin, is_end, is_gtid, is_statement in Hd.
  destruct e; try reflexivity; try discriminate.
  cbn [is_begin is_end] in Hd. unfold is_begin, is_end in Hd. destruct (q_sql q) as [|x t] eqn:E; [reflexivity|].
  destruct (text_eqb (x :: t) (tx "BEGIN")), (text_eqb (x :: t) (tx "COMMIT") || text_eqb (x :: t) (tx "ROLLBACK"));
    cbn in Hd; discriminate.
Qed.
Lemma data_all bl es : Forall (fun x => is_data (snd x) = true) es -> forall c,
  exists c', commit_all bl c es = Ok c' /\ gst c' = gst c.
Proof.
  induction 1 as [|[h e] es He Hes IH]; intros c; cbn [commit_all]; [eauto|].
  destruct (data_step bl c h e He) as (c1 & -> & E1). cbn [rbind].
  destruct (IH c1) as (c2 & -> & E2). exists c2. split; [reflexivity|congruence].
Qed.

Lemma mode_eqb c : mode c -> negb (strategy_eqb (o_strategy (c_opts c)) FromGtid) = false.
Proof. intros H. rewrite H. reflexivity. Qed.

Lemma gtid_step bl c h g : mode c -> exists c', commit bl c h (EvMySqlGtid g) = Ok c' /\
  gst c' = (o_strategy (c_opts c), o_set (c_opts c), o_list (c_opts c), c_txn c, c_maria c, Some (me_gtid g)).
Proof.
  intros Hm.
  destruct (commit_gst bl c h (EvMySqlGtid g) (Client (c_opts c) (c_txn c) (c_maria c) (Some (me_gtid g)))) as (c' & H1 & H2).
  - unfold update_gtid_position. now rewrite mode_eqb by exact Hm.
  - exists c'. split; [exact H1|exact H2].
Qed.
Lemma mgtid_step bl c h g : mode c -> exists c', commit bl c h (EvMariaGtid g) = Ok c' /\
  gst c' = (o_strategy (c_opts c), o_set (c_opts c), o_list (c_opts c), c_txn c, Some (ma_gtid g), c_mysql c).
Proof.
  intros Hm.
  destruct (commit_gst bl c h (EvMariaGtid g) (Client (c_opts c) (c_txn c) (Some (ma_gtid g)) (c_mysql c))) as (c' & H1 & H2).
  - unfold update_gtid_position. now rewrite mode_eqb by exact Hm.
  - exists c'. split; [exact H1|exact H2].
Qed.
Lemma begin_step bl c h e : mode c -> is_begin e = true -> exists c', commit bl c h e = Ok c' /\
  gst c' = (o_strategy (c_opts c), o_set (c_opts c), o_list (c_opts c), true, c_maria c, c_mysql c).
Proof.
  intros Hm Hb. destruct e; try discriminate. cbn [is_begin] in Hb.
  destruct (commit_gst bl c h (EvQuery q) (Client (c_opts c) true (c_maria c) (c_mysql c))) as (c' & H1 & H2).
  - unfold update_gtid_position. rewrite mode_eqb by exact Hm.
    destruct (q_sql q) as [|x t] eqn:E; [discriminate|]. now rewrite Hb.
  - exists c'. split; [exact H1|exact H2].
Qed.
Lemma body_step bl c h e : mode c -> c_txn c = true -> is_end e = false -> is_gtid e = false ->
  exists c', commit bl c h e = Ok c' /\ gst c' = gst c.
Proof.
  intros Hm Ht He Hg. destruct (is_begin e) eqn:Hb.
  - destruct (begin_step bl c h e Hm Hb) as (c' & H1 & H2). exists c'. split; [exact H1|]. rewrite H2. unfold gst. congruence.
  - destruct (is_statement e) eqn:Hs.
    + apply commit_gst. unfold update_gtid_position. rewrite mode_eqb by exact Hm. destruct e; try discriminate.
      cbn [is_begin is_end] in *. destruct (q_sql q) as [|x t] eqn:E; [reflexivity|]. rewrite Hb, He, Ht. reflexivity.
    + apply data_step. unfold is_data. now rewrite Hb, He, Hg, Hs.
Qed.
Lemma body_all bl es : Forall (fun x => is_end (snd x) = false /\ is_gtid (snd x) = false) es -> forall c, mode c -> c_txn c = true ->
  exists c', commit_all bl c es = Ok c' /\ gst c' = gst c.
Proof.
  induction 1 as [|[h e] es He Hes IH]; intros c Hm Ht; cbn [commit_all]; [eauto|]. cbn [snd] in He.
  destruct (body_step bl c h e Hm Ht) as (c1 & -> & E1); try tauto. cbn [rbind].
  destruct (IH c1) as (c2 & -> & E2).
  - now apply (gst_mode c).
  - unfold gst in E1. congruence.
  - exists c2. split; [reflexivity|congruence].
Qed.

(* commit_gtid with a pending MySQL GTID *)
Lemma commit_gtid_mysql bl c g s b s' : c_mysql c = Some g -> o_set (c_opts c) = Some s -> gtid_set_add bl s g = Ok (b, s') ->
  exists c1, commit_gtid bl c = Ok c1 /\ o_strategy (c_opts c1) = o_strategy (c_opts c) /\ o_set (c_opts c1) = Some s' /\
    c_txn c1 = false /\ c_mysql c1 = Some g.
Proof.
  intros Hg Hs Ha. unfold commit_gtid. rewrite Hg.
  destruct (c_maria c) as [mg|]; [destruct (o_list (c_opts c)) as [l|]|]; cbn [o_set with_list]; rewrite Hs, Ha; cbn [rbind];
    eexists; (split; [reflexivity|]); repeat split; cbn; auto.
Qed.
(* commit_gtid with a pending MariaDB GTID and no MySQL set *)
Lemma commit_gtid_maria bl c g l : c_maria c = Some g -> o_list (c_opts c) = Some l -> o_set (c_opts c) = None ->
  exists c1, commit_gtid bl c = Ok c1 /\ o_strategy (c_opts c1) = o_strategy (c_opts c) /\
    o_list (c_opts c1) = Some (snd (gtid_list_add l g)) /\ o_set (c_opts c1) = None /\ c_txn c1 = false.
Proof.
  intros Hg Hl Hs. unfold commit_gtid. rewrite Hg, Hl. cbn [with_list o_set]. rewrite Hs.
  destruct (c_mysql c); cbn [rbind]; eexists; (split; [reflexivity|]); repeat split; cbn; auto.
Qed.

Lemma end_update bl c e : mode c -> is_end e = true -> update_gtid_position bl c e = commit_gtid bl c.
Proof.
  intros Hm He. unfold update_gtid_position. rewrite mode_eqb by exact Hm. destruct e; try discriminate; [reflexivity|].
  cbn [is_end] in He. destruct (q_sql q) as [|x t] eqn:E; [discriminate|].
  destruct (text_eqb (x :: t) (tx "BEGIN")) eqn:Eb.
  - destruct (text_eqb_spec (x :: t) (tx "BEGIN")) as [H|H]; [|discriminate]. rewrite H in He. discriminate.
  - now rewrite He.
Qed.
Lemma statement_update bl c e : mode c -> c_txn c = false -> is_statement e = true -> update_gtid_position bl c e = commit_gtid bl c.
Proof.
  intros Hm Ht He. unfold update_gtid_position. rewrite mode_eqb by exact Hm. destruct e; try discriminate.
  cbn [is_statement] in He. destruct (q_sql q) as [|x t] eqn:E; [discriminate|].
  cbn [is_begin is_end] in He. rewrite E in He. apply andb_prop in He. destruct He as [H1 H2].
  apply Bool.negb_true_iff in H1, H2. now rewrite H1, H2, Ht.
Qed.

Lemma finish_mysql bl c h e g s b s' :
  update_gtid_position bl c e = commit_gtid bl c ->
  c_mysql c = Some g -> o_set (c_opts c) = Some s -> gtid_set_add bl s g = Ok (b, s') ->
  exists c', commit bl c h e = Ok c' /\ o_strategy (c_opts c') = o_strategy (c_opts c) /\ o_set (c_opts c') = Some s' /\ c_txn c' = false.
Proof.
  intros Hu Hg Hs Ha. destruct (commit_gtid_mysql bl c g s b s' Hg Hs Ha) as (c1 & H1 & H2 & H3 & H4 & H5).
  rewrite <- Hu in H1. destruct (commit_gst bl c h e c1 H1) as (c' & A & B). exists c'. split; [exact A|].
  unfold gst in B. injection B as B1 B2 B3 B4 B5 B6. repeat split; congruence.
Qed.
Lemma finish_maria bl c h e g l :
  update_gtid_position bl c e = commit_gtid bl c ->
  c_maria c = Some g -> o_list (c_opts c) = Some l -> o_set (c_opts c) = None ->
  exists c', commit bl c h e = Ok c' /\ o_strategy (c_opts c') = o_strategy (c_opts c) /\
    o_list (c_opts c') = Some (snd (gtid_list_add l g)) /\ o_set (c_opts c') = None /\ c_txn c' = false.
Proof.
  intros Hu Hg Hl Hs. destruct (commit_gtid_maria bl c g l Hg Hl Hs) as (c1 & H1 & H2 & H3 & H4 & H5).
  rewrite <- Hu in H1. destruct (commit_gst bl c h e c1 H1) as (c' & A & B). exists c'. split; [exact A|].
  unfold gst in B. injection B as B1 B2 B3 B4 B5 B6. repeat split; congruence.
Qed.

Ltac gstd H := unfold gst in H; injection H as ? ? ? ? ? ?.

(* ---- whole transactions and their proper prefixes ---- *)
Lemma firstn_snoc_lt {A} k (l : list A) x : (k <= length l)%nat -> firstn k (l ++ [x]) = firstn k l.
Proof. intros H. rewrite firstn_app. replace (k - length l)%nat with 0%nat by lia. cbn [firstn]. now rewrite app_nil_r. Qed.
Lemma Forall_firstn {A} (P : A -> Prop) k l : Forall P l -> Forall P (firstn k l).
Proof. intros H. rewrite <- (firstn_skipn k l) in H. apply Forall_app in H. tauto. Qed.

(* any prefix of "GTID, data, BEGIN, body" leaves the set alone *)
Lemma open_block bl hg g pre b body : Forall (fun x => is_data (snd x) = true) pre -> is_begin (snd b) = true ->
  Forall (fun x => is_end (snd x) = false /\ is_gtid (snd x) = false) body ->
  forall k c, mode c -> exists c', commit_all bl c (firstn k ((hg, EvMySqlGtid g) :: pre ++ b :: body)) = Ok c' /\
    o_strategy (c_opts c') = FromGtid /\ o_set (c_opts c') = o_set (c_opts c) /\
    (length ((hg, EvMySqlGtid g) :: pre ++ b :: body) <= k -> c_mysql c' = Some (me_gtid g))%nat.
Proof.
  intros Hp Hb Hbody k c Hm. destruct k as [|k]; [exists c; cbn; repeat split; auto; lia|].
  cbn [firstn commit_all]. destruct (gtid_step bl c hg g Hm) as (c1 & -> & E1). cbn [rbind]. gstd E1.
  assert (Hm1 : mode c1) by (unfold mode in *; congruence).
  rewrite firstn_app, commit_all_app.
  destruct (data_all bl (firstn k pre) (Forall_firstn _ _ _ Hp) c1) as (c2 & -> & E2). cbn [rbind]. gstd E2.
  assert (Hm2 : mode c2) by (unfold mode in *; congruence).
  cbn [length]. rewrite app_length. cbn [length].
  destruct (k - length pre)%nat as [|k2] eqn:Ek.
  - cbn [firstn commit_all]. exists c2. repeat split; try (unfold mode in *; congruence); try lia.
  - cbn [firstn commit_all]. destruct b as [hb eb]. cbn [snd] in Hb.
    destruct (begin_step bl c2 hb eb Hm2 Hb) as (c3 & -> & E3). cbn [rbind]. gstd E3.
    assert (Hm3 : mode c3) by (unfold mode in *; congruence).
    destruct (body_all bl (firstn k2 body) (Forall_firstn _ _ _ Hbody) c3 Hm3) as (c4 & -> & E4); [congruence|]. gstd E4.
    exists c4. repeat split; try (unfold mode in *; congruence).
Qed.
Lemma open_auto bl hg g pre : Forall (fun x => is_data (snd x) = true) pre ->
  forall k c, mode c -> c_txn c = false -> exists c', commit_all bl c (firstn k ((hg, EvMySqlGtid g) :: pre)) = Ok c' /\
    o_strategy (c_opts c') = FromGtid /\ o_set (c_opts c') = o_set (c_opts c) /\ c_txn c' = false /\
    (length ((hg, EvMySqlGtid g) :: pre) <= k -> c_mysql c' = Some (me_gtid g))%nat.
Proof.
  intros Hp k c Hm Ht. destruct k as [|k]; [exists c; cbn; repeat split; auto; lia|].
  cbn [firstn commit_all]. destruct (gtid_step bl c hg g Hm) as (c1 & -> & E1). cbn [rbind]. gstd E1.
  destruct (data_all bl (firstn k pre) (Forall_firstn _ _ _ Hp) c1) as (c2 & -> & E2). gstd E2.
  exists c2. repeat split; try (unfold mode in *; congruence).
Qed.

Lemma txn_prefix bl t : txn_ok t -> forall k c, mode c -> c_txn c = false -> (k < length (txn_events t))%nat ->
  exists c', commit_all bl c (firstn k (txn_events t)) = Ok c' /\ o_strategy (c_opts c') = FromGtid /\ o_set (c_opts c') = o_set (c_opts c).
Proof.
  intros Hok k c Hm Ht Hk. destruct t as [hg g pre b body e|hg g pre q]; cbn [txn_ok txn_events] in *.
  - destruct Hok as (Hp & Hb & Hbody & He).
    assert (E : (hg, EvMySqlGtid g) :: pre ++ b :: body ++ [e] = ((hg, EvMySqlGtid g) :: pre ++ b :: body) ++ [e])
      by (cbn [app]; now rewrite <- app_assoc).
    rewrite E in *. rewrite app_length in Hk. change (length [e]) with 1%nat in Hk. rewrite firstn_snoc_lt by lia.
    destruct (open_block bl hg g pre b body Hp Hb Hbody k c Hm) as (c' & H1 & H2 & H3 & _). eauto.
  - destruct Hok as (Hp & Hq).
    assert (E : (hg, EvMySqlGtid g) :: pre ++ [q] = ((hg, EvMySqlGtid g) :: pre) ++ [q]) by reflexivity.
    rewrite E in *. rewrite app_length in Hk. change (length [q]) with 1%nat in Hk. rewrite firstn_snoc_lt by lia.
    destruct (open_auto bl hg g pre Hp k c Hm Ht) as (c' & H1 & H2 & H3 & _). eauto.
Qed.
Lemma txn_full bl t s b s' : txn_ok t -> forall c, mode c -> c_txn c = false -> o_set (c_opts c) = Some s ->
  gtid_set_add bl s (txn_gtid t) = Ok (b, s') ->
  exists c', commit_all bl c (txn_events t) = Ok c' /\ mode c' /\ o_set (c_opts c') = Some s' /\ c_txn c' = false.
Proof.
  intros Hok c Hm Ht Hs Ha. destruct t as [hg g pre x body e|hg g pre q]; cbn [txn_ok txn_events txn_gtid] in *.
  - destruct Hok as (Hp & Hb & Hbody & He).
    replace ((hg, EvMySqlGtid g) :: pre ++ x :: body ++ [e]) with (((hg, EvMySqlGtid g) :: pre ++ x :: body) ++ [e])
      by (cbn [app]; now rewrite <- app_assoc).
    rewrite commit_all_app.
    destruct (open_block bl hg g pre x body Hp Hb Hbody (length ((hg, EvMySqlGtid g) :: pre ++ x :: body)) c Hm) as (c1 & H1 & H2 & H3 & H4).
    rewrite firstn_all in H1. rewrite H1. cbn [rbind commit_all]. destruct e as [h e]. cbn [snd] in He.
    destruct (finish_mysql bl c1 h e (me_gtid g) s b s') as (c2 & -> & E2 & E3 & E4); auto; try congruence.
    { now apply end_update. }
    cbn [rbind]. exists c2. repeat split; auto. unfold mode. congruence.
  - destruct Hok as (Hp & Hq).
    replace ((hg, EvMySqlGtid g) :: pre ++ [q]) with (((hg, EvMySqlGtid g) :: pre) ++ [q]) by reflexivity.
    rewrite commit_all_app.
    destruct (open_auto bl hg g pre Hp (length ((hg, EvMySqlGtid g) :: pre)) c Hm Ht) as (c1 & H1 & H2 & H3 & H4 & H5).
    rewrite firstn_all in H1. rewrite H1. cbn [rbind commit_all]. destruct q as [h e]. cbn [snd] in Hq.
    destruct (finish_mysql bl c1 h e (me_gtid g) s b s') as (c2 & -> & E2 & E3 & E4); auto; try congruence.
    { now apply statement_update. }
    cbn [rbind]. exists c2. repeat split; auto. unfold mode. congruence.
Qed.

Lemma stream_gtid_uuid g : stream_gtid_ok g -> uuid_ok (g_source g) /\ g_txn g < u64_top.
Proof. intros (H1 & H2 & H3). split; [|exact H3]. rewrite H1. now apply uuid_new_ok. Qed.

(* the set after any prefix = the initial set plus the GTIDs of the completed transactions, in order *)
Theorem commit_stream bl : forall is k c s,
  Forall item_ok is -> Forall (fun t => stream_gtid_ok (txn_gtid t)) (stream_txns is) ->
  mode c -> c_txn c = false -> o_set (c_opts c) = Some s -> set_ok s ->
  exists c' s', commit_all bl c (firstn k (stream_events is)) = Ok c' /\ mode c' /\ o_set (c_opts c') = Some s' /\ set_ok s' /\
    add_all bl s (map txn_gtid (completed k is)) = Ok s'.
Proof.
  induction is as [|i is IH]; intros k c s Hok Hg Hm Ht Hs Hsok.
  - exists c, s. unfold stream_events. cbn [flat_map]. rewrite firstn_nil. cbn [commit_all completed map add_all]. repeat split; auto; apply Hsok.
  - apply Forall_cons_iff in Hok. destruct Hok as [Hi Hok]. unfold stream_events, stream_txns in *. cbn [flat_map completed] in *.
    apply Forall_app in Hg. destruct Hg as [Hgi Hg].
    rewrite firstn_app, commit_all_app. destruct (Nat.ltb_spec k (length (item_events i))) as [Hk|Hk].
    + replace (k - length (item_events i))%nat with 0%nat by lia. cbn [firstn map add_all].
      assert (exists c', commit_all bl c (firstn k (item_events i)) = Ok c' /\ mode c' /\ o_set (c_opts c') = Some s) as (c' & -> & H1 & H2).
      { destruct i as [x|t]; cbn [item_events item_ok] in *.
        - cbn [length] in Hk. replace k with 0%nat by lia. cbn [firstn commit_all]. eauto.
        - destruct (txn_prefix bl t Hi k c Hm Ht Hk) as (c' & A & B & C). exists c'. repeat split; auto. congruence. }
      cbn [rbind commit_all]. exists c', s. repeat split; auto; apply Hsok.
    + rewrite firstn_all2 by lia.
      assert (exists c' s1, commit_all bl c (item_events i) = Ok c' /\ mode c' /\ o_set (c_opts c') = Some s1 /\ c_txn c' = false /\
               set_ok s1 /\ add_all bl s (map txn_gtid (item_txns i)) = Ok s1) as (c1 & s1 & -> & H1 & H2 & H3 & H4 & H5).
      { destruct i as [[h e]|t]; cbn [item_events item_ok item_txns map add_all] in *.
        - destruct (data_all bl [(h, e)]) with (c := c) as (c' & A & B); [constructor; auto|]. gstd B.
          exists c', s. repeat split; auto; try apply Hsok; unfold mode in *; congruence.
        - apply Forall_cons_iff in Hgi. destruct Hgi as [Hgt _]. apply stream_gtid_uuid in Hgt. destruct Hgt as [U1 U2].
          destruct (gtid_set_add_spec bl s (txn_gtid t) Hsok U1 U2) as (b & s' & us & us' & A & B & _).
          destruct (txn_full bl t s b s' Hi c Hm Ht Hs A) as (c' & C & D & E & F).
          exists c', s'. rewrite A. cbn [rbind snd]. repeat split; auto; apply B. }
      cbn [rbind]. destruct (IH (k - length (item_events i))%nat c1 s1 Hok Hg H1 H3 H2 H4) as (c' & s' & A & B & C & D & E).
      exists c', s'. repeat split; auto; try apply D. rewrite map_app.
      clear - H5 E. revert s H5. induction (map txn_gtid (item_txns i)) as [|g l IHl]; intros s H5; cbn [app add_all] in *.
      * inv H5. exact E.
      * destruct (gtid_set_add bl s g) as [[b x]|e| |]; cbn [rbind snd] in *; try discriminate. now apply IHl.
Qed.

(* ---- MariaDB ---- *)
Lemma open_group bl hg g body : Forall (fun x => is_data (snd x) = true) body ->
  forall k c, mode c -> exists c', commit_all bl c (firstn k ((hg, EvMariaGtid g) :: body)) = Ok c' /\
    o_strategy (c_opts c') = FromGtid /\ o_list (c_opts c') = o_list (c_opts c) /\ o_set (c_opts c') = o_set (c_opts c) /\
    c_txn c' = c_txn c /\ (length ((hg, EvMariaGtid g) :: body) <= k -> c_maria c' = Some (ma_gtid g))%nat.
Proof.
  intros Hp k c Hm. destruct k as [|k]; [exists c; cbn; repeat split; auto; lia|].
  cbn [firstn commit_all]. destruct (mgtid_step bl c hg g Hm) as (c1 & -> & E1). cbn [rbind]. gstd E1.
  destruct (data_all bl (firstn k body) (Forall_firstn _ _ _ Hp) c1) as (c2 & -> & E2). gstd E2.
  exists c2. repeat split; try (unfold mode in *; congruence).
Qed.
Lemma group_shape t : exists hg g body e, group_events t = ((hg, EvMariaGtid g) :: body) ++ [e] /\ group_gtid t = ma_gtid g /\
  (group_rows_ok t -> Forall (fun x => is_data (snd x) = true) body /\ (is_end (snd e) = true \/ is_statement (snd e) = true)).
Proof.
  destruct t as [hg g body e|hg g pre q]; cbn [group_events group_gtid group_rows_ok].
  - exists hg, g, body, e. repeat split; tauto.
  - exists hg, g, pre, q. repeat split; tauto.
Qed.
Lemma group_prefix bl t : group_rows_ok t -> forall k c, mode c -> (k < length (group_events t))%nat ->
  exists c', commit_all bl c (firstn k (group_events t)) = Ok c' /\ mode c' /\ o_list (c_opts c') = o_list (c_opts c) /\
    o_set (c_opts c') = o_set (c_opts c).
Proof.
  intros Hok k c Hm Hk. destruct (group_shape t) as (hg & g & body & e & E & _ & H). destruct (H Hok) as [Hp _].
  rewrite E in *. rewrite app_length in Hk. change (length [_]) with 1%nat in Hk. rewrite firstn_snoc_lt by lia.
  destruct (open_group bl hg g body Hp k c Hm) as (c' & H1 & H2 & H3 & H4 & _). eauto.
Qed.
Lemma group_full bl t l : group_rows_ok t -> forall c, mode c -> c_txn c = false -> o_list (c_opts c) = Some l -> o_set (c_opts c) = None ->
  exists c', commit_all bl c (group_events t) = Ok c' /\ mode c' /\ o_list (c_opts c') = Some (snd (gtid_list_add l (group_gtid t))) /\
    o_set (c_opts c') = None /\ c_txn c' = false.
Proof.
  intros Hok c Hm Ht Hl Hs. destruct (group_shape t) as (hg & g & body & e & E & Eg & H). destruct (H Hok) as [Hp He].
  rewrite E, Eg, commit_all_app.
  destruct (open_group bl hg g body Hp (length ((hg, EvMariaGtid g) :: body)) c Hm) as (c1 & H1 & H2 & H3 & H4 & H5 & H6).
  rewrite firstn_all in H1. rewrite H1. cbn [rbind commit_all]. destruct e as [h e]. cbn [snd] in He.
  destruct (finish_maria bl c1 h e (ma_gtid g) l) as (c2 & -> & E2 & E3 & E4 & E5); auto; try congruence.
  { destruct He as [He|He]; [now apply end_update|apply statement_update; auto; congruence]. }
  cbn [rbind]. exists c2. repeat split; auto. unfold mode. congruence.
Qed.
Theorem commit_mstream bl : forall is k c l,
  Forall mitem_ok is -> mode c -> c_txn c = false -> o_list (c_opts c) = Some l -> o_set (c_opts c) = None ->
  exists c', commit_all bl c (firstn k (mstream_events is)) = Ok c' /\
    o_list (c_opts c') = Some (madd_all l (mcompleted k is)).
Proof.
  induction is as [|i is IH]; intros k c l Hok Hm Ht Hl Hs.
  - exists c. unfold mstream_events. cbn [flat_map]. rewrite firstn_nil. auto.
  - apply Forall_cons_iff in Hok. destruct Hok as [Hi Hok]. unfold mstream_events in *. cbn [flat_map mcompleted] in *.
    rewrite firstn_app, commit_all_app. destruct (Nat.ltb_spec k (length (mitem_events i))) as [Hk|Hk].
    + replace (k - length (mitem_events i))%nat with 0%nat by lia. cbn [firstn madd_all].
      destruct i as [x|t]; cbn [mitem_events mitem_ok] in *.
      * cbn [length] in Hk. replace k with 0%nat by lia. cbn [firstn commit_all rbind]. eauto.
      * destruct (group_prefix bl t Hi k c Hm Hk) as (c' & -> & B & C & D). cbn [rbind commit_all]. exists c'. split; [reflexivity|congruence].
    + rewrite firstn_all2 by lia.
      assert (exists c', commit_all bl c (mitem_events i) = Ok c' /\ mode c' /\ o_list (c_opts c') = Some (madd_all l (mitem_gtids i)) /\
        o_set (c_opts c') = None /\ c_txn c' = false) as (c1 & -> & H1 & H2 & H3 & H4).
      { destruct i as [[h e]|t]; cbn [mitem_events mitem_ok mitem_gtids madd_all] in *.
        - destruct (data_all bl [(h, e)]) with (c := c) as (c' & A & B); [constructor; auto|]. gstd B.
          exists c'. repeat split; auto; unfold mode in *; congruence.
        - destruct (group_full bl t l Hi c Hm Ht Hl Hs) as (c' & A & B & C & D & E). exists c'. auto. }
      cbn [rbind]. destruct (IH (k - length (mitem_events i))%nat c1 _ Hok H1 H4 H2 H3) as (c' & A & B).
      exists c'. split; [exact A|]. rewrite B. f_equal. clear. revert l.
      induction (mitem_gtids i) as [|g gs IHg]; intros l; cbn [app madd_all]; auto.
Qed.
