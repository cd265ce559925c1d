(* Claimed properties of the checkpoint under arbitrary event sequences (C76, C77). *)
From Coq Require Import Strings.String.
From Verif Require Import Base.Tac Base.Bytes Base.Text Base.Res Base.Str Model.Gtid Model.GtidMaria Model.TableMap Model.Rows Model.Events Model.Client
  Spec.GtidSpec Spec.GtidMariaSpec Spec.ClientSpec Spec.CheckpointSpec
  Proofs.GtidProofs Proofs.GtidSetProofs Proofs.GtidMariaProofs Proofs.ClientProofs Proofs.CommitTotal Proofs.CheckpointProofs Props.ClientProps.
Local Open Scope N_scope.

(* ---- C76 ---- *)
Theorem C76_commit_again : forall bl c h e c1,
  (forall s, o_set (c_opts c) = Some s -> set_ok s /\ set_canonical s) ->
  (forall g, c_mysql c = Some g -> uuid_ok (g_source g) /\ g_txn g < u64_top) ->
  (forall g, e = EvMySqlGtid g -> uuid_ok (g_source (me_gtid g)) /\ g_txn (me_gtid g) < u64_top) ->
  commit bl c h e = Ok c1 -> commit bl c1 h e = Ok c1.
Proof.
  intros bl c h e c1 Hs Hg He. apply commit_twice; auto. intros g. unfold mysql_mark. cbn [snd].
  destruct e; try discriminate. intros E. injection E as <-. now apply He.
Qed.
Print Assumptions C76_commit_again.

Theorem C76_redelivery : forall bl is k c s c1,
  Forall item_ok is -> Forall (fun t => stream_gtid_ok (txn_gtid t)) (stream_txns is) ->
  o_strategy (c_opts c) = FromGtid -> c_txn c = false -> o_set (c_opts c) = Some s -> set_ok s -> set_canonical s -> set_spelled s ->
  commit_all bl c (firstn k (stream_events is)) = Ok c1 ->
  exists c2, commit_all bl (client_reset c1) (firstn k (stream_events is)) = Ok c2 /\
    o_set (c_opts c2) = o_set (c_opts c1) /\ o_file (c_opts c2) = o_file (c_opts c1) /\ o_pos (c_opts c2) = o_pos (c_opts c1).
Proof.
  intros bl is k c s c1 Hok Hg Hm Ht Hs Hsok Hc Hsp H.
  destruct (commit_stream bl is k c s Hok Hg Hm Ht Hs Hsok) as (c' & s1 & A & M1 & S1 & O1 & A1).
  rewrite H in A. injection A as <-.
  assert (Hgs : Forall stream_gtid_ok (map txn_gtid (completed k is))).
  { clear -Hg. revert k. induction is as [|i is IH]; intros k; cbn [completed]; [constructor|].
    unfold stream_txns in Hg. cbn [flat_map] in Hg. apply Forall_app in Hg. destruct Hg as [H1 H2].
    destruct (_ <? _)%nat; [constructor|]. rewrite map_app. apply Forall_app. split; [now apply Forall_map|now apply IH]. }
  destruct (add_all_spec bl (map txn_gtid (completed k is)) s Hsok) as (s' & B1 & B2 & B3 & B4 & B5).
  { eapply Forall_impl; [|exact Hgs]. apply stream_gtid_uuid. }
  rewrite A1 in B1. injection B1 as <-.
  assert (add_all bl s1 (map txn_gtid (completed k is)) = Ok s1) as A2.
  { apply add_all_present; auto.
    - apply B5; [exact Hsp|]. eapply Forall_impl; [|exact Hgs]. intros g (G1 & _ & _). exact G1.
    - apply Forall_forall. intros g Hi. apply B3. right. exists g. auto. }
  destruct (commit_stream bl is k (client_reset c1) s1 Hok Hg) as (c2 & s2 & C1 & M2 & S2 & O2 & C2); auto.
  rewrite A2 in C2. injection C2 as <-. exists c2. split; [exact C1|].
  destruct (coords_again bl _ _ _ _ _ H C1) as [P1 P2]; [reflexivity|reflexivity|]. repeat split; auto. congruence.
Qed.
Print Assumptions C76_redelivery.
Definition again_c : client := client_new (from_mysql_gtid set1).
Lemma set1_canonical : set_canonical set1.
Proof. repeat constructor; cbn; try lia; discriminate. Qed.
Lemma set1_spelled : set_spelled set1.
Proof. repeat constructor. Qed.
(* a stream cut inside its second transaction, delivered a second time *)
Example C76_example : Forall item_ok stream1 /\ Forall (fun t => stream_gtid_ok (txn_gtid t)) (stream_txns stream1) /\
  set_ok set1 /\ set_canonical set1 /\ set_spelled set1 /\
  exists c1, commit_all Debug again_c (firstn 8 (stream_events stream1)) = Ok c1 /\ c_opts c1 <> c_opts again_c.
Proof.
  split; [apply C12_example|]. split; [apply C12_example|]. split; [exact set1_ok|]. split; [exact set1_canonical|]. split; [exact set1_spelled|].
  eexists. split; [vm_compute; reflexivity|]. vm_compute. discriminate.
Qed.

(* ---- C77 ---- *)
(* MySQL: whatever the events are, the saved set grows by exactly the GTIDs that were the latest announced one when a
   transaction end, or a statement outside BEGIN, was committed *)
Theorem C77_any_events_mysql : forall bl es c c' s,
  o_strategy (c_opts c) = FromGtid -> commit_all bl c es = Ok c' -> o_set (c_opts c) = Some s -> set_ok s ->
  (forall g, c_mysql c = Some g -> uuid_ok (g_source g) /\ g_txn g < u64_top) ->
  Forall (fun x => forall g, snd x = EvMySqlGtid g -> uuid_ok (g_source (me_gtid g)) /\ g_txn (me_gtid g) < u64_top) es ->
  exists s', o_set (c_opts c') = Some s' /\ set_ok s' /\ (set_canonical s -> set_canonical s') /\
    forall d n, set_has s' d n <-> set_has s d n \/
      exists g rest, recorded mysql_mark (c_mysql c) (c_txn c) es g rest /\ udata (g_source g) = d /\ g_txn g = n.
Proof.
  intros bl es c c' s Hm H Hs Hok Hg Hes. apply (commit_any bl es c c' s); auto.
  eapply Forall_impl; [|exact Hes]. intros [h e] He g. unfold mysql_mark. cbn [snd] in *.
  destruct e; try discriminate. intros E. injection E as <-. now apply He.
Qed.
Print Assumptions C77_any_events_mysql.
(* MariaDB: the saved position of a domain is the last GTID of that domain recorded that way, or the initial one *)
Theorem C77_any_events_mariadb : forall bl es c c' l,
  o_strategy (c_opts c) = FromGtid -> commit_all bl c es = Ok c' -> o_list (c_opts c) = Some l ->
  exists l', o_list (c_opts c') = Some l' /\ (NoDup (map mg_domain l) -> NoDup (map mg_domain l')) /\
    forall d,
      (exists g rest, recorded maria_mark (c_maria c) (c_txn c) es g rest /\ mg_domain g = d /\ domain_gtid l' d = Some g /\
        forall g2 rest2, recorded maria_mark (c_maria c) (c_txn c) es g2 rest2 -> mg_domain g2 = d -> (length rest <= length rest2)%nat) \/
      (domain_gtid l' d = domain_gtid l d /\ forall g rest, recorded maria_mark (c_maria c) (c_txn c) es g rest -> mg_domain g <> d).
Proof. intros bl es c c' l Hm H Hl. now apply (commit_any_maria bl es c c' l). Qed.
Print Assumptions C77_any_events_mariadb.
(* nothing saved is ever forgotten *)
Corollary C77_nothing_forgotten : forall bl es c c',
  o_strategy (c_opts c) = FromGtid -> commit_all bl c es = Ok c' ->
  (forall g, c_mysql c = Some g -> uuid_ok (g_source g) /\ g_txn g < u64_top) ->
  Forall (fun x => forall g, snd x = EvMySqlGtid g -> uuid_ok (g_source (me_gtid g)) /\ g_txn (me_gtid g) < u64_top) es ->
  (forall s, o_set (c_opts c) = Some s -> set_ok s ->
    exists s', o_set (c_opts c') = Some s' /\ forall d n, set_has s d n -> set_has s' d n) /\
  (forall l, o_list (c_opts c) = Some l ->
    exists l', o_list (c_opts c') = Some l' /\ forall d, domain_gtid l d <> None -> domain_gtid l' d <> None).
Proof.
  intros bl es c c' Hm H Hg Hes. split.
  - intros s Hs Hok. destruct (C77_any_events_mysql bl es c c' s) as (s' & A & _ & _ & B); auto. exists s'. split; [exact A|].
    intros d n X. apply B. now left.
  - intros l Hl. destruct (C77_any_events_mariadb bl es c c' l) as (l' & A & _ & B); auto. exists l'. split; [exact A|].
    intros d X. destruct (B d) as [(g & rest & _ & _ & E & _)|[E _]]; rewrite E; [discriminate|exact X].
Qed.
Print Assumptions C77_nothing_forgotten.
(* a jumble: a statement before any GTID, a GTID replaced by another one before its end, a stray COMMIT *)
Definition jumble : list hev :=
  [(hd 10, sql "DROP TABLE a"); (hd 20, EvMySqlGtid (mg 5)); (hd 30, sql "BEGIN"); (hd 40, EvMySqlGtid (mg 9)); (hd 50, sql "INSERT ..");
   (hd 60, sql "COMMIT"); (hd 70, sql "COMMIT"); (hd 80, EvMySqlGtid (mg 7))].
Example C77_example :
  (forall g, c_mysql again_c = Some g -> uuid_ok (g_source g) /\ g_txn g < u64_top) /\
  Forall (fun x => forall g, snd x = EvMySqlGtid g -> uuid_ok (g_source (me_gtid g)) /\ g_txn (me_gtid g) < u64_top) jumble /\
  set_of (commit_all Debug again_c jumble) = Some (tx "24bc7850-2c16-11e6-a073-0242ac110001:1-4:9") /\
  recorded mysql_mark None false jumble (me_gtid (mg 9)) (skipn 6 jumble).
Proof.
  split; [discriminate|]. split.
  { unfold jumble. repeat (apply Forall_cons; [cbn [snd]; intros g E; try discriminate; injection E as <-; split; vm_compute; reflexivity|]). apply Forall_nil. }
  split; [vm_compute; reflexivity|].
  exists (firstn 5 jumble), (hd 60, sql "COMMIT"). split; [reflexivity|]. split; [|left; reflexivity].
  left. exists (firstn 3 jumble), (hd 40, EvMySqlGtid (mg 9)), [(hd 50, sql "INSERT ..")]. repeat split. repeat constructor.
Qed.
Example C77_example_mariadb : exists c', commit_all Debug (client_new (from_mariadb_gtid [MGtid 0 1 100; MGtid 7 1 3]))
    [(hd0, EvMariaGtid (mmg 0 101)); (hd0, sql "INSERT .."); (hd0, EvMariaGtid (mmg 0 102)); (hd0, EvXid 3); (hd0, EvMariaGtid (mmg 0 103))] = Ok c' /\
  o_list (c_opts c') = Some [ma_gtid (mmg 0 102); MGtid 7 1 3].
Proof. eexists. split; vm_compute; reflexivity. Qed.

(* ---- C20, debug builds ---- *)
(* exactly when commit panics, for the sets that parsing and adding leave: the transaction to record belongs to a server
   whose last interval reaches u64::MAX, and neither the search nor the merge stops before that interval *)
Theorem C20_debug_panics_iff : forall c h e,
  (forall s, o_set (c_opts c) = Some s -> set_writable s) ->
  (forall g, c_mysql c = Some g -> uuid_ok (g_source g) /\ g_txn g <= u64_top) ->
  commit Debug c h e = Panic <->
  o_strategy (c_opts c) = FromGtid /\ (is_end e = true \/ (is_statement e = true /\ c_txn c = false)) /\
  exists g s us, c_mysql c = Some g /\ o_set (c_opts c) = Some s /\ In (utext (g_source g), us) s /\ overflows (us_ivs us) (g_txn g).
Proof. intros c h e Hs Hg. now apply commit_panics. Qed.
Print Assumptions C20_debug_panics_iff.
(* the intervals 5-5 and 7-max: recording 3 is no trouble, 6 joins the two intervals, 8 panics (and is ignored in release builds) *)
Definition top_set : gtid_set := [(utext (uuid_new e1), UuidSet (uuid_new e1) [Interval 5 5; Interval 7 18446744073709551615])].
Definition top_client (n : N) : client := Client (from_mysql_gtid top_set) false None (Some (me_gtid (mg n))).
Example C20_top_example : set_writable top_set /\
  (forall n, n <= u64_top -> forall g, c_mysql (top_client n) = Some g -> uuid_ok (g_source g) /\ g_txn g <= u64_top) /\
  commit Debug (top_client 8) hd0 (EvXid 1) = Panic /\
  returns (commit Debug (top_client 3) hd0 (EvXid 1)) /\ returns (commit Debug (top_client 6) hd0 (EvXid 1)) /\
  returns (commit Release (top_client 8) hd0 (EvXid 1)).
Proof.
  split; [|split; [|split; [vm_compute; reflexivity|split; [|split]; vm_compute; exact I]]].
  - split; [repeat constructor; intros []|]. apply Forall_cons; [|constructor]. cbn [fst snd us_source us_ivs].
    split; [reflexivity|]. split; [split; vm_compute; reflexivity|]. split; [vm_compute; repeat split; discriminate|]. split; [discriminate|].
    repeat (apply Forall_cons; [vm_compute; reflexivity|]). constructor.
  - intros n Hn g E. injection E as <-. split; [vm_compute; reflexivity|exact Hn].
Qed.
