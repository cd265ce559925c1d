(* Claimed properties of position tracking (C12-C20). *)
From Coq Require Import Strings.String.
From Verif Require Import Base.Tac Base.Bytes Base.Text Base.Res Base.Str Model.Gtid Model.GtidMaria Model.TableMap Model.Rows Model.Events Model.Client
  Spec.GtidSpec Spec.GtidMariaSpec Spec.ClientSpec Spec.StreamSpec
  Proofs.GtidProofs Proofs.GtidSetProofs Proofs.GtidMariaProofs Proofs.ClientProofs Proofs.SessionProofs Proofs.PositionProofs Proofs.CommitTotal Proofs.StreamProofs.
Local Open Scope N_scope.

(* sample data *)
Definition hd0 : header := Header 0 0 1 0 0 0.
Definition hd (n : N) : header := Header 0 0 1 0 n 0.
Definition sql (t : String.string) : event := EvQuery (Query 0 0 0 [] (tx "db") (tx t)).
Definition e1 : list byte := map n2b [0x24;0xbc;0x78;0x50;0x2c;0x16;0x11;0xe6;0xa0;0x73;0x02;0x42;0xac;0x11;0x00;0x01].
Definition mg (n : N) : mysql_gtid_event := MySqlGtid (Gtid (uuid_new e1) n) 0.
Definition tmap_ev (id : N) : event := EvTableMap (TableMap id (tx "db") (tx "t") [] [] [] None).
Definition rows_ev (id : N) : event := EvWrite (RowsEvent id 0 0 [] []).
Definition set1 : gtid_set := [(utext (uuid_new e1), UuidSet (uuid_new e1) [Interval 1 4])].
Lemma set1_ok : set_ok set1.
Proof.
  split; [repeat constructor; auto|]. constructor; [|constructor]. cbn [fst snd us_source us_ivs].
  split; [reflexivity|]. split; [vm_compute; reflexivity|]. constructor; [|constructor]. unfold iv_ok, u64_top; cbn; lia.
Qed.
Definition set_of (r : res client) : option text :=
  match r with Ok c => option_map gtid_set_text (o_set (c_opts c)) | _ => None end.

(* ---- C12 ---- *)
Theorem C12_checkpoint_exact : forall bl is k c s,
  Forall item_ok is -> Forall (fun t => stream_gtid_ok (txn_gtid t)) (stream_txns is) ->
  o_strategy (c_opts c) = FromGtid -> c_txn c = false -> o_set (c_opts c) = Some s -> set_ok s ->
  exists c' s', commit_all bl c (firstn k (stream_events is)) = Ok c' /\ o_set (c_opts c') = Some s' /\ set_ok s' /\
    forall d n, set_has s' d n <->
      set_has s d n \/ exists t, In t (completed k is) /\ udata (g_source (txn_gtid t)) = d /\ g_txn (txn_gtid t) = n.
Proof.
  intros bl is k c s Hok Hg Hm Ht Hs Hsok.
  destruct (commit_stream bl is k c s Hok Hg Hm Ht Hs Hsok) as (c' & s' & A & B & C & D & E).
  exists c', s'. split; [exact A|]. split; [exact C|]. split; [exact D|].
  destruct (completed_prefix is k) as [rest Er]. rewrite Er in Hg. apply Forall_app in Hg. destruct Hg as [Hg _].
  destruct (add_all_spec bl (map txn_gtid (completed k is)) s Hsok) as (s2 & E1 & _ & E3 & _).
  { apply Forall_map. eapply Forall_impl; [|exact Hg]. intros t Hx. now apply stream_gtid_uuid. }
  rewrite E in E1. injection E1 as <-. intros d n. rewrite E3. split; (intros [Hx|Hx]; [tauto|right]).
  - destruct Hx as (g & Hi & <- & <-). apply in_map_iff in Hi. destruct Hi as (t & <- & Hi). eauto.
  - destruct Hx as (t & Hi & <- & <-). exists (txn_gtid t). split; [now apply in_map|auto].
Qed.
Print Assumptions C12_checkpoint_exact.
Definition stream1 : list item :=
  [ Service (hd0, EvRotate (Rotate (tx "bin.1") 4));
    Txn (TBlock hd0 (mg 5) [] (hd 10, sql "BEGIN") [(hd 20, tmap_ev 7); (hd 30, rows_ev 7); (hd 35, sql "SAVEPOINT a")] (hd 40, EvXid 9));
    Service (hd0, EvHeartbeat (tx "bin.1"));
    Txn (TAuto hd0 (mg 6) [] (hd 60, sql "CREATE TABLE x (y int)"));
    Txn (TBlock hd0 (mg 8) [] (hd 70, sql "BEGIN") [(hd 75, sql "INSERT ..")] (hd 90, sql "ROLLBACK")) ].
Example C12_example : Forall item_ok stream1 /\ Forall (fun t => stream_gtid_ok (txn_gtid t)) (stream_txns stream1) /\
  map (fun k => set_of (commit_all Debug (client_new (from_mysql_gtid set1)) (firstn k (stream_events stream1)))) [6; 7; 8; 9; 10; 13; 14]%nat =
  map (fun t => Some (tx "24bc7850-2c16-11e6-a073-0242ac110001:" ++ tx t))
    ["1-4"; "1-5"; "1-5"; "1-5"; "1-6"; "1-6"; "1-6:8"]%string.
Proof.
  split; [|split; [|vm_compute; reflexivity]].
  - repeat constructor.
  - repeat constructor; vm_compute; reflexivity.
Qed.

(* events in any order whatever: a GTID is in the set iff it was there, or an end or a statement outside of BEGIN .. end
   came while it was the last one announced *)
Theorem C12_any_stream : forall bl es c s,
  Forall (fun x => forall m, snd x = EvMySqlGtid m -> stream_gtid_ok (me_gtid m)) es ->
  o_strategy (c_opts c) = FromGtid -> c_txn c = false -> c_mysql c = None -> c_maria c = None -> o_set (c_opts c) = Some s -> set_ok s ->
  exists c' s', commit_all bl c es = Ok c' /\ o_set (c_opts c') = Some s' /\ set_ok s' /\
    forall d n, set_has s' d n <-> set_has s d n \/ exists g, mysql_saved es g /\ udata (g_source g) = d /\ g_txn g = n.
Proof.
  intros bl es c s Hg M T A B Hs Hok. destruct (mysql_any_stream bl c s M T A B Hs Hok es Hg) as (c' & s' & X1 & _ & X2 & X3 & X4). exists c', s'. auto.
Qed.
Print Assumptions C12_any_stream.
(* a GTID that is replaced before anything ends is not saved; a statement outside of a block saves the current one *)
Definition odd_stream : list hev := [(hd0, EvMySqlGtid (mg 9)); (hd0, EvMySqlGtid (mg 7)); (hd 5, sql "ANALYZE TABLE a"); (hd 6, sql "BEGIN"); (hd 7, EvMySqlGtid (mg 8)); (hd 8, sql "INSERT ..")].
Example C12_any_example : Forall (fun x => forall m, snd x = EvMySqlGtid m -> stream_gtid_ok (me_gtid m)) odd_stream /\
  mysql_saved odd_stream (me_gtid (mg 7)) /\ in_block (removelast odd_stream) /\
  set_of (commit_all Debug (client_new (from_mysql_gtid set1)) odd_stream) = Some (tx "24bc7850-2c16-11e6-a073-0242ac110001:1-4:7").
Proof.
  split; [|split; [|split; [|vm_compute; reflexivity]]].
  - unfold odd_stream. repeat apply Forall_cons; try apply Forall_nil; cbn [snd]; intros m E; try discriminate E; injection E as <-; (split; [|split]); vm_compute; reflexivity.
  - exists [(hd0, EvMySqlGtid (mg 9)); (hd0, EvMySqlGtid (mg 7))], (hd 5, sql "ANALYZE TABLE a"). eexists. split; [reflexivity|]. split.
    + right. split; [reflexivity|]. intros (a & b & c & E & B & _). destruct a as [|x [|y [|z a]]]; inversion E; subst; discriminate.
    + exists [(hd0, EvMySqlGtid (mg 9))], hd0, (mg 7), []. auto.
  - exists (firstn 3 odd_stream), (hd 6, sql "BEGIN"), [(hd 7, EvMySqlGtid (mg 8))]. split; [reflexivity|]. split; [reflexivity|]. repeat constructor.
Qed.

(* ---- C13 ---- *)
(* full statement: as below with [group_ok] (statements allowed before the end) instead of [group_rows_ok]; false, see the witness *)
Theorem C13_checkpoint_exact_partial : forall bl is k c l,
  Forall mitem_ok is -> o_strategy (c_opts c) = FromGtid -> c_txn c = false ->
  o_list (c_opts c) = Some l -> NoDup (map mg_domain l) -> o_set (c_opts c) = None ->
  exists c' l', commit_all bl c (firstn k (mstream_events is)) = Ok c' /\ o_list (c_opts c') = Some l' /\ NoDup (map mg_domain l') /\
    forall d, domain_gtid l' d = match last_of_domain d (mcompleted k is) with Some g => Some g | None => domain_gtid l d end.
Proof.
  intros bl is k c l Hok Hm Ht Hl Hnd Hs. destruct (commit_mstream bl is k c l Hok Hm Ht Hl Hs) as (c' & A & B).
  destruct (madd_all_spec (mcompleted k is) l Hnd) as (M1 & M2 & _). exists c', (madd_all l (mcompleted k is)). auto.
Qed.
Print Assumptions C13_checkpoint_exact_partial.
Definition mmg (d n : N) : maria_gtid_event := MariaGtid (MGtid d 1 n) 0.
Definition mstream1 : list mitem :=
  [ MGroup (GBlock hd0 (mmg 0 101) [(hd 20, tmap_ev 7); (hd 30, rows_ev 7)] (hd 40, EvXid 9));
    MService (hd0, EvHeartbeat (tx "bin.1"));
    MGroup (GAlone hd0 (mmg 3 5) [] (hd 60, sql "CREATE TABLE x (y int)"));
    MGroup (GBlock hd0 (mmg 0 102) [(hd 70, tmap_ev 7); (hd 80, rows_ev 7)] (hd 90, EvXid 10)) ].
Definition list_of (r : res client) : option gtid_list := match r with Ok c => o_list (c_opts c) | _ => None end.
Example C13_example : Forall mitem_ok mstream1 /\
  map (fun k => list_of (commit_all Debug (client_new (from_mariadb_gtid [MGtid 0 1 100])) (firstn k (mstream_events mstream1)))) [3; 4; 7; 10; 11]%nat =
  [Some [MGtid 0 1 100]; Some [MGtid 0 1 101]; Some [MGtid 0 1 101; MGtid 3 1 5]; Some [MGtid 0 1 101; MGtid 3 1 5]; Some [MGtid 0 1 102; MGtid 3 1 5]].
Proof. split; [repeat constructor|vm_compute; reflexivity]. Qed.
(* A statement-based MariaDB group: no BEGIN event follows the GTID, so its first statement is taken for an
   auto-committed one and the GTID is saved while the group is still incomplete. *)
Theorem C13_statement_in_group_refuted : exists t k, group_ok t /\ (k < length (group_events t))%nat /\
  list_of (commit_all Release (client_new (from_mariadb_gtid [MGtid 0 1 100])) (firstn k (group_events t))) = Some [group_gtid t].
Proof.
  exists (GBlock hd0 (mmg 0 101) [(hd 20, sql "INSERT INTO a VALUES (1)"); (hd 30, sql "INSERT INTO a VALUES (2)")] (hd 40, EvXid 9)), 2%nat.
  split; [repeat constructor|]. split; [cbn; lia|vm_compute; reflexivity].
Qed.
Print Assumptions C13_statement_in_group_refuted.

(* exactly, for events in any order: each domain has the last GTID that was current when an end, or a statement outside of BEGIN .. end, came *)
Theorem C13_any_stream : forall bl es c l,
  o_strategy (c_opts c) = FromGtid -> c_txn c = false -> c_mysql c = None -> c_maria c = None ->
  o_list (c_opts c) = Some l -> NoDup (map mg_domain l) -> o_set (c_opts c) = None ->
  exists c' l', commit_all bl c es = Ok c' /\ o_list (c_opts c') = Some l' /\ NoDup (map mg_domain l') /\
    forall d g, domain_gtid l' d = Some g <->
      (maria_saved_last es g /\ mg_domain g = d) \/ (maria_never_saved es d /\ domain_gtid l d = Some g).
Proof.
  intros bl es c l M T A B Hl Hn Hs. destruct (maria_any_stream bl c l M T A B Hl Hn Hs es) as (c' & l' & X1 & _ & _ & X2 & X3 & X4). exists c', l'. auto.
Qed.
Print Assumptions C13_any_stream.
Example C13_any_example : let es := [(hd0, EvMariaGtid (mmg 0 101)); (hd 20, sql "INSERT INTO a VALUES (1)"); (hd 30, EvMariaGtid (mmg 0 102)); (hd 40, tmap_ev 7)] in
  maria_saved_last es (MGtid 0 1 101) /\ maria_never_saved es 3 /\
  list_of (commit_all Release (client_new (from_mariadb_gtid [MGtid 0 1 100; MGtid 3 1 4])) es) = Some [MGtid 0 1 101; MGtid 3 1 4].
Proof.
  cbv zeta. split; [|split; [|vm_compute; reflexivity]].
  - exists [(hd0, EvMariaGtid (mmg 0 101))], (hd 20, sql "INSERT INTO a VALUES (1)"). eexists. split; [reflexivity|]. split; [|split].
    + right. split; [reflexivity|]. intros (a & b & c & E & B & _). destruct a as [|x [|y a]]; inversion E; subst; discriminate.
    + exists [], hd0, (mmg 0 101), []. auto.
    + intros c1 y' c2 g' E S. destruct c1 as [|x [|y [|z c1]]]; inversion E; subst; destruct S as [S|[S _]]; discriminate.
  - intros p y c g E S (a & h & m & b & -> & <- & _).
    assert (In (h, EvMariaGtid m) [(hd0, EvMariaGtid (mmg 0 101)); (hd 20, sql "INSERT INTO a VALUES (1)"); (hd 30, EvMariaGtid (mmg 0 102)); (hd 40, tmap_ev 7)]) as I.
    { rewrite E. apply in_or_app. left. apply in_or_app. right. now left. }
    destruct I as [I|[I|[I|[I|[]]]]]; inversion I; subst; cbn; discriminate.
Qed.

(* ---- C14 ---- *)
(* For every log, every number of connections and every cut: the completely delivered transactions, in order, are
   exactly the first ones of those initially missing; what the server would send next are the others. *)
Theorem C14_delivery : forall bl log s xs s2 todo,
  NoDup (map txn_id log) -> Forall (fun t => stream_gtid_ok (txn_gtid t)) log -> set_ok s ->
  connections bl log s xs s2 -> missing (set_has s) log todo ->
  exists rest, todo = delivered xs ++ rest /\ missing (set_has s2) log rest.
Proof.
  intros bl log s xs s2 todo Hnd Hlog Hs Hc Hm. destruct (connections_spec bl log Hnd Hlog s xs s2 Hc Hs) as (_ & _ & H). now apply H.
Qed.
Print Assumptions C14_delivery.
Theorem C14_final_set_delivered : forall bl log s xs s2 d n,
  NoDup (map txn_id log) -> Forall (fun t => stream_gtid_ok (txn_gtid t)) log -> set_ok s ->
  connections bl log s xs s2 ->
  set_has s2 d n <-> set_has s d n \/ exists x t, In x xs /\ In t (completed (se_cut x) (se_items x)) /\ txn_id t = (d, n).
Proof.
  intros bl log s xs s2 d n Hnd Hlog Hs Hc. destruct (connections_spec bl log Hnd Hlog s xs s2 Hc Hs) as (_ & H & _). rewrite H.
  unfold delivered. rewrite in_map_iff. split; (intros [Hx|Hx]; [now left|right]).
  - destruct Hx as (t & E & Hi). apply in_flat_map in Hi. destruct Hi as (x & Hx & Hi). eauto.
  - destruct Hx as (x & t & Hx & Hi & E). exists t. split; [exact E|]. apply in_flat_map. eauto.
Qed.
Print Assumptions C14_final_set_delivered.
Theorem C14_not_sent_again : forall bl log s xs x ys y zs s2 t t',
  NoDup (map txn_id log) -> Forall (fun t => stream_gtid_ok (txn_gtid t)) log -> set_ok s ->
  connections bl log s (xs ++ x :: ys ++ y :: zs) s2 ->
  In t (completed (se_cut x) (se_items x)) -> In t' (stream_txns (se_items y)) -> txn_id t <> txn_id t'.
Proof.
  intros bl log s xs x ys y zs s2 t t' Hnd Hlog Hs Hc Hi Hi' E.
  replace (xs ++ x :: ys ++ y :: zs) with ((xs ++ x :: ys) ++ y :: zs) in Hc by now rewrite <- app_assoc.
  apply connections_app in Hc. destruct Hc as (s1 & Hc1 & Hc2).
  destruct (connections_spec bl log Hnd Hlog s _ s1 Hc1 Hs) as (_ & H & _).
  inversion Hc2 as [|s' c y' c' s3 rest s2' H1 H2 H3 H4 H5 H6]; subst. apply (missing_In _ _ _ H3) in Hi'. destruct Hi' as [_ Hn]. apply Hn.
  unfold in_set. apply H. right. rewrite <- surjective_pairing, <- E. apply in_map. unfold delivered. apply in_flat_map. exists x.
  split; [apply in_app_iff; right; now left|exact Hi].
Qed.
Print Assumptions C14_not_sent_again.
Theorem C14_full_session_covers_log : forall bl log s xs x s2 t,
  NoDup (map txn_id log) -> Forall (fun t => stream_gtid_ok (txn_gtid t)) log -> set_ok s ->
  connections bl log s (xs ++ [x]) s2 -> (length (stream_events (se_items x)) <= se_cut x)%nat ->
  In t log -> set_has s2 (fst (txn_id t)) (snd (txn_id t)).
Proof.
  intros bl log s xs x s2 t Hnd Hlog Hs Hc Hcut Ht. apply connections_app in Hc. destruct Hc as (s1 & Hc1 & Hc2).
  destruct (connections_spec bl log Hnd Hlog s _ s1 Hc1 Hs) as (Hs1 & _ & _).
  destruct (connections_spec bl log Hnd Hlog s1 _ s2 Hc2 Hs1) as (_ & H & _).
  inversion Hc2 as [|s' c y' c' s3 rest s2' H1 H2 H3 H4 H5 H6]; subst. apply H. destruct (missing_covers _ _ _ H3 t Ht) as [Hin|Hin]; [left; exact Hin|right].
  rewrite <- surjective_pairing. apply in_map. unfold delivered. cbn [flat_map]. rewrite app_nil_r, completed_all by exact Hcut. exact Hin.
Qed.
Print Assumptions C14_full_session_covers_log.
(* connections never get stuck: whatever the server sends and wherever it breaks, commit succeeds *)
Theorem C14_progress : forall bl log s x c,
  Forall (fun t => stream_gtid_ok (txn_gtid t)) log -> set_ok s -> restarted s c -> Forall item_ok (se_items x) ->
  missing (set_has s) log (stream_txns (se_items x)) -> exists s2, connections bl log s [x] s2 /\ set_ok s2.
Proof.
  intros bl log s x c Hlog Hs (R1 & R2 & R3) Hok Hm.
  destruct (commit_stream bl (se_items x) (se_cut x) c s Hok) as (c' & s' & A & B & C & D & E); auto.
  { apply Forall_forall. intros t Hi. apply (missing_In _ _ _ Hm) in Hi. rewrite Forall_forall in Hlog. now apply Hlog. }
  exists s'. split; [|exact D]. eapply conn_cons; eauto; [repeat split; assumption|constructor].
Qed.
Print Assumptions C14_progress.
(* restart means: new client from the saved set, or replicate() on the same client after a broken connection *)
Theorem C14_restarts : forall bl es c c' s, o_strategy (c_opts c) = FromGtid -> commit_all bl c es = Ok c' -> o_set (c_opts c') = Some s ->
  restarted s (client_reset c') /\ restarted s (client_new (from_mysql_gtid s)).
Proof.
  intros bl es c c' s Hm Hc Hs. apply commit_frame in Hc. destruct Hc as [Hst _].
  split; repeat split; cbn; auto; congruence.
Qed.
Print Assumptions C14_restarts.
Definition txn5 := TBlock hd0 (mg 5) [] (hd 10, sql "BEGIN") [(hd 20, tmap_ev 7); (hd 30, rows_ev 7)] (hd 40, EvXid 9).
Definition txn6 := TAuto hd0 (mg 6) [] (hd 60, sql "CREATE TABLE x (y int)").
Definition txn3 := TAuto hd0 (mg 3) [] (hd 60, sql "DROP TABLE x").
Example C14_example : NoDup (map txn_id [txn3; txn5; txn6]) /\ Forall (fun t => stream_gtid_ok (txn_gtid t)) [txn3; txn5; txn6] /\
  missing (set_has set1) [txn3; txn5; txn6] [txn5; txn6] /\
  set_of (commit_all Debug (client_new (from_mysql_gtid set1)) (firstn 5 (stream_events [Txn txn5; Txn txn6]))) =
    Some (tx "24bc7850-2c16-11e6-a073-0242ac110001:1-5").
Proof.
  assert (H : forall n, set_has set1 e1 n <-> 1 <= n <= 4).
  { intros n. split.
    - intros (k & us & [E|[]] & _ & i & Hi & Hn). inv E. destruct Hi as [<-|[]]. exact Hn.
    - intros Hn. exists (utext (uuid_new e1)), (UuidSet (uuid_new e1) [Interval 1 4]). split; [now left|]. split; [reflexivity|].
      exists (Interval 1 4). split; [now left|exact Hn]. }
  split; [|split; [|split; [|vm_compute; reflexivity]]].
  - repeat constructor; intros Hi; repeat (destruct Hi as [Hi|Hi]; [vm_compute in Hi; discriminate|]); destruct Hi.
  - repeat constructor; vm_compute; reflexivity.
  - apply missing_skip; [apply (H 3); lia|]. apply missing_send; [intros Hx; apply (H 5) in Hx; lia|].
    apply missing_send; [intros Hx; apply (H 6) in Hx; lia|]. constructor.
Qed.

(* ---- C15 ---- *)
(* positions are stored in 32 bits; h_next is a u32, a rotate event's position a u64 *)
Theorem C15_position : forall bl c a x b c' p, commit_all bl c (a ++ x :: b) = Ok c' ->
  announced_pos x = Some p -> Forall (fun y => announced_pos y = None) b -> h_next (fst x) < 4294967296 ->
  o_pos (c_opts c') = p mod 4294967296.
Proof.
  intros bl c a x b c' p H Hx Hb Hn. apply commit_all_split in H. destruct H as (c1 & c2 & _ & E2 & E3).
  apply (silent_pos bl b Hb) in E3. rewrite E3. destruct x as [h e]. cbn [fst snd] in *. apply commit_coords in E2. destruct E2 as [_ E2].
  rewrite Hx in E2. rewrite E2. destruct (is_rotate e) eqn:Er; [reflexivity|].
  unfold announced_pos in Hx. cbn [fst snd] in Hx. symmetry. apply N.mod_small.
  destruct e; try discriminate; destruct (0 <? h_next h); try discriminate; injection Hx as <-; exact Hn.
Qed.
Print Assumptions C15_position.
Theorem C15_file : forall bl c a x b c' f, commit_all bl c (a ++ x :: b) = Ok c' ->
  announced_file x = Some f -> Forall (fun y => announced_file y = None) b -> o_file (c_opts c') = f.
Proof.
  intros bl c a x b c' f H Hx Hb. apply commit_all_split in H. destruct H as (c1 & c2 & _ & E2 & E3).
  apply (silent_file bl b Hb) in E3. rewrite E3. destruct x as [h e]. cbn [fst snd] in *. apply commit_coords in E2. destruct E2 as [E2 _].
  now rewrite Hx in E2.
Qed.
Print Assumptions C15_file.
Theorem C15_nothing_announced : forall bl c es c', commit_all bl c es = Ok c' ->
  (Forall (fun y => announced_pos y = None) es -> o_pos (c_opts c') = o_pos (c_opts c)) /\
  (Forall (fun y => announced_file y = None) es -> o_file (c_opts c') = o_file (c_opts c)).
Proof. intros bl c es c' H. split; intros Hs; [eapply silent_pos|eapply silent_file]; eauto. Qed.
Print Assumptions C15_nothing_announced.
Definition coords (r : res client) : option (text * N) := match r with Ok c => Some (o_file (c_opts c), o_pos (c_opts c)) | _ => None end.
Example C15_example : coords (commit_all Debug (client_new (from_position (tx "bin.1") 4))
   [(hd 120, sql "BEGIN"); (hd 150, tmap_ev 7); (hd0, EvRotate (Rotate (tx "bin.2") 4)); (hd 300, rows_ev 7); (hd 400, tmap_ev 7); (hd0, EvXid 1)])
   = Some (tx "bin.2", 300).
Proof. vm_compute. reflexivity. Qed.

(* ---- C16 ---- *)
Theorem C16_resume_exact : forall bl fs c f p es k c',
  log_ok fs -> o_file (c_opts c) = f -> o_pos (c_opts c) = p -> p < 4294967296 ->
  sends f p false (log_from f p (locate_files fs)) es k -> commit_all bl c es = Ok c' ->
  exists pre maps, firstn k (log_from f p (locate_files fs)) = pre ++ maps /\
    Forall (fun l => is_table_map (lo_event l) = true) maps /\
    log_from (o_file (c_opts c')) (o_pos (c_opts c')) (locate_files fs) = maps ++ skipn k (log_from f p (locate_files fs)).
Proof.
  intros bl fs c f p es k c' Hok Hf Hp Hlt Hs Hc.
  destruct (session_spec bl fs f p c es k c' Hok Hf Hp Hlt Hs Hc) as (pre & maps & E1 & E2 & _ & _ & E5). exists pre, maps. auto.
Qed.
Print Assumptions C16_resume_exact.
(* any number of connections: apart from table maps, everything is delivered exactly once and in order *)
Theorem C16_sessions_exactly_once : forall bl fs f p ds f2 p2,
  log_ok fs -> p < 4294967296 -> reads bl (locate_files fs) f p ds f2 p2 ->
  let rows := filter (fun l => negb (is_table_map (lo_event l))) in
  rows (log_from f p (locate_files fs)) = rows (concat ds) ++ rows (log_from f2 p2 (locate_files fs)).
Proof. intros bl fs f p ds f2 p2 Hok Hlt H. exact (reads_spec bl fs Hok f p ds f2 p2 H Hlt). Qed.
Print Assumptions C16_sessions_exactly_once.
Definition files1 : list blfile :=
  [ BlFile (tx "bin.1") [Entry 100 hd0 (EvXid 1); Entry 30 hd0 (tmap_ev 7); Entry 40 hd0 (rows_ev 7); rotate_to 20 hd0 (tx "bin.2")];
    BlFile (tx "bin.2") [Entry 30 hd0 (tmap_ev 7); Entry 40 hd0 (rows_ev 7); Entry 40 hd0 (rows_ev 7)] ].
Lemma files1_ok : log_ok files1.
Proof.
  split; [|split].
  - cbn [files_ok files1]. split; [|split; [|exact I]].
    + exists [Entry 100 hd0 (EvXid 1); Entry 30 hd0 (tmap_ev 7); Entry 40 hd0 (rows_ev 7)], 20, hd0.
      split; [reflexivity|]. split; [|lia]. repeat constructor; vm_compute; reflexivity.
    + repeat constructor; vm_compute; reflexivity.
  - repeat constructor; intros Hi; repeat (destruct Hi as [Hi|Hi]; [vm_compute in Hi; discriminate|]); destruct Hi.
  - repeat constructor; vm_compute; reflexivity.
Qed.
Definition sent1 : list hev :=
  [(hd0, EvRotate (Rotate (tx "bin.1") 4)); (hd 104, EvXid 1); (hd 104, EvHeartbeat (tx "bin.1")); (hd 134, tmap_ev 7)].
Example C16_example : log_ok files1 /\ sends (tx "bin.1") 4 false (log_from (tx "bin.1") 4 (locate_files files1)) sent1 2 /\
  coords (commit_all Debug (client_new (from_position (tx "bin.1") 4)) sent1) = Some (tx "bin.1", 104) /\
  map lo_event (log_from (tx "bin.1") 104 (locate_files files1)) =
   [tmap_ev 7; rows_ev 7; EvRotate (Rotate (tx "bin.2") 4); tmap_ev 7; rows_ev 7; rows_ev 7].
Proof.
  split; [exact files1_ok|]. split; [|split; vm_compute; reflexivity].
  vm_compute log_from. apply sends_rotate.
  refine (sends_log _ _ _ (Located (tx "bin.1") 4 104 hd0 (EvXid 1)) _ _ _ _). apply sends_heartbeat; [reflexivity|].
  refine (sends_log _ _ _ (Located (tx "bin.1") 104 134 hd0 (tmap_ev 7)) _ _ _ _). apply sends_stop.
Qed.

(* ---- C17 ---- *)
(* full statement: the theorem below with [maps_inside (locate_files fs)] instead of [maps_adjacent]; false, see the witness *)
Theorem C17_table_map_kept_partial : forall bl fs f p ds f2 p2,
  log_ok fs -> p < 4294967296 -> reads bl (locate_files fs) f p ds f2 p2 ->
  log_from f p (locate_files fs) = locate_files fs -> maps_adjacent (locate_files fs) ->
  maps_inside (log_from f2 p2 (locate_files fs)).
Proof.
  intros bl fs f p ds f2 p2 Hok Hlt H Hstart Hadj. apply (clean_inside (locate_files fs)); [exact Hadj|].
  apply (reads_clean bl fs Hok f p ds f2 p2 H Hlt). exists []. rewrite Hstart. split; [reflexivity|]. intros a x E. destruct a; discriminate.
Qed.
Print Assumptions C17_table_map_kept_partial.
Example C17_example : let log := locate_files [BlFile (tx "bin.1") [Entry 100 hd0 (EvXid 1); Entry 30 hd0 (tmap_ev 6); Entry 30 hd0 (tmap_ev 7); Entry 40 hd0 (rows_ev 6)]] in
  maps_adjacent log /\ log_from (tx "bin.1") 4 log = log.
Proof.
  cbv zeta. split; [|vm_compute; reflexivity]. intros a x b t E Ht. vm_compute locate_files in E.
  do 4 (destruct a as [|? a]; [cbn [app] in E; inv E; try discriminate|cbn [app] in E; injection E as <- E]).
  - cbn in Ht. injection Ht as <-. eexists [_], [_; _], _. split; [reflexivity|]. split; [repeat constructor|]. split; [left; reflexivity|reflexivity].
  - destruct a; discriminate.
Qed.
(* exactly the logs in which every row event has its table map in the run of table maps directly before it are safe *)
Theorem C17_safe_iff : forall bl fs f p,
  log_ok fs -> p < 4294967296 -> log_from f p (locate_files fs) = locate_files fs ->
  (forall ds f2 p2, reads bl (locate_files fs) f p ds f2 p2 -> maps_inside (log_from f2 p2 (locate_files fs))) <-> maps_adjacent (locate_files fs).
Proof.
  intros bl fs f p Hok Hlt Hst. split; [now apply (adjacent_needed bl fs f p)|]. intros Ha ds f2 p2 Hr. now apply (C17_table_map_kept_partial bl fs f p ds f2 p2).
Qed.
Print Assumptions C17_safe_iff.
(* One table map followed by two row events (any statement whose rows exceed the event size limit): a crash after the
   first row event saves a position behind the table map; the second row event is met without its table map. *)
Theorem C17_second_row_event_refuted : exists fs c es k c',
  log_ok fs /\ sends (tx "bin.1") 4 false (locate_files fs) es k /\ maps_inside (locate_files fs) /\
  log_from (o_file (c_opts c)) (o_pos (c_opts c)) (locate_files fs) = locate_files fs /\
  commit_all Debug c es = Ok c' /\
  ~ maps_inside (log_from (o_file (c_opts c')) (o_pos (c_opts c')) (locate_files fs)).
Proof.
  exists [BlFile (tx "bin.1") [Entry 30 hd0 (tmap_ev 7); Entry 40 hd0 (rows_ev 7); Entry 40 hd0 (rows_ev 7)]],
    (client_new (from_position (tx "bin.1") 4)), [(hd 34, tmap_ev 7); (hd 74, rows_ev 7)], 2%nat,
    (Client (Options (tx "bin.1") 74 None None FromPosition) false None None).
  split; [|split; [|split; [|split; [vm_compute; reflexivity|split; [vm_compute; reflexivity|]]]]].
  - split; [|split].
    + cbn [files_ok]. split; [|exact I]. repeat constructor; vm_compute; reflexivity.
    + repeat constructor; auto.
    + repeat constructor; vm_compute; reflexivity.
  - vm_compute locate_files. refine (sends_log _ _ _ (Located (tx "bin.1") 4 34 hd0 (tmap_ev 7)) _ _ _ _).
    refine (sends_log _ _ _ (Located (tx "bin.1") 34 74 hd0 (rows_ev 7)) _ _ _ _). apply sends_stop.
  - intros a x b t E Ht. vm_compute locate_files in E.
    do 3 (destruct a as [|? a]; [cbn [app] in E; inv E; try discriminate; (cbn in Ht; injection Ht as <-; eexists; (split; [left; reflexivity|reflexivity]))
                                |cbn [app] in E; injection E as <- E]). destruct a; discriminate.
  - intros H. destruct (H [] (Located (tx "bin.1") 74 114 hd0 (rows_ev 7)) [] 7) as (m & [] & _); [vm_compute; reflexivity|reflexivity].
Qed.
Print Assumptions C17_second_row_event_refuted.

(* ---- C18 ---- *)
(* full statement: forall bl c h r c', commit bl c h (EvRotate r) = Ok c' -> o_pos (c_opts c') = ro_pos r; false above 2^32 *)
Theorem C18_rotate_position_partial : forall bl c h r, ro_pos r < 4294967296 ->
  exists c', commit bl c h (EvRotate r) = Ok c' /\ o_file (c_opts c') = ro_file r /\ o_pos (c_opts c') = ro_pos r.
Proof.
  intros bl c h r Hr. unfold commit, update_gtid_position, update_binlog_position.
  destruct (negb _); cbn [rbind]; (eexists; split; [reflexivity|]); cbn [c_opts with_coords o_file o_pos]; unfold u32max1; rewrite N.mod_small by exact Hr; auto.
Qed.
Print Assumptions C18_rotate_position_partial.
(* every position: what is stored is the announced position modulo 2^32, so exact precisely below *)
Theorem C18_rotate_position_iff : forall bl c h r,
  exists c', commit bl c h (EvRotate r) = Ok c' /\ o_file (c_opts c') = ro_file r /\ o_pos (c_opts c') < 4294967296 /\
    (exists k, ro_pos r = k * 4294967296 + o_pos (c_opts c')) /\ (o_pos (c_opts c') = ro_pos r <-> ro_pos r < 4294967296).
Proof.
  intros bl c h r. unfold commit, update_gtid_position, update_binlog_position.
  destruct (negb _); cbn [rbind]; (eexists; split; [reflexivity|]); cbn [c_opts with_coords o_file o_pos]; unfold u32max1;
    (split; [reflexivity|]); (split; [lia|]); (split; [exists (ro_pos r / 4294967296); lia|lia]).
Qed.
Print Assumptions C18_rotate_position_iff.
Theorem C18_large_position_refuted : exists r c', ro_pos r < 18446744073709551616 /\
  commit Debug (client_new from_start) hd0 (EvRotate r) = Ok c' /\ o_pos (c_opts c') <> ro_pos r.
Proof. exists (Rotate (tx "bin.1") 4294967300). eexists. split; [reflexivity|]. split; [vm_compute; reflexivity|]. vm_compute. discriminate. Qed.
Print Assumptions C18_large_position_refuted.
Example C18_example : ro_pos (Rotate (tx "bin.000002") 4) < 4294967296.
Proof. vm_compute. reflexivity. Qed.

(* ---- C19 ---- *)
Theorem C19_untouched_outside_gtid_mode : forall bl es c c', commit_all bl c es = Ok c' ->
  o_strategy (c_opts c') = o_strategy (c_opts c) /\
  (o_strategy (c_opts c) <> FromGtid -> o_set (c_opts c') = o_set (c_opts c) /\ o_list (c_opts c') = o_list (c_opts c)).
Proof. exact commit_frame. Qed.
Print Assumptions C19_untouched_outside_gtid_mode.
Theorem C19_never_panics_outside_gtid_mode : forall bl es c, o_strategy (c_opts c) <> FromGtid -> exists c', commit_all bl c es = Ok c'.
Proof.
  induction es as [|[h e] es IH]; intros c Hn; cbn [commit_all]; [eauto|].
  assert (exists c1, commit bl c h e = Ok c1 /\ o_strategy (c_opts c1) <> FromGtid) as (c1 & -> & H1).
  { unfold commit, update_gtid_position. destruct (o_strategy (c_opts c)) eqn:E; try congruence; cbn [strategy_eqb negb rbind];
      (eexists; split; [reflexivity|]; pose proof (position_gst c h e) as G; unfold gst in G; injection G as G _ _ _ _ _; congruence). }
  cbn [rbind]. now apply IH.
Qed.
Print Assumptions C19_never_panics_outside_gtid_mode.
Example C19_example : let o := Options (tx "a") 4 (Some set1) None FromPosition in
  match commit_all Debug (client_new o) (stream_events stream1) with Ok c => (o_set (c_opts c), o_pos (c_opts c)) | _ => (None, 0) end = (Some set1, 90).
Proof. vm_compute. reflexivity. Qed.

(* ---- C20 ---- *)
(* full statement: for every client whose set comes from the public constructors and every event, commit returns Ok.
   Debug builds: proved for sets and GTIDs below 2^64-1; false at the top, see the witness.
   Release builds: proved for every set that parse accepts. *)
Theorem C20_commit_total_partial : forall bl es c,
  (forall s, o_set (c_opts c) = Some s -> set_ok s) ->
  (forall g, c_mysql c = Some g -> uuid_ok (g_source g) /\ g_txn g < u64_top) ->
  Forall (fun x => forall g, snd x = EvMySqlGtid g -> uuid_ok (g_source (me_gtid g)) /\ g_txn (me_gtid g) < u64_top) es ->
  exists c', commit_all bl c es = Ok c' /\ forall s, o_set (c_opts c') = Some s -> set_ok s.
Proof.
  intros bl es c H1 H2 H3.
  destruct (commit_all_total bl set_ok (fun g => uuid_ok (g_source g) /\ g_txn g < u64_top)) with (es := es) (c := c) as (c' & A & B & _); auto.
  - intros s g Hs [Hu Ht]. destruct (gtid_set_add_spec bl s g Hs Hu Ht) as (b & s' & us & us' & X & Y & _). eauto.
  - split; assumption.
  - exists c'. auto.
Qed.
Print Assumptions C20_commit_total_partial.
Theorem C20_commit_total_release : forall es c,
  (forall s, o_set (c_opts c) = Some s -> exists bl t, gtid_set_parse bl t = Ok s) -> c_mysql c = None ->
  Forall (fun x => forall g, snd x = EvMySqlGtid g -> uuid_ok (g_source (me_gtid g))) es ->
  exists c', commit_all Release c es = Ok c'.
Proof.
  intros es c H1 H2 H3.
  destruct (commit_all_total Release set_keyed (fun g => uuid_ok (g_source g))) with (es := es) (c := c) as (c' & A & _); auto.
  - intros s g Hs Hu. destruct (release_set_add s g Hs Hu) as (b & s' & X & Y). eauto.
  - split; [|rewrite H2; discriminate]. intros s Hs. destruct (H1 s Hs) as (bl & t & E). now apply (parse_keyed bl t).
  - exists c'. exact A.
Qed.
Print Assumptions C20_commit_total_release.
Theorem C20_debug_overflow_refuted : exists t s,
  gtid_set_parse Debug t = Ok s /\
  commit_all Debug (client_new (from_mysql_gtid s)) [(hd0, EvMySqlGtid (mg 3)); (hd0, EvXid 1)] = Panic.
Proof.
  exists (tx "24bc7850-2c16-11e6-a073-0242ac110001:7-18446744073709551615"),
    [(utext (uuid_new e1), UuidSet (uuid_new e1) [Interval 7 18446744073709551615])].
  split; vm_compute; reflexivity.
Qed.
Print Assumptions C20_debug_overflow_refuted.
Example C20_example : exists s, gtid_set_parse Debug (tx "24bc7850-2c16-11e6-a073-0242ac110001:1-4") = Ok s /\ set_ok s /\
  Forall (fun x : hev => forall g, snd x = EvMySqlGtid g -> uuid_ok (g_source (me_gtid g)) /\ g_txn (me_gtid g) < u64_top) (stream_events stream1).
Proof.
  exists set1. split; [vm_compute; reflexivity|]. split; [exact set1_ok|].
  unfold stream_events, stream1. cbn [flat_map item_events txn_events app].
  repeat (apply Forall_cons; [cbn [snd]; intros g E; try discriminate; injection E as <-; split; vm_compute; reflexivity|]). apply Forall_nil.
Qed.

(* ---- C67 ---- *)
(* full statement: after any prefix of an XA transaction's events the set has its GTID iff the prefix is the whole
   transaction.  Proved for the whole; false for the others, see the witness. *)
Theorem C67_xa_complete_partial : forall bl x c s, xa_ok x -> stream_gtid_ok (me_gtid (xa_gtid x)) ->
  o_strategy (c_opts c) = FromGtid -> c_txn c = false -> o_set (c_opts c) = Some s -> set_ok s ->
  exists c' s', commit_all bl c (xa_events x) = Ok c' /\ o_set (c_opts c') = Some s' /\ set_ok s' /\
    forall d n, set_has s' d n <-> set_has s d n \/ (d = udata (g_source (me_gtid (xa_gtid x))) /\ n = g_txn (me_gtid (xa_gtid x))).
Proof. intros bl x c s Hx Hg Hm Ht Hs Hok. now apply xa_complete. Qed.
Print Assumptions C67_xa_complete_partial.
Definition xa1 : xa := Xa hd0 (mg 5) (hd 10, sql "XA START X'01',X'',1") [(hd 20, tmap_ev 7); (hd 30, rows_ev 7)]
  (hd 40, sql "XA END X'01',X'',1") (hd 50, EvUnknown).
Example C67_example : xa_ok xa1 /\ stream_gtid_ok (me_gtid (xa_gtid xa1)).
Proof.
  split; [|repeat split; vm_compute; reflexivity]. unfold xa_ok. split; [|split; [|split]].
  - exists (tx "X'01',X'',1"). vm_compute. reflexivity.
  - repeat constructor.
  - exists (tx "X'01',X'',1"). vm_compute. reflexivity.
  - reflexivity.
Qed.
(* the GTID is saved right after XA START: a restart from there never sees the transaction's rows *)
Theorem C67_xa_start_refuted : exists x k, xa_ok x /\ (k < length (xa_events x))%nat /\
  set_of (commit_all Release (client_new (from_mysql_gtid set1)) (firstn k (xa_events x))) =
    Some (tx "24bc7850-2c16-11e6-a073-0242ac110001:1-5").
Proof. exists xa1, 2%nat. split; [apply C67_example|]. split; [cbn; lia|vm_compute; reflexivity]. Qed.
Print Assumptions C67_xa_start_refuted.
(* exactly: the GTID is in the saved set from XA START on *)
Theorem C67_saved_from_start_on : forall bl x c s k, xa_ok x -> stream_gtid_ok (me_gtid (xa_gtid x)) ->
  o_strategy (c_opts c) = FromGtid -> c_txn c = false -> o_set (c_opts c) = Some s -> set_ok s ->
  exists c' s', commit_all bl c (firstn k (xa_events x)) = Ok c' /\ o_set (c_opts c') = Some s' /\ set_ok s' /\
    forall d n, set_has s' d n <-> set_has s d n \/
      ((2 <= k)%nat /\ d = udata (g_source (me_gtid (xa_gtid x))) /\ n = g_txn (me_gtid (xa_gtid x))).
Proof. intros bl x c s k Hx Hg Hm Ht Hs Hok. now apply xa_prefix. Qed.
Print Assumptions C67_saved_from_start_on.
