(* Claimed properties of a client that changes servers: C105. *)
From Coq Require Import Strings.String Permutation.
From Verif Require Import Base.Tac Base.Bytes Base.Text Base.Res Base.Str Base.Parse Model.Gtid Model.GtidMaria Model.TableMap Model.Rows Model.Events Model.Client Model.Commands
  Model.Responses Model.Channel Model.Session Spec.GtidSpec Spec.ClientSpec Spec.EventSpec Spec.TableSpec Spec.RowSpec Spec.CommandSpec Spec.ChannelSpec
  Spec.SessionSpec Spec.PipelineSpec Spec.GtidMariaSpec Spec.MariaSessionSpec Spec.FailoverSpec Proofs.GtidMariaProofs Proofs.MariaSessionProofs Proofs.ClientProofs Proofs.CommitTotal Proofs.SessionProofs Proofs.LoginProofs Proofs.PipelineProofs
  Props.ClientProps Props.EventProps Props.RowProps Props.CommandProps Props.SessionProps Props.PipelineProps Props.MariaProps.
Local Open Scope N_scope.

(* ---- C105 ---- *)
(* one stay *)
Lemma stay_spec bl ev st log c xs c1 s : (forall s, Permutation s (e_order ev s)) -> s_server_id st < 4294967296 -> log_fine log -> contacts bl ev st log c xs c1 -> saved c s ->
  exists s1, saved c1 s1 /\ (forall d n, set_has s1 d n <-> set_has s d n \/ exists t, In t (delivered xs) /\ txn_id t = (d, n)) /\
    (forall todo, missing (set_has s) log todo -> exists rest, todo = delivered xs ++ rest /\ missing (set_has s1) log rest).
Proof.
  intros OR ID LF C K. destruct (contacts_connections bl ev st log c xs c1 OR ID LF C s K) as (s1 & K1 & C1). exists s1. split; [exact K1|].
  destruct LF as [ND LF]. assert (G1 : Forall (fun t => stream_gtid_ok (txn_gtid t)) log) by (eapply Forall_impl; [|exact LF]; cbn beta; tauto).
  assert (SO : set_ok s) by apply K. split.
  - intros d n. rewrite (C14_final_set_delivered bl log s xs s1 d n ND G1 SO C1). split; (intros [H|H]; [now left|right]).
    + destruct H as (x & t & H1 & H2 & H3). exists t. split; [|exact H3]. unfold delivered. apply in_flat_map. eauto.
    + destruct H as (t & H1 & H3). unfold delivered in H1. apply in_flat_map in H1. destruct H1 as (x & H1 & H2). eauto.
  - intros todo M. exact (C14_delivery bl log s xs s1 todo ND G1 SO C1 M).
Qed.
(* every log can be split for a set *)
Lemma set_member_dec s d n : set_has s d n \/ ~ set_has s d n.
Proof.
  induction s as [|[k us] s IH]; [right; intros (k & us & [] & _)|]. destruct IH as [IH|IH]; [left; destruct IH as (k' & us' & H & H'); exists k', us'; split; [now right|exact H']|].
  destruct (list_eq_dec Byte.byte_eq_dec (udata (us_source us)) d) as [E|E]; [|right; intros (k' & us' & [H|H] & H1 & H2); [inv H; now apply E|apply IH; exists k', us'; auto]].
  assert (D : ivs_has (us_ivs us) n \/ ~ ivs_has (us_ivs us) n).
  { clear. induction (us_ivs us) as [|i l IHl]; [right; intros (i & [] & _)|]. destruct IHl as [(j & J1 & J2)|IHl]; [left; exists j; split; [now right|exact J2]|].
    destruct (N.le_decidable (istart i) n) as [A|A], (N.le_decidable n (iend i)) as [B|B]; [left; exists i; split; [now left|now split]| | |];
      (right; intros (j & [<-|J1] & J2); [destruct J2; contradiction|apply IHl; exists j; auto]). }
  destruct D as [D|D]; [left; exists k, us; split; [now left|auto]|]. right. intros (k' & us' & [H|H] & H1 & H2); [inv H; now apply D|apply IH; exists k', us'; auto].
Qed.
Lemma missing_total s log : exists todo, missing (set_has s) log todo.
Proof.
  induction log as [|t log (todo & IH)]; [exists []; constructor|]. destruct (set_member_dec s (fst (txn_id t)) (snd (txn_id t))) as [H|H].
  - exists todo. now apply missing_skip.
  - exists (t :: todo). now apply missing_send.
Qed.
Lemma missing_out has l r : missing has l r -> forall t, In t r -> In t l /\ ~ in_set has t.
Proof. induction 1 as [|t l r H M IH|t l r H M IH]; intros u U; [destruct U| |destruct U as [<-|U]]; try (split; [now left|exact H]); destruct (IH u U); split; auto; now right. Qed.
Lemma missing_nodup has l r : missing has l r -> NoDup (map txn_id l) -> NoDup (map txn_id r).
Proof.
  induction 1 as [|t l r H M IH|t l r H M IH]; intros N; [constructor| |]; cbn [map] in *; inversion N as [|? ? N1 N2]; subst; auto. constructor; [|auto].
  intros Hi. apply N1. apply in_map_iff in Hi. destruct Hi as (u & E & Hu). rewrite <- E. apply in_map. now apply (missing_out _ _ _ M) in Hu.
Qed.
(* Whatever the logs of the servers: the saved set is the old one and exactly the transactions taken completely from any of them *)
Theorem C105_set : forall bl c ys c2 s, Forall (fun y => log_fine (fst y)) ys -> roams bl c ys c2 -> saved c s ->
  exists s2, saved c2 s2 /\ forall d n, set_has s2 d n <-> set_has s d n \/ exists t, In t (received ys) /\ txn_id t = (d, n).
Proof.
  intros bl c ys c2 s LF R. revert s. induction R as [c|ev st log c xs c1 ys c2 OR ID C R IH]; intros s K.
  - exists s. split; [exact K|]. intros d n. split; [now left|]. intros [H|(t & [] & _)]. exact H.
  - apply Forall_cons_iff in LF. destruct LF as [L1 LF]. cbn [fst] in L1. destruct (stay_spec bl ev st log c xs c1 s OR ID L1 C K) as (s1 & K1 & H1 & _).
    destruct (IH LF s1 K1) as (s2 & K2 & H2). exists s2. split; [exact K2|]. intros d n. rewrite H2, H1. unfold received. cbn [flat_map snd]. split.
    + intros [[H|(t & T1 & T2)]|(t & T1 & T2)]; [now left|right|right]; exists t; (split; [apply in_or_app; auto|exact T2]).
    + intros [H|(t & T1 & T2)]; [now left; left|]. apply in_app_or in T1. destruct T1 as [T1|T1]; [left; right|right]; eauto.
Qed.
Print Assumptions C105_set.
(* no transaction is taken twice, from the same server or from two, and none that was in the set *)
Theorem C105_once : forall bl c ys c2 s, Forall (fun y => log_fine (fst y)) ys -> roams bl c ys c2 -> saved c s ->
  NoDup (map txn_id (received ys)) /\ Forall (fun t => ~ set_has s (fst (txn_id t)) (snd (txn_id t))) (received ys).
Proof.
  intros bl c ys c2 s LF R. revert s. induction R as [c|ev st log c xs c1 ys c2 OR ID C R IH]; intros s K; [split; constructor|].
  apply Forall_cons_iff in LF. destruct LF as [L1 LF]. cbn [fst] in L1. destruct (stay_spec bl ev st log c xs c1 s OR ID L1 C K) as (s1 & K1 & H1 & H2).
  destruct (IH LF s1 K1) as [I1 I2]. destruct (missing_total s log) as (todo & M). destruct (H2 todo M) as (rest & -> & _).
  assert (A : NoDup (map txn_id (delivered xs)) /\ Forall (fun t => ~ set_has s (fst (txn_id t)) (snd (txn_id t))) (delivered xs)).
  { split.
    - pose proof (missing_nodup _ _ _ M (proj1 L1)) as N. rewrite map_app in N. clear - N. induction (map txn_id (delivered xs)) as [|a l IHl]; [constructor|].
      cbn [app] in N. inversion N as [|? ? N1 N2]; subst. constructor; [|auto]. intros Hi. apply N1. apply in_or_app. now left.
    - apply Forall_forall. intros t Ht. apply (missing_out _ _ _ M t). apply in_or_app. now left. }
  destruct A as [A1 A2]. unfold received. cbn [flat_map snd]. fold (received ys). rewrite map_app. split.
  - clear - A1 I1 I2 H1. assert (X : forall a, In a (map txn_id (delivered xs)) -> ~ In a (map txn_id (received ys))).
    { intros a Ha Hb. apply in_map_iff in Ha. destruct Ha as (t & <- & Ht). apply in_map_iff in Hb. destruct Hb as (u & E & Hu).
      rewrite Forall_forall in I2. apply (I2 u Hu). apply H1. right. exists t. split; [exact Ht|]. rewrite E. apply surjective_pairing. }
    induction (map txn_id (delivered xs)) as [|a l IHl]; cbn [app]; [exact I1|]. inversion A1 as [|? ? N1 N2]; subst. constructor.
    + intros Hi. apply in_app_or in Hi. destruct Hi as [Hi|Hi]; [now apply N1|]. apply (X a); [now left|exact Hi].
    + apply IHl; [exact N2|]. intros b Hb. apply X. now right.
  - apply Forall_app. split; [exact A2|]. eapply Forall_impl; [|exact I2]. cbn beta. intros t H Ht. apply H. apply H1. now left.
Qed.
Print Assumptions C105_once.
(* A connection on which everything the server sent was taken: from then on, wherever the client goes, the whole log of that server is in the set *)
Theorem C105_caught_up : forall bl c ys log xs x zs c2 s, Forall (fun y => log_fine (fst y)) (ys ++ (log, xs ++ [x]) :: zs) ->
  roams bl c (ys ++ (log, xs ++ [x]) :: zs) c2 -> saved c s -> (length (stream_events (se_items x)) <= se_cut x)%nat ->
  exists s2, o_set (c_opts c2) = Some s2 /\ forall t, In t log -> set_has s2 (fst (txn_id t)) (snd (txn_id t)).
Proof.
  intros bl c ys log xs x zs c2 s LF R K H. revert c s LF R K. induction ys as [|y ys IH]; intros c s LF R K; cbn [app] in *; apply Forall_cons_iff in LF; destruct LF as [L1 LF].
  - inversion R as [|ev st ? ? ? c1 ? ? OR ID C R1]; subst. cbn [fst] in L1. destruct (contacts_connections bl ev st log c _ c1 OR ID L1 C s K) as (s1 & K1 & C1).
    destruct (C105_set bl c1 zs c2 s1 LF R1 K1) as (s2 & K2 & H2). exists s2. split; [apply K2|]. intros t Ht. apply H2. left.
    destruct L1 as [ND L1]. assert (G1 : Forall (fun t => stream_gtid_ok (txn_gtid t)) log) by (eapply Forall_impl; [|exact L1]; cbn beta; tauto).
    apply (C14_full_session_covers_log bl log s xs x s1 t ND G1); auto. apply K.
  - inversion R as [|ev st log' ? xs' c1 ? ? OR ID C R1]; subst. cbn [fst] in L1. destruct (stay_spec bl ev st log' c xs' c1 s OR ID L1 C K) as (s1 & K1 & _). exact (IH c1 s1 LF R1 K1).
Qed.
Print Assumptions C105_caught_up.

(* Replicas of one server, each having got some first part of its log: going from one to another in any order, ahead or behind, the
   transactions taken are, in order, the first of those missing at the start, and the set leaves exactly the others *)
Lemma missing_app has a b r : missing has (a ++ b) r -> exists r1 r2, r = r1 ++ r2 /\ missing has a r1 /\ missing has b r2.
Proof.
  revert r; induction a as [|t a IH]; intros r M; cbn [app] in M; [exists [], r; repeat split; [constructor|exact M]|].
  inversion M as [|? ? ? H M1|? ? ? H M1]; subst; destruct (IH _ M1) as (r1 & r2 & -> & A & B).
  - exists r1, r2. repeat split; [now apply missing_skip|exact B].
  - exists (t :: r1), r2. repeat split; [now apply missing_send|exact B].
Qed.
Lemma missing_join has a b r1 r2 : missing has a r1 -> missing has b r2 -> missing has (a ++ b) (r1 ++ r2).
Proof. induction 1 as [|t l r H M IH|t l r H M IH]; intros B; cbn [app]; [exact B|apply missing_skip|apply missing_send]; auto. Qed.
Lemma missing_same (P Q : list byte -> N -> Prop) l r : (forall t, In t l -> in_set P t <-> in_set Q t) -> missing P l r -> missing Q l r.
Proof.
  intros H M. induction M as [|t l r A M IH|t l r A M IH]; [constructor|apply missing_skip|apply missing_send]; try (apply IH; intros u U; apply H; now right).
  - apply H; [now left|exact A].
  - intros X. apply A. apply H; [now left|exact X].
Qed.
Theorem C105_replicas : forall bl full c ys c2 s todo, log_fine full -> Forall (fun y => exists more, full = fst y ++ more) ys ->
  roams bl c ys c2 -> saved c s -> missing (set_has s) full todo ->
  exists s2 rest, o_set (c_opts c2) = Some s2 /\ todo = received ys ++ rest /\ missing (set_has s2) full rest.
Proof.
  intros bl full c ys c2 s todo FU P R. revert s todo P. induction R as [c|ev st log c xs c1 ys c2 OR ID C R IH]; intros s todo P K M.
  - exists s, todo. repeat split; [apply K|exact M].
  - apply Forall_cons_iff in P. destruct P as [(more & E) P]. cbn [fst] in E. assert (L1 : log_fine log).
    { destruct FU as [F1 F2]. rewrite E in F1, F2. apply Forall_app in F2. split; [|apply F2]. rewrite map_app in F1. clear - F1.
      induction (map txn_id log) as [|a l IHl]; [constructor|]. cbn [app] in F1. inversion F1 as [|? ? N1 N2]; subst. constructor; [|auto]. intros Hi. apply N1. apply in_or_app. now left. }
    destruct (stay_spec bl ev st log c xs c1 s OR ID L1 C K) as (s1 & K1 & H1 & H2).
    rewrite E in M. apply missing_app in M. destruct M as (r1 & r2 & -> & A & B). pose proof A as A0. destruct (H2 r1 A) as (rest & -> & A2).
    assert (M1 : missing (set_has s1) full (rest ++ r2)).
    { rewrite E. apply missing_join; [exact A2|]. apply (missing_same (set_has s)); [|exact B]. intros t Ht. unfold in_set. rewrite H1. split; [now left|].
      intros [H|(u & U1 & U2)]; [exact H|exfalso]. rewrite <- surjective_pairing in U2. assert (U3 : In u log) by (apply (missing_out _ _ _ A0 u); apply in_or_app; now left).
      destruct FU as [F1 _]. rewrite E, map_app in F1. clear - F1 Ht U2 U3. induction log as [|v l IHl]; [destruct U3|]. cbn [map app] in F1. inversion F1 as [|? ? N1 N2]; subst.
      destruct U3 as [->|U3]; [|now apply IHl]. apply N1. apply in_or_app. right. rewrite U2. now apply in_map. }
    destruct (IH s1 (rest ++ r2) P K1 M1) as (s2 & rest2 & E1 & E2 & E3). exists s2, rest2. split; [exact E1|]. split; [|exact E3].
    unfold received. cbn [flat_map snd]. fold (received ys). rewrite <- !app_assoc, E2. reflexivity.
Qed.
Print Assumptions C105_replicas.

(* three servers: the first one's connection breaks in the second transaction; the next is a replica that is behind and has nothing to
   send; the third sends what is missing *)
Definition w105_2 : world := Eval vm_compute in snd (link74 c74_1 pk_fd 1000).
Definition c105_2 : client := Eval vm_compute in client74 (commit_all Release (w_client w105_2) (stream_events [Service ev_fd])).
Definition w105_3 : world := Eval vm_compute in snd (link74 c105_2 (pk_fd ++ pk_ddl) 1000).
Definition c105_3 : client := Eval vm_compute in client74 (commit_all Release (w_client w105_3) (stream_events [Service ev_fd; Txn ex_ddl])).
Definition stays105 : list stay := [(log74, [Session items66 7]); ([txn3; ex_txn], [Session [Service ev_fd] 1]); (log74, [Session [Service ev_fd; Txn ex_ddl] 3])].
Example C105_example : roams Release c74_0 stays105 c105_3 /\ log_fine log74 /\ Forall (fun y => exists more, log74 = fst y ++ more) stays105 /\ saved c74_0 set1 /\
  missing (set_has set1) log74 [ex_txn; ex_ddl] /\ received stays105 = [ex_txn; ex_ddl] /\
  option_map gtid_set_text (o_set (c_opts c105_3)) = Some (tx "24bc7850-2c16-11e6-a073-0242ac110001:1-6").
Proof.
  destruct C74_example as (_ & LF & SA & PE & MI & _).
  assert (G : forall a n, srv_has [(e1, [(1, a)])] e1 n <-> 1 <= n < a).
  { intros a n. split.
    - intros (ivs & x & y & [E|[]] & Hi & Hn). inv E. destruct Hi as [E|[]]. inv E. exact Hn.
    - intros Hn. exists [(1, a)], 1, a. split; [now left|]. split; [now left|exact Hn]. }
  split; [|split; [exact LF|split; [|split; [exact SA|split; [exact MI|split; [reflexivity|vm_compute; reflexivity]]]]]].
  - destruct (C66_events_partial Release CkCrc32 (stream_events items66) packets66 (Writer CkCrc32 [ex_table]) (w_in w74_1) (cut66 + 60) (proj1 C66_example)) as (s1 & T1 & _);
      [repeat constructor; discriminate|vm_compute; reflexivity|].
    replace (arrived (cut66 + 60) packets66) with 7%nat in T1 by (vm_compute; reflexivity).
    assert (L2 : log_written (Writer CkCrc32 []) (stream_events [Service ev_fd]) pk_fd (Writer CkCrc32 [])).
    { cbn [stream_events flat_map item_events app]. rewrite <- (app_nil_r pk_fd). apply w_fd. constructor. }
    assert (L3 : log_written (Writer CkCrc32 []) (stream_events [Service ev_fd; Txn ex_ddl]) (pk_fd ++ pk_ddl) (Writer CkCrc32 [])).
    { cbn [stream_events flat_map item_events app]. apply w_fd. rewrite <- (app_nil_r pk_ddl). apply w_ddl. constructor. }
    destruct (C66_events_partial Release CkCrc32 _ _ _ (w_in w105_2) 1000 L2) as (s2 & T2 & _); [repeat constructor; discriminate|vm_compute; reflexivity|].
    replace (arrived 1000 pk_fd) with 1%nat in T2 by (vm_compute; reflexivity).
    destruct (C66_events_partial Release CkCrc32 _ _ _ (w_in w105_3) 1000 L3) as (s3 & T3 & _); [repeat constructor; discriminate|vm_compute; reflexivity|].
    replace (arrived 1000 (pk_fd ++ pk_ddl)) with 3%nat in T3 by (vm_compute; reflexivity).
    unfold stays105.
    apply (ro_stay Release env0 st0 _ _ _ c74_1); [exact PE|reflexivity| |apply (ro_stay Release env0 st0 _ _ _ c105_2); [exact PE|reflexivity| |apply (ro_stay Release env0 st0 _ _ _ c105_3); [exact PE|reflexivity| |constructor]]].
    + change (Session items66 7) with (Session items66 (length (firstn 7 (stream_events items66)))).
      eapply (co_stream Release env0 st0 log74 c74_0 _ CkCrc32 w74_1 (removelast (sent (w_log w74_1))) (fst (last (sent (w_log w74_1)) ([], 9)))).
      * split; [reflexivity|]. intros s E. inv E. reflexivity.
      * instantiate (1 := [Got (flat_map wire (number ([mysql_hello; okp] ++ good_answers)) ++ firstn (cut66 + 60) (flat_map wire packets66))]). vm_compute. reflexivity.
      * vm_compute. reflexivity.
      * vm_compute. reflexivity.
      * exact (proj1 (proj2 C66_example)).
      * cbn [sg_set]. apply missing_skip; [apply (G 5 3); lia|]. apply missing_send; [intros Hx; apply (G 5 5) in Hx; lia|].
        apply missing_send; [intros Hx; apply (G 5 6) in Hx; lia|]. constructor.
      * exact (sent_written _ _ _ _ (proj1 C66_example)).
      * repeat constructor; discriminate.
      * instantiate (1 := (cut66 + 60)%nat). vm_compute. reflexivity.
      * exact T1.
      * vm_compute. reflexivity.
      * constructor.
    + change (Session [Service ev_fd] 1) with (Session [Service ev_fd] (length (firstn 1 (stream_events [Service ev_fd])))).
      eapply (co_stream Release env0 st0 [txn3; ex_txn] c74_1 _ CkCrc32 w105_2 (removelast (sent (w_log w105_2))) (fst (last (sent (w_log w105_2)) ([], 9)))).
      * split; [reflexivity|]. intros s E. inv E. reflexivity.
      * instantiate (1 := [Got (flat_map wire (number ([mysql_hello; okp] ++ good_answers)) ++ firstn 1000 (flat_map wire pk_fd))]). vm_compute. reflexivity.
      * vm_compute. reflexivity.
      * vm_compute. reflexivity.
      * repeat constructor.
      * cbn [sg_set]. apply missing_skip; [apply (G 6 3); lia|]. apply missing_skip; [apply (G 6 5); lia|]. constructor.
      * exact (sent_written _ _ _ _ L2).
      * repeat constructor; discriminate.
      * instantiate (1 := 1000%nat). vm_compute. reflexivity.
      * exact T2.
      * vm_compute. reflexivity.
      * constructor.
    + change (Session [Service ev_fd; Txn ex_ddl] 3) with (Session [Service ev_fd; Txn ex_ddl] (length (firstn 3 (stream_events [Service ev_fd; Txn ex_ddl])))).
      eapply (co_stream Release env0 st0 log74 c105_2 _ CkCrc32 w105_3 (removelast (sent (w_log w105_3))) (fst (last (sent (w_log w105_3)) ([], 9)))).
      * split; [reflexivity|]. intros s E. inv E. reflexivity.
      * instantiate (1 := [Got (flat_map wire (number ([mysql_hello; okp] ++ good_answers)) ++ firstn 1000 (flat_map wire (pk_fd ++ pk_ddl)))]). vm_compute. reflexivity.
      * vm_compute. reflexivity.
      * vm_compute. reflexivity.
      * repeat constructor.
      * cbn [sg_set]. apply missing_skip; [apply (G 6 3); lia|]. apply missing_skip; [apply (G 6 5); lia|].
        apply missing_send; [intros Hx; apply (G 6 6) in Hx; lia|]. constructor.
      * exact (sent_written _ _ _ _ L3).
      * repeat constructor; discriminate.
      * instantiate (1 := 1000%nat). vm_compute. reflexivity.
      * exact T3.
      * vm_compute. reflexivity.
      * constructor.
  - repeat constructor; [exists []|exists [ex_ddl]|exists []]; reflexivity.
Qed.

(* ---- MariaDB ---- *)
Lemma mroams_list bl c ys c2 : Forall (fun y => mlog_fine (fst y)) ys -> mroams bl c ys c2 -> forall l, msaved c l -> msaved c2 (madd_all l (map group_gtid (mreceived ys))).
Proof.
  intros LF R. induction R as [c|ev st log c xs c1 ys c2 ID C R IH]; intros l K; [exact K|]. apply Forall_cons_iff in LF. destruct LF as [L1 LF]. cbn [fst] in L1.
  pose proof (mstay bl ev st log c xs c1 l ID L1 K C) as K1. apply (IH LF) in K1. unfold mreceived. cbn [flat_map snd]. rewrite map_app, madd_app. exact K1.
Qed.
(* Whatever the logs of the servers: of each domain the position is that of the last group passed at any of them, or the old one *)
Theorem C105_mariadb_position : forall bl c ys c2 l, Forall (fun y => mlog_fine (fst y)) ys -> mroams bl c ys c2 -> msaved c l ->
  exists l2, msaved c2 l2 /\ forall d, domain_gtid l2 d = match last_of_domain d (map group_gtid (mreceived ys)) with Some g => Some g | None => domain_gtid l d end.
Proof.
  intros bl c ys c2 l LF R K. exists (madd_all l (map group_gtid (mreceived ys))). split; [now apply (mroams_list bl c)|].
  assert (ND : NoDup (map mg_domain l)) by apply K. destruct (madd_all_spec (map group_gtid (mreceived ys)) l ND) as (_ & H & _). exact H.
Qed.
Print Assumptions C105_mariadb_position.
(* replicas that have got first parts of one log, in any order *)
Theorem C105_mariadb_replicas : forall bl full c ys c2 l, mlog_fine full -> Forall (fun y => exists more, full = fst y ++ more) ys ->
  mroams bl c ys c2 -> msaved c l ->
  exists l2 rest, msaved c2 l2 /\ to_send l full = mreceived ys ++ rest /\ to_send l2 full = rest.
Proof.
  intros bl full c ys c2 l FU P R. revert l P. induction R as [c|ev st log c xs c1 ys c2 ID C R IH]; intros l P K.
  - exists l, (to_send l full). auto.
  - apply Forall_cons_iff in P. destruct P as [(more & E) P]. cbn [fst] in E. destruct FU as [F1 F2]. assert (L1 : mlog_fine log).
    { rewrite E in F1, F2. apply Forall_app in F2. split; [now apply increasing_app in F1|apply F2]. }
    destruct (C82_delivery bl ev st log c xs c1 l ID L1 K C) as (l1' & rest & _ & S1 & _). pose proof (mstay bl ev st log c xs c1 l ID L1 K C) as K1.
    set (l1 := madd_all l (map group_gtid (mpassed xs))) in *.
    assert (S2 : to_send l full = mpassed xs ++ rest ++ to_send l more) by (rewrite E; unfold to_send in *; rewrite filter_app, S1, <- app_assoc; reflexivity).
    assert (ND : NoDup (map mg_domain l)) by apply K. destruct (madd_all_spec (map group_gtid (mpassed xs)) l ND) as (_ & H & _).
    pose proof (send_rest full l l1 (mpassed xs) (rest ++ to_send l more) F1 S2 H) as S3.
    destruct (IH l1 P K1) as (l2 & rest2 & K2 & T1 & T2). exists l2, rest2. split; [exact K2|]. split; [|exact T2].
    unfold mreceived. cbn [flat_map snd]. fold (mreceived ys). rewrite S2, <- S3, T1, app_assoc. reflexivity.
Qed.
Print Assumptions C105_mariadb_replicas.
(* two MariaDB servers that have the same three groups of a log of four; the connection to the first breaks in the third group *)
Definition new82 : group := GAlone (hx 162 42 800) (MariaGtid (g82 0 12) 1) [] (hx 2 80 880, EvQuery q_create).
Definition stays105m : list mstay_at := [(log82, [MSession items82_1 6]); (log82, [MSession items82_2 3])].
Example C105_mariadb_example : mroams Release c82_0 stays105m c82_2 /\ mlog_fine (log82 ++ [new82]) /\ Forall (fun y => exists more, log82 ++ [new82] = fst y ++ more) stays105m /\
  msaved c82_0 [g82 0 10] /\ to_send [g82 0 10] (log82 ++ [new82]) = [rows82; ddl82; new82] /\ mreceived stays105m = [rows82; ddl82] /\
  option_map gtid_list_text (o_list (c_opts c82_2)) = Some (tx "0-3-11,1-3-5").
Proof.
  destruct C82_example as (C & _ & K & _ & _ & T). split; [|split; [|split; [|split; [exact K|split; [|split; [|exact T]]]]]].
  - destruct (mcontacts_app Release env0 st0 log82 c82_0 [MSession items82_1 6] [MSession items82_2 3] c82_2 C) as (c1 & C1 & C2).
    apply (mro_stay Release env0 st0 _ _ _ c1); [reflexivity|exact C1|]. apply (mro_stay Release env0 st0 _ _ _ c82_2); [reflexivity|exact C2|constructor].
  - split; [|repeat constructor; vm_compute; reflexivity]. cbn. repeat split; repeat constructor; vm_compute; intros; congruence.
  - repeat constructor; exists [new82]; reflexivity.
  - vm_compute. reflexivity.
  - reflexivity.
Qed.
