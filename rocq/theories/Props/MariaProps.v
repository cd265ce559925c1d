(* Claimed properties of reconnecting to a MariaDB server: C82. *)
From Coq Require Import Strings.String.
From Verif Require Import Base.Tac Base.Bytes Base.Text Base.Res Base.Str Base.Parse Model.Gtid Model.GtidMaria Model.Events Model.Client Model.Commands
  Model.Responses Model.Channel Model.Session Spec.GtidSpec Spec.ClientSpec Spec.EventSpec Spec.TableSpec Spec.RowSpec Spec.CommandSpec Spec.ChannelSpec
  Spec.SessionSpec Spec.PipelineSpec Spec.GtidMariaSpec Spec.MariaSessionSpec Proofs.GtidMariaProofs Proofs.ClientProofs Proofs.CommitTotal Proofs.ReplicateProofs Proofs.PlanProofs Proofs.PipelineProofs
  Proofs.MariaSessionProofs Props.ClientProps Props.EventProps Props.RowProps Props.SessionProps Props.PipelineProps.
Local Open Scope N_scope.

(* what connections preserve *)
Definition msaved (c : client) (l : list mgtid) : Prop :=
  o_strategy (c_opts c) = FromGtid /\ o_list (c_opts c) = Some l /\ o_set (c_opts c) = None /\ Forall mgtid_ok l /\ NoDup (map mg_domain l) /\ o_pos (c_opts c) < 4294967296.
Definition mlog_fine (log : list group) : Prop := increasing log /\ Forall (fun t => mgtid_ok (group_gtid t)) log.

Lemma state_valid l : valid_text (tx "SET @slave_connect_state='" ++ gtid_list_text l ++ tx "'").
Proof.
  apply Forall_app. split; [repeat constructor|]. apply Forall_app. split; [|repeat constructor].
  eapply Forall_impl; [|apply gtid_list_chars]. cbn beta. intros c H. unfold scalar. lia.
Qed.
Lemma state_quoted l : quoted (gtid_list_text l ++ tx "'") = Some (gtid_list_text l, []).
Proof. apply quoted_plain; [|discriminate]. eapply Forall_impl; [|apply gtid_list_chars]. cbn beta. lia. Qed.
Lemma asks_states l q : Forall mgtid_ok l -> NoDup (map mg_domain l) -> asks (tx "SET @slave_connect_state='" ++ gtid_list_text l ++ tx "'") q -> states q l.
Proof.
  intros H1 H2 A. exists (utf8_encode (tx "SET @slave_connect_state='" ++ gtid_list_text l ++ tx "'")), (gtid_list_text l ++ tx "'").
  split; [exact A|]. split; [now rewrite utf8_decode_encode by apply state_valid|]. split; [|auto]. apply state_quoted.
Qed.
Lemma states_unique l0 l q : Forall mgtid_ok l0 -> NoDup (map mg_domain l0) -> asks (tx "SET @slave_connect_state='" ++ gtid_list_text l0 ++ tx "'") q -> states q l -> l = l0.
Proof.
  intros H1 H2 A (bs & rest & Q & D & R & O & ND). unfold asks in A. assert (bs = utf8_encode (tx "SET @slave_connect_state='" ++ gtid_list_text l0 ++ tx "'")) as -> by congruence.
  rewrite utf8_decode_encode in D by apply state_valid. assert (X : tx "SET @slave_connect_state='" ++ gtid_list_text l0 ++ tx "'" = tx "SET @slave_connect_state='" ++ rest) by congruence.
  apply app_inv_head in X. subst rest. rewrite state_quoted in R. assert (Y : gtid_list_text l0 = gtid_list_text l) by (injection R as R; exact R).
  pose proof (gtid_list_roundtrip l0 H1 H2) as P. pose proof (gtid_list_roundtrip l O ND) as P'. rewrite Y in P. congruence.
Qed.
Lemma other_query sql q l : utf8_decode (utf8_encode sql) = Some sql -> firstn 26 sql <> tx "SET @slave_connect_state='" -> asks sql q -> ~ states q l.
Proof.
  intros V H A (bs & rest & Q & D & _). unfold asks in A. assert (bs = utf8_encode sql) as -> by congruence. apply H.
  assert (X : sql = tx "SET @slave_connect_state='" ++ rest) by congruence. rewrite X. reflexivity.
Qed.
Lemma not_query q l : srv_query q = None -> ~ states q l.
Proof. intros H (bs & rest & Q & _). congruence. Qed.
(* the server goes by the saved list *)
Lemma state_read bl ev st c l0 cs ck w1 w' qs a q b l : s_server_id st < 4294967296 -> msaved c l0 ->
  connect bl ev st (World c cs []) = (Ok MariaDB, w1) -> replicate bl ev st (World c cs []) = (Ok ck, w') ->
  sent (w_log w') = sent (w_log w1) ++ qs -> qs = a ++ (q, 0) :: b -> states q l -> Forall (fun p => forall l', ~ states (fst p) l') b -> l = l0.
Proof.
  intros ID (M & L & S & K1 & K2 & PO) EC E SE EQ ST NB.
  assert (F : request_fits ev st (c_opts c)) by (split; [exact ID|]; split; [exact PO|]; intros s _ X; congruence).
  destruct (C61_plan bl ev st (World c cs []) (Ok ck) w' eq_refl F E) as (login & rest & LL & _ & C). cbn [w_client] in C.
  pose proof (replicate_keeps bl ev st (World c cs []) _ _ M E) as O. cbn [w_client] in O. rewrite EC, O in C.
  destruct C as (L1 & (d & lf & E1 & F2) & Len). specialize (Len ck eq_refl).
  assert (lf = []) as ->. { pose proof (Forall2_len _ _ _ F2) as X. rewrite E1, app_length in Len. destruct lf; [reflexivity|cbn [length] in Len; lia]. }
  rewrite app_nil_r in E1. rewrite <- E1 in F2. clear E1 Len. assert (sent rest = qs) as SR.
  { rewrite LL, PlanProofs.sent_app, L1 in SE. now apply app_inv_head in SE. }
  rewrite SR in F2. unfold plan in F2. rewrite M, L in F2. cbn [app] in F2.
  inversion F2 as [|p1 P1 r1 R1 A1 F3]; clear F2; subst. inversion F3 as [|p2 P2 r2 R2 A2 F4]; clear F3; subst. inversion F4 as [|p3 P3 r3 R3 A3 F5]; clear F4; subst.
  inversion F5 as [|p4 P4 r4 R4 A4 F6]; clear F5; subst. inversion F6 as [|p5 P5 r5 R5 A5 F7]; clear F6; subst. inversion F7 as [|p6 P6 r6 R6 A6 F8]; clear F7; subst.
  inversion F8 as [|p7 P7 r7 R7 A7 F9]; clear F8; subst. inversion F9 as [|p8 P8 r8 R8 A8 F10]; clear F9; subst. inversion F10 as [|p9 P9 r9 R9 A9 F11]; clear F10; subst. inversion F11; clear F11; subst.
  assert (Q5 : states (fst p5) l0) by (apply asks_states; [exact K1|exact K2|exact (proj1 A5)]).
  assert (N6 : forall x, ~ states (fst p6) x) by (intros x; eapply other_query; [| |exact (proj1 A6)]; [vm_compute; reflexivity|vm_compute; discriminate]).
  assert (N7 : forall x, ~ states (fst p7) x) by (intros x; eapply other_query; [| |exact (proj1 A7)]; [vm_compute; reflexivity|vm_compute; discriminate]).
  assert (N8 : forall x, ~ states (fst p8) x).
  { intros x (bs & rs & Q & _). destruct A8 as [A8 _]. unfold registers in A8. apply command_check in Q. apply command_check in A8. destruct Q as [Q _], A8 as [A8 _]. rewrite Q in A8. discriminate. }
  assert (N9 : forall x, ~ states (fst p9) x).
  { intros x (bs & rs & Q & _). destruct A9 as [A9 _]. unfold asks_position in A9. apply command_check in Q. apply command_check in A9. destruct Q as [Q _], A9 as [A9 _]. rewrite Q in A9. discriminate. }
  clear A1 A2 A3 A4 A6 A7 A8 A9. match goal with X : _ = a ++ (q, 0) :: b |- _ => rename X into EQ end.
  assert (IN : In p5 b -> False) by (intros X; rewrite Forall_forall in NB; exact (NB p5 X l0 Q5)).
  destruct a as [|x1 a]; cbn [app] in EQ; [exfalso; apply IN; injection EQ as _ <-; cbn; auto|].
  destruct a as [|x2 a]; cbn [app] in EQ; [exfalso; apply IN; injection EQ as _ _ <-; cbn; auto|].
  destruct a as [|x3 a]; cbn [app] in EQ; [exfalso; apply IN; injection EQ as _ _ _ <-; cbn; auto|].
  destruct a as [|x4 a]; cbn [app] in EQ; [exfalso; apply IN; injection EQ as _ _ _ _ <-; cbn; auto|].
  destruct a as [|x5 a]; cbn [app] in EQ; [assert (p5 = (q, 0)) as -> by congruence; eapply states_unique; [exact K1|exact K2|exact (proj1 A5)|exact ST]|].
  exfalso. assert (X : In (q, 0) [p6; p7; p8; p9]) by (injection EQ as _ _ _ _ _ EQ; rewrite EQ; apply in_or_app; right; now left).
  destruct X as [X|[X|[X|[X|[]]]]]; rewrite X in *; cbn [fst] in *; [exact (N6 l ST)|exact (N7 l ST)|exact (N8 l ST)|exact (N9 l ST)].
Qed.

Lemma mstep_exact bl ev st log c l0 cs ck w1 w' qs a q b l is its pk w2 n evs s c' : s_server_id st < 4294967296 -> mlog_fine log -> msaved c l0 ->
  connect bl ev st (World c cs []) = (Ok MariaDB, w1) -> replicate bl ev st (World c cs []) = (Ok ck, w') ->
  sent (w_log w') = sent (w_log w1) ++ qs -> qs = a ++ (q, 0) :: b -> states q l -> Forall (fun p => forall l', ~ states (fst p) l') b ->
  Forall mitem_any is -> mstream_groups is = to_send l log -> log_sent (Writer ck []) (mstream_events is) its pk w2 ->
  flowing (w_in w') -> in_bytes (w_in w') = firstn n (flat_map wire pk) ->
  takes bl (stream_new (w_in w') ck) (map inl evs) s -> commit_all bl (w_client w') evs = Ok c' ->
  exists l1 rest, msaved c' l1 /\ to_send l0 log = gpassed (length evs) is ++ rest /\ to_send l1 log = rest /\ l = l0 /\ l1 = madd_all l0 (map group_gtid (gpassed (length evs) is)).
Proof.
  intros ID [LI LO] K EC E SE EQ ST NB IO MG L F B T CO. pose proof (state_read bl ev st c l0 cs ck w1 w' qs a q b l ID K EC E SE EQ ST NB) as ->.
  pose proof K as (M & KL & S & K1 & K2 & PO). pose proof (replicate_keeps bl ev st (World c cs []) _ _ M E) as O. cbn [w_client] in O.
  pose proof (replicate_resets bl ev st (World c cs []) _ _ M E) as RT.
  destruct (taken_events bl ck _ its pk w2 (w_in w') n evs s (w_client w') L F B T) as (es & EV2 & EL & EK & _). rewrite EK in CO. rewrite <- EL. clear T EK EL evs.
  destruct (commit_groups bl is (length es) (w_client w') l0 IO) as (c'' & Y1 & Y2); unfold mode; rewrite ?O; auto.
  rewrite <- EV2 in Y1. assert (c'' = c') as -> by congruence. 
  destruct (gpassed_prefix is (length es)) as [rest ER]. rewrite MG in ER.
  set (l1 := madd_all l0 (map group_gtid (gpassed (length es) is))) in *. destruct (madd_all_spec (map group_gtid (gpassed (length es) is)) l0 K2) as (Z1 & Z2 & _). fold l1 in Z1, Z2.
  exists l1, rest. split; [|split; [exact ER|split; [|split; reflexivity]]].
  - split; [rewrite (proj1 (commit_frame bl es (w_client w') c' CO)), O; exact M|]. split; [exact Y2|]. split; [apply (commits_noset bl es (w_client w')); [exact CO|now rewrite O]|].
    split; [|split; [exact Z1|]].
    + apply madd_all_ok; [exact K1|]. apply Forall_map, Forall_forall. intros t Ht. assert (X : In t (to_send l0 log)) by (rewrite ER; apply in_or_app; auto).
      apply filter_In in X. rewrite Forall_forall in LO. now apply LO.
    + apply (commit_pos bl es (w_client w') c'); [|now rewrite O|exact CO]. pose proof (sent_heads _ _ _ _ _ L) as WH. rewrite EV2. now apply ClientProofs.Forall_firstn.
  - apply (send_rest log l0 l1 (gpassed (length es) is) rest LI ER). intros d. rewrite Z2. reflexivity.
Qed.
Lemma mstep bl ev st log c l0 cs ck w1 w' qs a q b l is its pk w2 n evs s c' : s_server_id st < 4294967296 -> mlog_fine log -> msaved c l0 ->
  connect bl ev st (World c cs []) = (Ok MariaDB, w1) -> replicate bl ev st (World c cs []) = (Ok ck, w') ->
  sent (w_log w') = sent (w_log w1) ++ qs -> qs = a ++ (q, 0) :: b -> states q l -> Forall (fun p => forall l', ~ states (fst p) l') b ->
  Forall mitem_any is -> mstream_groups is = to_send l log -> log_sent (Writer ck []) (mstream_events is) its pk w2 ->
  flowing (w_in w') -> in_bytes (w_in w') = firstn n (flat_map wire pk) ->
  takes bl (stream_new (w_in w') ck) (map inl evs) s -> commit_all bl (w_client w') evs = Ok c' ->
  exists l1 rest, msaved c' l1 /\ to_send l0 log = gpassed (length evs) is ++ rest /\ to_send l1 log = rest /\ l = l0.
Proof.
  intros ID LF K EC E SE EQ ST NB IO MG L F B T CO.
  destruct (mstep_exact bl ev st log c l0 cs ck w1 w' qs a q b l is its pk w2 n evs s c' ID LF K EC E SE EQ ST NB IO MG L F B T CO) as (l1 & rest & A & B1 & C & D & _). eauto 6.
Qed.

(* For every log, any number of connections and failed attempts, and whatever part of the bytes arrives each time:
   the groups the position has moved past, in order, are a prefix of those after the saved position, and the position
   saved at the end leaves exactly the others to be sent. Statements inside groups included. *)
Theorem C82_delivery : forall bl ev st log c xs c2 l, s_server_id st < 4294967296 -> mlog_fine log ->
  msaved c l -> mcontacts bl ev st log c xs c2 ->
  exists l2 rest, msaved c2 l2 /\ to_send l log = mpassed xs ++ rest /\ to_send l2 log = rest.
Proof.
  intros bl ev st log c xs c2 l ID LF K C. revert l K.
  induction C as [c|c cs e w' xs c2 E C IH|c cs ck w1 w' qs a q b l is its pk w2 n evs sm c' xs c2 EC E SE EQ ST NB IO MG L F B T CO C IH]; intros l0 K.
  - exists l0, (to_send l0 log). auto.
  - apply IH. pose proof (replicate_keeps bl ev st (World c cs []) _ _ (proj1 K) E) as O. cbn [w_client] in O. unfold msaved in *. now rewrite O.
  - destruct (mstep bl ev st log c l0 cs ck w1 w' qs a q b l is its pk w2 n evs sm c' ID LF K EC E SE EQ ST NB IO MG L F B T CO) as (l1 & rest & K1 & S0 & S1 & _).
    destruct (IH l1 K1) as (l2 & rest2 & K2 & T1 & T2). exists l2, rest2. split; [exact K2|]. split; [|exact T2]. cbn [mpassed flat_map ms_cut ms_items].
    rewrite S0, <- S1, T1. unfold mpassed. now rewrite app_assoc.
Qed.
Print Assumptions C82_delivery.
(* the list saved at the end, exactly *)
Lemma madd_app a : forall l b, madd_all l (a ++ b) = madd_all (madd_all l a) b.
Proof. induction a as [|g a IH]; intros l b; cbn [app madd_all]; [reflexivity|apply IH]. Qed.
Lemma mstay bl ev st log c xs c2 l : s_server_id st < 4294967296 -> mlog_fine log -> msaved c l -> mcontacts bl ev st log c xs c2 ->
  msaved c2 (madd_all l (map group_gtid (mpassed xs))).
Proof.
  intros ID LF K C. revert l K.
  induction C as [c|c cs e w' xs c2 E C IH|c cs ck w1 w' qs a q b l is its pk w2 n evs sm c' xs c2 EC E SE EQ ST NB IO MG L F B T CO C IH]; intros l0 K.
  - exact K.
  - apply IH. pose proof (replicate_keeps bl ev st (World c cs []) _ _ (proj1 K) E) as O. cbn [w_client] in O. unfold msaved in *. now rewrite O.
  - destruct (mstep_exact bl ev st log c l0 cs ck w1 w' qs a q b l is its pk w2 n evs sm c' ID LF K EC E SE EQ ST NB IO MG L F B T CO) as (l1 & rest & K1 & _ & _ & _ & ->).
    apply IH in K1. unfold mpassed. cbn [flat_map ms_cut ms_items]. fold (mpassed xs). rewrite map_app, madd_app. exact K1.
Qed.
(* what a connection moves the position past: the groups taken completely, and at most one more, the one in which it
   broke, if a statement of it that no BEGIN precedes was taken *)
Theorem C82_passed : forall is k, exists u, gpassed k is = gcompleted k is ++ u /\
  (u = [] \/ exists t j, u = [t] /\ (j < length (group_events t))%nat /\ settles (firstn j (group_events t)) = true).
Proof. intros is k. apply gpassed_split. Qed.
Print Assumptions C82_passed.
(* Missing from the full statement: groups with statements before their end, for which it is false (C82_statement_in_group_refuted);
   for those C82_delivery and C82_passed say what holds. *)
(* the groups completely taken, in order, are a prefix of those after the saved position, and the position saved leaves exactly the others *)
Theorem C82_delivery_partial : forall bl ev st log c xs c2 l, s_server_id st < 4294967296 -> mlog_fine log ->
  Forall (fun x => Forall mitem_ok (ms_items x)) xs -> msaved c l -> mcontacts bl ev st log c xs c2 ->
  exists l2 rest, msaved c2 l2 /\ to_send l log = mdelivered xs ++ rest /\ to_send l2 log = rest.
Proof.
  intros bl ev st log c xs c2 l ID LF R K C. replace (mdelivered xs) with (mpassed xs); [exact (C82_delivery bl ev st log c xs c2 l ID LF K C)|].
  unfold mpassed, mdelivered. clear - R. induction R as [|x xs Hx R IH]; cbn [flat_map]; [reflexivity|]. now rewrite IH, gpassed_rows.
Qed.
Print Assumptions C82_delivery_partial.
Lemma mcontacts_app bl ev st log c xs ys c2 : mcontacts bl ev st log c (xs ++ ys) c2 -> exists c1, mcontacts bl ev st log c xs c1 /\ mcontacts bl ev st log c1 ys c2.
Proof.
  intros C. remember (xs ++ ys) as zs eqn:Z. revert xs ys Z.
  induction C as [c|c cs e w' zs c2 E C IH|c cs ck w1 w' qs a q b l is its pk w2 n evs sm c' zs c2 EC E SE EQ ST NB IO MG L F B T CO C IH]; intros xs ys Z.
  - symmetry in Z. apply app_eq_nil in Z. destruct Z as [-> ->]. exists c. split; constructor.
  - destruct (IH xs ys Z) as (c1 & A & A'). exists c1. split; [eapply mc_failed; eauto|exact A'].
  - destruct xs as [|x xs]; cbn [app] in Z; [exists c; split; [constructor|]; rewrite <- Z; eapply mc_stream; eauto|]. injection Z as <- Z.
    destruct (IH xs ys Z) as (c1 & A & A'). exists c1. split; [eapply mc_stream; eauto|exact A'].
Qed.
Lemma increasing_distinct l : increasing l -> forall a t b u, l = a ++ t :: b -> In u b -> (group_domain t, group_seq t) <> (group_domain u, group_seq u).
Proof.
  intros I a t b u -> H X. destruct (increasing_app a (t :: b) I) as (_ & [I2 _] & _). rewrite Forall_forall in I2. specialize (I2 u H). injection X as X1 X2. symmetry in X1. specialize (I2 X1). lia.
Qed.
(* what the server writes on a connection *)
Lemma mfirst bl ev st log c y zs c2 l : s_server_id st < 4294967296 -> mlog_fine log -> msaved c l -> mcontacts bl ev st log c (y :: zs) c2 -> mstream_groups (ms_items y) = to_send l log.
Proof.
  intros ID LF K C4. remember (y :: zs) as ws eqn:W. revert l K.
  induction C4 as [c|c cs e w' zs' c2 E C IH|c cs ck w1 w' qs a q b l is its pk w2 n evs sm c' zs' c2 EC E SE EQ ST NB IO MG L F B T CO C IH]; intros l3 K3.
  - discriminate W.
  - apply IH; [exact W|]. pose proof (replicate_keeps bl ev st (World c cs []) _ _ (proj1 K3) E) as O. cbn [w_client] in O. unfold msaved in *. now rewrite O.
  - injection W as <- _. cbn [ms_items]. destruct (mstep bl ev st log c l3 cs ck w1 w' qs a q b l is its pk w2 n evs sm c' ID LF K3 EC E SE EQ ST NB IO MG L F B T CO) as (_ & _ & _ & _ & _ & ->). exact MG.
Qed.
(* a group that one connection moved the position past is not written by the server on a later one *)
Theorem C82_passed_not_sent : forall bl ev st log c xs x ys y zs c2 l t u, s_server_id st < 4294967296 -> mlog_fine log ->
  msaved c l -> mcontacts bl ev st log c (xs ++ x :: ys ++ y :: zs) c2 ->
  In t (gpassed (ms_cut x) (ms_items x)) -> In u (mstream_groups (ms_items y)) -> (group_domain t, group_seq t) <> (group_domain u, group_seq u).
Proof.
  intros bl ev st log c xs x ys y zs c2 l t u ID LF K C H1 H2. destruct (mcontacts_app bl ev st log c xs _ c2 C) as (c1 & C1 & C2).
  destruct (C82_delivery bl ev st log c xs c1 l ID LF K C1) as (l1 & r1 & K1 & _ & _). change (x :: ys ++ y :: zs) with ((x :: ys) ++ y :: zs) in C2.
  destruct (mcontacts_app bl ev st log c1 (x :: ys) _ c2 C2) as (c3 & C3 & C4).
  destruct (C82_delivery bl ev st log c1 (x :: ys) c3 l1 ID LF K1 C3) as (l3 & r3 & K3 & S & S3).
  pose proof (mfirst bl ev st log c3 y zs c2 l3 ID LF K3 C4) as G.
  rewrite G, S3 in H2. cbn [mpassed flat_map] in S. apply in_split in H1. destruct H1 as (p1 & p2 & H1). rewrite H1 in S.
  destruct LF as [LI _]. pose proof (increasing_filter (beyond l1) log LI) as I. fold (to_send l1 log) in I.
  rewrite <- !app_assoc in S. cbn [app] in S. apply (increasing_distinct _ I p1 t _ u S). rewrite !in_app_iff. auto.
Qed.
Print Assumptions C82_passed_not_sent.
(* a group taken completely on one connection is not written by the server on a later one *)
Theorem C82_not_sent_again : forall bl ev st log c xs x ys y zs c2 l t u, s_server_id st < 4294967296 -> mlog_fine log ->
  msaved c l -> mcontacts bl ev st log c (xs ++ x :: ys ++ y :: zs) c2 ->
  In t (gcompleted (ms_cut x) (ms_items x)) -> In u (mstream_groups (ms_items y)) -> (group_domain t, group_seq t) <> (group_domain u, group_seq u).
Proof.
  intros bl ev st log c xs x ys y zs c2 l t u ID LF K C H1 H2. apply (C82_passed_not_sent bl ev st log c xs x ys y zs c2 l t u ID LF K C); [|exact H2].
  destruct (gpassed_split (ms_items x) (ms_cut x)) as (v & -> & _). apply in_or_app. now left.
Qed.
Print Assumptions C82_not_sent_again.
(* and a group written is among those to be sent next exactly if the connection did not move the position past it *)
Theorem C82_sent_again_iff : forall bl ev st log c x c2 l, s_server_id st < 4294967296 -> mlog_fine log ->
  msaved c l -> mcontacts bl ev st log c [x] c2 ->
  exists l2, msaved c2 l2 /\ forall t, In t (mstream_groups (ms_items x)) -> (In t (to_send l2 log) <-> ~ In t (gpassed (ms_cut x) (ms_items x))).
Proof.
  intros bl ev st log c x c2 l ID LF K C. destruct (C82_delivery bl ev st log c [x] c2 l ID LF K C) as (l2 & rest & K2 & S1 & S2).
  exists l2. split; [exact K2|]. unfold mpassed in S1. cbn [flat_map] in S1. rewrite app_nil_r in S1. rewrite (mfirst bl ev st log c x [] c2 l ID LF K C), S2, S1. intros t Ht.
  destruct LF as [LI _]. pose proof (increasing_filter (beyond l) log LI) as I. fold (to_send l log) in I. rewrite S1 in I.
  split.
  - intros H1 H2. apply in_split in H2. destruct H2 as (p1 & p2 & H2). rewrite H2, <- app_assoc in I. cbn [app] in I. apply (increasing_distinct _ I p1 t (p2 ++ rest) t eq_refl); [|reflexivity]. apply in_or_app. now right.
  - intros H. apply in_app_or in Ht. tauto.
Qed.
Print Assumptions C82_sent_again_iff.
(* two connections, two domains: the first connection breaks in the second group *)
Definition g82 (d n : N) : mgtid := MGtid d 3 n.
Definition rows82 : group := GBlock (hx 162 42 400) (MariaGtid (g82 0 11) 2)
  [(hx 19 107 507, EvTableMap (table_map_of ex_table)); (hx 32 60 567, EvDelete (rows_event_of ex_table ex_rows))] (hx 16 31 598, EvXid 9).
Definition ddl82 : group := GAlone (hx 162 42 640) (MariaGtid (g82 1 5) 1) [] (hx 2 80 720, EvQuery q_create).
Definition old82 : group := GAlone (hx 162 42 300) (MariaGtid (g82 0 10) 1) [] (hx 2 80 380, EvQuery q_create).
Definition log82 : list group := [old82; rows82; ddl82].
Definition pk_rows82 : list packet :=
  [pk66 (hx 162 42 400) (maria_gtid_bytes 2 (g82 0 11) (repeat (n2b 0) 6) ++ crc4) 2; pk66 (hx 19 107 507) (table_bytes ex_table ++ crc4) 3;
   pk66 (hx 32 60 567) (rows_bytes ex_table ex_rows ++ crc4) 4; pk66 (hx 16 31 598) (le_enc 8 9 ++ crc4) 5].
Definition pk_ddl82 : list packet := [pk66 (hx 162 42 640) (maria_gtid_bytes 1 (g82 1 5) (repeat (n2b 0) 6) ++ crc4) 6; pk66 (hx 2 80 720) (query_bytes q_create ++ crc4) 7].
Lemma w_rows82 es ps w2 ts : log_written (Writer CkCrc32 (ex_table :: ts)) es ps w2 -> log_written (Writer CkCrc32 ts) (group_events rows82 ++ es) (pk_rows82 ++ ps) w2.
Proof.
  intros H. unfold pk_rows82, rows82, pk66. cbn [group_events app].
  apply (lw_event _ _ _ _ (Writer CkCrc32 ts)); [head66| |split; vm_compute; reflexivity|]. { apply wr_maria_gtid; try reflexivity. repeat split. }
  apply (lw_event _ _ _ _ (Writer CkCrc32 (ex_table :: ts))); [head66| |split; vm_compute; reflexivity|].
  { apply (wr_table (Writer CkCrc32 ts)); [reflexivity|exact ex_table_ok|reflexivity]. }
  apply (lw_event _ _ _ _ (Writer CkCrc32 (ex_table :: ts))); [head66| |split; vm_compute; reflexivity|].
  { apply (wr_rows _ _ ex_table); [apply rw_delete2; [exact ex_rows_ok|reflexivity]|now left|reflexivity|reflexivity]. }
  apply (lw_event _ _ _ _ (Writer CkCrc32 (ex_table :: ts))); [head66| |split; vm_compute; reflexivity|exact H].
  apply wr_service; [apply sv_xid; reflexivity|reflexivity].
Qed.
Lemma w_ddl82 es ps w2 ts : log_written (Writer CkCrc32 ts) es ps w2 -> log_written (Writer CkCrc32 ts) (group_events ddl82 ++ es) (pk_ddl82 ++ ps) w2.
Proof.
  intros H. unfold pk_ddl82, ddl82, pk66. cbn [group_events app].
  apply (lw_event _ _ _ _ (Writer CkCrc32 ts)); [head66| |split; vm_compute; reflexivity|]. { apply wr_maria_gtid; try reflexivity. repeat split. }
  apply (lw_event _ _ _ _ (Writer CkCrc32 ts)); [head66| |split; vm_compute; reflexivity|exact H].
  apply wr_service; [|reflexivity]. apply sv_query. do 4 (split; [vm_compute; reflexivity|]). split; [repeat constructor|]. split; [vm_compute; reflexivity|repeat constructor].
Qed.
Definition items82_1 : list mitem := [MService ev_fd; MGroup rows82; MGroup ddl82].
Definition items82_2 : list mitem := [MService ev_fd; MGroup ddl82].
Definition pk82_1 : list packet := pk_fd ++ pk_rows82 ++ pk_ddl82.
Definition pk82_2 : list packet := pk_fd ++ pk_ddl82.
Definition cut82 : nat := length (flat_map wire (pk_fd ++ pk_rows82)) + 60.
Definition in82 (ps : list packet) (n : nat) : list portion :=
  [Got (flat_map wire (number ([maria_hello; okp] ++ good_answers ++ [okp; okp; okp; okp; okp])) ++ firstn n (flat_map wire ps))].
Definition logged82 (c : client) (ps : list packet) (n : nat) : world := snd (connect Release env0 st0 (World c (in82 ps n) [])).
Definition link82 (c : client) (ps : list packet) (n : nat) : world := snd (replicate Release env0 st0 (World c (in82 ps n) [])).
Definition c82_0 : client := client_new (from_mariadb_gtid [g82 0 10]).
Definition w82_1 : world := Eval vm_compute in link82 c82_0 pk82_1 cut82.
Definition c82_1 : client := Eval vm_compute in client74 (commit_all Release (w_client w82_1) (firstn 6 (mstream_events items82_1))).
Definition w82_2 : world := Eval vm_compute in link82 c82_1 pk82_2 1000.
Definition c82_2 : client := Eval vm_compute in client74 (commit_all Release (w_client w82_2) (mstream_events items82_2)).
Definition req82 (c : client) (ps : list packet) (n : nat) (w : world) : list packet := skipn (length (sent (w_log (logged82 c ps n)))) (sent (w_log w)).
Ltac told82 := match goal with |- states ?q ?l => apply (asks_states l q); [repeat constructor|repeat constructor; cbn; intuition discriminate|vm_compute; reflexivity] end.
Ltac untold82 := intros l (bs & rs & Q & D & _); vm_compute in Q; try discriminate Q; injection Q as <-; vm_compute in D; discriminate D.
Example C82_example : mcontacts Release env0 st0 log82 c82_0 [MSession items82_1 6; MSession items82_2 3] c82_2 /\
  mlog_fine log82 /\ msaved c82_0 [g82 0 10] /\ to_send [g82 0 10] log82 = [rows82; ddl82] /\
  mdelivered [MSession items82_1 6; MSession items82_2 3] = [rows82; ddl82] /\
  option_map gtid_list_text (o_list (c_opts c82_2)) = Some (tx "0-3-11,1-3-5").
Proof.
  split; [|split; [|split; [|split; [|split]]]].
  - assert (L1 : log_written (Writer CkCrc32 []) (mstream_events items82_1) pk82_1 (Writer CkCrc32 [ex_table])).
    { unfold items82_1, pk82_1, mstream_events. cbn [flat_map mitem_events]. change ([ev_fd] ++ ?x) with (ev_fd :: x). apply w_fd, w_rows82. rewrite <- (app_nil_r pk_ddl82). apply w_ddl82. constructor. }
    assert (L2 : log_written (Writer CkCrc32 []) (mstream_events items82_2) pk82_2 (Writer CkCrc32 [])).
    { unfold items82_2, pk82_2, mstream_events. cbn [flat_map mitem_events]. change ([ev_fd] ++ ?x) with (ev_fd :: x). apply w_fd. rewrite <- (app_nil_r pk_ddl82). apply w_ddl82. constructor. }
    destruct (C66_events_partial Release CkCrc32 _ _ _ (w_in w82_1) cut82 L1) as (s1 & T1 & _); [repeat constructor; discriminate|vm_compute; reflexivity|].
    replace (arrived cut82 pk82_1) with 6%nat in T1 by (vm_compute; reflexivity).
    destruct (C66_events_partial Release CkCrc32 _ _ _ (w_in w82_2) 1000 L2) as (s2 & T2 & _); [repeat constructor; discriminate|vm_compute; reflexivity|].
    replace (arrived 1000 pk82_2) with 3%nat in T2 by (vm_compute; reflexivity).
    change 6%nat with (length (firstn 6 (mstream_events items82_1))) at 1. change 3%nat with (length (firstn 3 (mstream_events items82_2))).
    eapply (mc_stream Release env0 st0 log82 c82_0 (in82 pk82_1 cut82) CkCrc32 (logged82 c82_0 pk82_1 cut82) w82_1 (req82 c82_0 pk82_1 cut82 w82_1)
      (firstn 4 (req82 c82_0 pk82_1 cut82 w82_1)) (fst (nth 4 (req82 c82_0 pk82_1 cut82 w82_1) ([], 9))) (skipn 5 (req82 c82_0 pk82_1 cut82 w82_1)) [g82 0 10]).
    + vm_compute. reflexivity.
    + vm_compute. reflexivity.
    + vm_compute. reflexivity.
    + vm_compute. reflexivity.
    + told82.
    + match goal with |- Forall _ ?x => let y := eval vm_compute in x in change x with y end. repeat constructor; cbn [fst]; untold82.
    + repeat constructor.
    + vm_compute. reflexivity.
    + exact (sent_written _ _ _ _ L1).
    + repeat constructor; discriminate.
    + instantiate (1 := cut82). vm_compute. reflexivity.
    + exact T1.
    + instantiate (1 := c82_1). vm_compute. reflexivity.
    + eapply (mc_stream Release env0 st0 log82 c82_1 (in82 pk82_2 1000) CkCrc32 (logged82 c82_1 pk82_2 1000) w82_2 (req82 c82_1 pk82_2 1000 w82_2)
        (firstn 4 (req82 c82_1 pk82_2 1000 w82_2)) (fst (nth 4 (req82 c82_1 pk82_2 1000 w82_2) ([], 9))) (skipn 5 (req82 c82_1 pk82_2 1000 w82_2)) [g82 0 11]).
      * vm_compute. reflexivity.
      * vm_compute. reflexivity.
      * vm_compute. reflexivity.
      * vm_compute. reflexivity.
      * told82.
      * match goal with |- Forall _ ?x => let y := eval vm_compute in x in change x with y end. repeat constructor; cbn [fst]; untold82.
      * repeat constructor.
      * vm_compute. reflexivity.
      * exact (sent_written _ _ _ _ L2).
      * repeat constructor; discriminate.
      * instantiate (1 := 1000%nat). vm_compute. reflexivity.
      * exact T2.
      * instantiate (1 := c82_2). vm_compute. reflexivity.
      * constructor.
  - split; [|repeat constructor; vm_compute; reflexivity]. cbn. repeat split; repeat constructor; vm_compute; intros; congruence.
  - repeat split; repeat constructor; cbn; intuition discriminate.
  - vm_compute. reflexivity.
  - reflexivity.
  - vm_compute. reflexivity.
Qed.

(* a group with two statements, cut after the first: the group is not complete, and yet nothing of it is sent again *)
Definition q_ins (n : String.string) : query := Query 9 0 0 [] (tx "shop") (tx "INSERT INTO x VALUES (" ++ tx n ++ tx ")").
Definition stmt82 : group := GBlock (hx 162 42 400) (MariaGtid (g82 0 11) 2) [(hx 2 80 480, EvQuery (q_ins "1")); (hx 2 80 560, EvQuery (q_ins "2"))] (hx 16 31 591, EvXid 9).
Definition pk_stmt82 : list packet :=
  [pk66 (hx 162 42 400) (maria_gtid_bytes 2 (g82 0 11) (repeat (n2b 0) 6) ++ crc4) 2; pk66 (hx 2 80 480) (query_bytes (q_ins "1") ++ crc4) 3;
   pk66 (hx 2 80 560) (query_bytes (q_ins "2") ++ crc4) 4; pk66 (hx 16 31 591) (le_enc 8 9 ++ crc4) 5].
Definition items82_s : list mitem := [MService ev_fd; MGroup stmt82].
Definition pk82_s : list packet := pk_fd ++ pk_stmt82.
Lemma w_stmt82 : log_written (Writer CkCrc32 []) (mstream_events items82_s) pk82_s (Writer CkCrc32 []).
Proof.
  unfold items82_s, pk82_s, mstream_events. cbn [flat_map mitem_events]. change ([ev_fd] ++ ?x) with (ev_fd :: x). apply w_fd. unfold pk_stmt82, stmt82, pk66. cbn [group_events app].
  apply (lw_event _ _ _ _ (Writer CkCrc32 [])); [head66| |split; vm_compute; reflexivity|]. { apply wr_maria_gtid; try reflexivity. repeat split. }
  do 2 (apply (lw_event _ _ _ _ (Writer CkCrc32 [])); [head66| |split; vm_compute; reflexivity|];
    [apply wr_service; [|reflexivity]; apply sv_query; do 4 (split; [vm_compute; reflexivity|]); split; [repeat constructor|]; split; [vm_compute; reflexivity|repeat constructor]|]).
  apply (lw_event _ _ _ _ (Writer CkCrc32 [])); [head66| |split; vm_compute; reflexivity|constructor].
  apply wr_service; [apply sv_xid; reflexivity|reflexivity].
Qed.
Definition cut82_s : nat := length (flat_map wire (firstn 3 pk82_s)) + 20.
Definition w82_s : world := Eval vm_compute in link82 c82_0 pk82_s cut82_s.
Definition c82_s : client := Eval vm_compute in client74 (commit_all Release (w_client w82_s) (firstn 3 (mstream_events items82_s))).
Theorem C82_statement_in_group_refuted : exists log c l x c2 l2, mlog_fine log /\ msaved c l /\ mcontacts Release env0 st0 log c [x] c2 /\ msaved c2 l2 /\
  to_send l log = [stmt82] /\ mdelivered [x] = [] /\ to_send l2 log = [].
Proof.
  destruct (C66_events_partial Release CkCrc32 _ _ _ (w_in w82_s) cut82_s w_stmt82) as (s & T & _); [repeat constructor; discriminate|vm_compute; reflexivity|].
  replace (arrived cut82_s pk82_s) with 3%nat in T by (vm_compute; reflexivity).
  exists [stmt82], c82_0, [g82 0 10], (MSession items82_s (length (firstn 3 (mstream_events items82_s)))), c82_s, [g82 0 11].
  split; [split; [repeat constructor|repeat constructor; vm_compute; reflexivity]|].
  split; [repeat split; try reflexivity; repeat constructor; cbn; intuition discriminate|].
  split; [|split; [repeat split; try reflexivity; repeat constructor; cbn; intuition discriminate|repeat split]].
  eapply (mc_stream Release env0 st0 [stmt82] c82_0 (in82 pk82_s cut82_s) CkCrc32 (logged82 c82_0 pk82_s cut82_s) w82_s (req82 c82_0 pk82_s cut82_s w82_s)
    (firstn 4 (req82 c82_0 pk82_s cut82_s w82_s)) (fst (nth 4 (req82 c82_0 pk82_s cut82_s w82_s) ([], 9))) (skipn 5 (req82 c82_0 pk82_s cut82_s w82_s)) [g82 0 10]).
  - vm_compute. reflexivity.
  - vm_compute. reflexivity.
  - vm_compute. reflexivity.
  - vm_compute. reflexivity.
  - told82.
  - match goal with |- Forall _ ?x => let y := eval vm_compute in x in change x with y end. repeat constructor; cbn [fst]; untold82.
  - repeat constructor.
  - vm_compute. reflexivity.
  - exact (sent_written _ _ _ _ w_stmt82).
  - repeat constructor; discriminate.
  - instantiate (1 := cut82_s). vm_compute. reflexivity.
  - exact T.
  - instantiate (1 := c82_s). vm_compute. reflexivity.
  - constructor.
Qed.
Print Assumptions C82_statement_in_group_refuted.
(* the group of two statements is passed with the first; had it begun with BEGIN it would not be *)
Example C82_passed_example : gpassed 3 items82_s = [stmt82] /\ gcompleted 3 items82_s = [] /\ gpassed 2 items82_s = [] /\
  gpassed 5 [MService ev_fd; MGroup (GBlock (hx 162 42 400) (MariaGtid (g82 0 11) 2) [(hx 2 80 450, EvQuery (Query 9 0 0 [] (tx "shop") (tx "BEGIN"))); (hx 2 80 480, EvQuery (q_ins "1")); (hx 2 80 560, EvQuery (q_ins "2"))] (hx 16 31 591, EvXid 9))] = [].
Proof. repeat split. Qed.
