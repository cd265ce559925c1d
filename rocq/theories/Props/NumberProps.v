(* Claimed properties of the sequence numbers of received packets (packet_channel.rs:21-32, binlog_events.rs:43-59): C97. *)
From Coq Require Import Strings.String.
From Verif Require Import Base.Tac Base.Bytes Base.Text Base.Res Base.Str Base.Parse Model.Gtid Model.GtidMaria Model.Rows Model.Events Model.Responses Model.Channel
  Model.Client Model.Commands Model.Session Spec.EventSpec Spec.TableSpec Spec.RowSpec Spec.ChannelSpec Spec.ClientSpec Spec.PipelineSpec Spec.SessionSpec Spec.TransportSpec Spec.TalkSpec
  Proofs.ChannelProofs Proofs.TransportProofs Proofs.LoginProofs Props.RowProps Props.ClientProps Props.SessionProps Props.ChannelProps Props.PipelineProps Props.TransportProps Props.TalkProps.
Local Open Scope N_scope.

(* the same bodies, with whatever numbers *)
Definition same_bodies (a b : list packet) : Prop := map fst a = map fst b.
(* every packet has the number after that of the packet before it, modulo 256 *)
Definition in_sequence (ps : list packet) : Prop :=
  forall i p q, nth_error ps i = Some p -> nth_error ps (S i) = Some q -> snd q = (snd p + 1) mod 256.

(* ---- lists of packets with the same bodies ---- *)
Lemma same_cons p ps b : same_bodies (p :: ps) b -> exists q qs, b = q :: qs /\ fst p = fst q /\ same_bodies ps qs.
Proof. unfold same_bodies. destruct b as [|q qs]; cbn [map]; intros H; [discriminate|]. injection H as H1 H2. exists q, qs. auto. Qed.
Lemma same_nil b : same_bodies [] b -> b = [].
Proof. unfold same_bodies. destruct b; [reflexivity|discriminate]. Qed.
Lemma same_app a1 a2 b : same_bodies (a1 ++ a2) b -> exists b1 b2, b = b1 ++ b2 /\ same_bodies a1 b1 /\ same_bodies a2 b2.
Proof.
  revert b. induction a1 as [|p a1 IH]; intros b H; cbn [app] in H.
  - exists [], b. split; [reflexivity|]. split; [reflexivity|exact H].
  - apply same_cons in H. destruct H as (q & qs & -> & E & H). destruct (IH qs H) as (b1 & b2 & -> & H1 & H2). exists (q :: b1), b2.
    split; [reflexivity|]. split; [unfold same_bodies in *; cbn [map]; congruence|exact H2].
Qed.
Lemma same_forall (P : list byte -> Prop) a b : same_bodies a b -> Forall (fun p => P (fst p)) a -> Forall (fun p => P (fst p)) b.
Proof. unfold same_bodies. intros S F. rewrite <- Forall_map in *. now rewrite <- S. Qed.
Lemma same_length a b : same_bodies a b -> length a = length b.
Proof. intros H. rewrite <- (map_length fst a), <- (map_length fst b). now rewrite H. Qed.
Ltac split_same := repeat match goal with
  | H : same_bodies (_ :: _) _ |- _ => apply same_cons in H; let q := fresh "q" in let qs := fresh "qs" in let E := fresh "E" in destruct H as (q & qs & -> & E & H); try (rewrite E in *)
  | H : same_bodies [] _ |- _ => apply same_nil in H; subst
  | H : same_bodies (_ ++ _) _ |- _ => apply same_app in H; let a := fresh "a" in let b := fresh "b" in let S1 := fresh "S" in let S2 := fresh "S" in destruct H as (a & b & -> & S1 & S2)
  end.
Lemma rows_open_same a b rows : same_bodies a b -> rows_open a rows -> rows_open b rows.
Proof.
  intros S (first & cols & e & rps & -> & H1 & H2 & H3 & H4). split_same.
  match goal with H : same_bodies cols ?c, K : same_bodies rps ?r |- _ => rename H into SC, K into SR; rename c into cols', r into rps' end.
  match goal with |- rows_open (?f :: cols' ++ ?x :: rps') _ => exists f, cols', x, rps' end.
  split; [reflexivity|]. split; [assumption|]. split; [exact (same_forall _ _ _ SC H2)|]. split; [assumption|].
  clear - SR H4. revert rps' SR. induction H4 as [|p row ps rows (I1 & I2 & I3) H4 IH]; intros rps' SR; split_same; constructor; auto. unfold is_row. auto.
Qed.
Lemma rows_are_same a b rows : same_bodies a b -> rows_are a rows -> rows_are b rows.
Proof.
  intros S (k & e & -> & H1 & H2). split_same. match goal with |- rows_are (?x ++ [?y]) _ => exists x, y end. split; [reflexivity|].
  split; [|assumption]. eapply rows_open_same; eassumption.
Qed.
Lemma sha_same bl ev st sc a b : same_bodies a b -> Forall (fun p => counts bl (snd p)) b -> sha_ok bl ev st sc a -> sha_ok bl ev st sc b.
Proof.
  intros S F [(d & s & ->)|(x & key & fin & -> & H1 & H2 & H3 & H4 & H5 & H6)]; split_same.
  - left. match goal with E : _ = fst ?z |- _ => exists d, (snd z); destruct z; cbn [fst snd] in *; now rewrite <- E end.
  - right. match goal with |- exists x key fin, [?u; ?v; ?z] = _ /\ _ => exists u, v, z end.
    apply Forall_cons_iff in F. destruct F as [_ F]. apply Forall_cons_iff in F. destruct F as [F _]. auto 10.
Qed.
Lemma login_same bl ev st a b pr : same_bodies a b -> Forall (fun p => counts bl (snd p)) b -> login_ok bl ev st a pr -> login_ok bl ev st b pr.
Proof.
  intros S F (g & h & qs & -> & (G1 & G2 & G3 & _) & PL & PR & D). split_same. rename q into g', qs0 into b. apply Forall_cons_iff in F. destruct F as [F1 F].
  exists g', h, b. split; [reflexivity|]. split; [unfold greeted; auto|]. split; [exact PL|]. split; [exact PR|].
  destruct D as [(x & -> & A)|[(x & rs & -> & A1 & A2 & A3)|[(x & sc & A1 & A2 & y & -> & A3)|(x & sc & A1 & A2 & y & rs & -> & A3 & A4 & A5)]]].
  - split_same. left. eauto.
  - pose proof S as S0. apply same_cons in S. destruct S as (x' & qs' & -> & Ex & S). rewrite Ex in *. right. left. apply Forall_cons_iff in F as F'. destruct F' as [F2 F3].
    exists x', qs'. split; [reflexivity|]. split; [assumption|]. split; [exact F2|]. exact (sha_same _ _ _ _ _ _ S0 F A3).
  - split_same. right. right. left. apply Forall_cons_iff in F. destruct F as [F2 _]. match goal with |- context [[?u; ?v] = _] => exists u, sc; split; [assumption|]; split; [exact F2|]; exists v end. auto.
  - apply same_cons in S. destruct S as (x' & qs' & -> & Ex & S). rewrite Ex in *. pose proof S as S0. apply same_cons in S. destruct S as (y' & rs' & -> & E' & S). rewrite E' in *. right. right. right. apply Forall_cons_iff in F. destruct F as [F2 F3].
    apply Forall_cons_iff in F3 as F3'. destruct F3' as [F4 _]. exists x', sc. split; [assumption|]. split; [exact F2|].
    exists y', rs'. split; [reflexivity|]. split; [assumption|]. split; [exact F4|]. exact (sha_same _ _ _ _ _ _ S0 F3 A5).
Qed.
Lemma talk_same bl ev st o a b o' ck : same_bodies a b -> Forall (fun p => counts bl (snd p)) b -> talk_ok bl ev st o a o' ck -> talk_ok bl ev st o b o' ck.
Proof.
  intros S F (p1 & p2 & p3 & pr & -> & L & (qs & rs & cells & rows & -> & (us & a1 & a2 & -> & SS & A1 & A2) & R) & Q & SH).
  apply same_app in S. destruct S as (b1 & b0 & -> & S1 & S). apply same_app in S. destruct S as (b2 & b3 & -> & S2 & S3).
  apply Forall_app in F. destruct F as [F1 _]. exists b1, b2, b3, pr. split; [reflexivity|]. split; [exact (login_same _ _ _ _ _ _ S1 F1 L)|]. split.
  - apply same_app in S2. destruct S2 as (c1 & c2 & -> & T1 & T2). exists c1, c2, cells, rows. split; [reflexivity|]. split; [|exact (rows_are_same _ _ _ T2 R)].
    apply same_app in T1. destruct T1 as (d1 & d2 & -> & U1 & U2). split_same. match goal with |- started _ (_ ++ [?x; ?y]) _ => exists d1, x, y end.
    split; [reflexivity|]. split; [|auto]. destruct SS as [(K1 & -> & K2)|(K1 & file & ptext & pos & cs & K2 & K3 & K4)].
    + left. split_same. auto.
    + right. split; [exact K1|]. exists file, ptext, pos, cs. split; [exact (rows_are_same _ _ _ U1 K2)|auto].
  - split; [|exact SH]. destruct pr; cbn [request_ok] in *.
    + destruct Q as (Q1 & Q2 & Q3). split; [exact (same_forall _ _ _ S3 Q1)|]. split; [now rewrite <- (same_length _ _ S3)|exact Q3].
    + destruct Q as [-> Q]. split_same. auto.
Qed.

(* ---- C97 ---- *)
(* what the iterator hands out, call by call and for any number of calls, is the same whatever the numbers are *)
Theorem C97_stream_exact : forall bl st n ps1 ps2 cs1 cs2 t rest, same_bodies ps1 ps2 -> pending cs1 ps1 t rest -> pending cs2 ps2 t rest ->
  calls (stream_next bl) n (Stream cs1 st) = calls (stream_next bl) n (Stream cs2 st).
Proof.
  intros bl st n. revert st. induction n as [|n IH]; intros st ps1 ps2 cs1 cs2 t rest S P1 P2; [reflexivity|].
  destruct ps1 as [|p1 ps1].
  - apply same_nil in S. subst ps2. apply C86_stream. destruct P1 as (c1 & -> & F1 & B1 & _), P2 as (c2 & -> & F2 & B2 & _).
    rewrite !arrivals_app, (arrivals_flowing c1 F1), (arrivals_flowing c2 F2). now rewrite B1, B2.
  - apply same_cons in S. destruct S as (p2 & qs & -> & E & S). destruct P1 as (c1 & -> & F1 & B1 & Q1), P2 as (c2 & -> & F2 & B2 & Q2).
    apply Forall_cons_iff in Q1. apply Forall_cons_iff in Q2. destruct Q1 as [Q1 R1], Q2 as [Q2 R2]. cbn [flat_map] in B1, B2. rewrite <- app_assoc in B1, B2.
    destruct (read_packet_ok c1 p1 _ rest Q1 F1 B1) as (d1 & X1 & G1 & D1). destruct (read_packet_ok c2 p2 _ rest Q2 F2 B2) as (d2 & X2 & G2 & D2).
    assert (N1 : pending (d1 ++ rest) ps1 t rest) by (exists d1; auto). assert (N2 : pending (d2 ++ rest) qs t rest) by (exists d2; auto).
    pose proof (fun st' => IH st' ps1 qs _ _ t rest S N1 N2) as K. destruct p1 as [b1 s1], p2 as [b2 s2]. cbn [fst] in E. subst b2.
    cbn [calls]. unfold stream_next at 1 3. cbn [sm_in sm_parser]. rewrite X1, X2.
    destruct (byte_at b1 0) as [b|e| |]; try (f_equal; apply K).
    destruct (b =? resp_ok); [destruct (stream_event bl st b1) as [[[h e] st']|e| |]; f_equal; apply K|].
    destruct (b =? resp_error); [f_equal; apply K|]. destruct (b =? resp_eof); f_equal; apply K.
Qed.
Print Assumptions C97_stream_exact.
(* setting up replication: it succeeds with all numbers or with none, with the same outcome and the same packets left for the event
   stream.  (With overflow checks the number 255 is not among them: C72.) *)
Theorem C97_setup_exact : forall bl ev st w1 w2 ps1 ps2 qs t rest o' ck, hashes ev -> rsa_fits ev -> (forall k m, rsa (e_crypto ev) k m <> Diverge) -> caller_fits ev st (c_opts (w_client w1)) ->
  w_client w2 = w_client w1 -> same_bodies ps1 ps2 -> (bl = Debug -> Forall (fun p => snd p <> 255) ps2) ->
  pending (w_in w1) (ps1 ++ qs) t rest -> pending (w_in w2) (ps2 ++ qs) t rest -> talk_ok bl ev st (c_opts (w_client w1)) ps1 o' ck ->
  exists w1' w2', replicate bl ev st w1 = (Ok ck, w1') /\ replicate bl ev st w2 = (Ok ck, w2') /\ w_client w1' = w_client w2' /\
    pending (w_in w1') qs t rest /\ pending (w_in w2') qs t rest.
Proof.
  intros bl ev st w1 w2 ps1 ps2 qs t rest o' ck HH RS RD CF C S N P1 P2 T.
  destruct (C92_succeeds_sent bl ev st w1 ps1 qs t rest o' ck HH RS RD CF P1 T) as (w1' & l1 & A1 & A2 & _ & _ & A3).
  assert (T2 : talk_ok bl ev st (c_opts (w_client w2)) ps2 o' ck).
  { rewrite C. apply (talk_same bl ev st _ ps1 ps2); [exact S| |exact T]. unfold counts. destruct bl; [|apply Forall_forall; intros p _ Z; discriminate Z].
    eapply Forall_impl; [|exact (N eq_refl)]. cbv beta. auto. }
  rewrite <- C in CF. destruct (C92_succeeds_sent bl ev st w2 ps2 qs t rest o' ck HH RS RD CF P2 T2) as (w2' & l2 & B1 & B2 & _ & _ & B3).
  exists w1', w2'. rewrite A2, B2. auto.
Qed.
Print Assumptions C97_setup_exact.
(* packets that say nothing about the decoding of others (all but table maps and format descriptions), lost (k = 0) or repeated (k >= 2)
   anywhere: everything else is handed out as ever, without an error, whatever the numbers are *)
Lemma streamed_app bl s1 a ia s2 b ib s3 : streamed bl s1 a ia s2 -> streamed bl s2 b ib s3 -> streamed bl s1 (a ++ b) (ia ++ ib) s3.
Proof. intros H K. induction H; cbn [app]; [exact K|..]; econstructor; eauto. Qed.
Lemma streamed_times bl s x ix k : streamed bl s x ix s -> streamed bl s (concat (repeat x k)) (concat (repeat ix k)) s.
Proof. intros H. induction k as [|k IH]; cbn [repeat concat]; [constructor|]. exact (streamed_app _ _ _ _ _ _ _ _ H IH). Qed.
Theorem C97_lost_or_repeated : forall bl st a ia s1 x ix b ib s2 k ps cs t,
  streamed bl st a ia s1 -> streamed bl s1 x ix s1 -> streamed bl s1 b ib s2 -> Forall said_ok (a ++ x ++ b) ->
  map fst ps = map said_body (a ++ concat (repeat x k) ++ b) -> Forall packet_ok ps -> flowing cs -> in_bytes cs = flat_map wire ps ++ t ->
  exists cs', takes bl (Stream cs st) (ia ++ concat (repeat ix k) ++ ib) (Stream cs' s2) /\ in_bytes cs' = t.
Proof.
  intros bl st a ia s1 x ix b ib s2 k ps cs t A X B O M P F E. apply Forall_app in O. destruct O as [O1 O]. apply Forall_app in O. destruct O as [O2 O3].
  assert (S : streamed bl st (a ++ concat (repeat x k) ++ b) (ia ++ concat (repeat ix k) ++ ib) s2) by (eapply streamed_app; [exact A|]; eapply streamed_app; [apply streamed_times; exact X|exact B]).
  destruct (C57_stream_in_order_partial bl st _ _ s2 ps cs t S) as (cs' & T & _ & I); auto; [|eauto].
  apply Forall_app. split; [exact O1|]. apply Forall_app. split; [|exact O3]. clear - O2. induction k as [|k IH]; cbn [repeat concat]; [constructor|]. apply Forall_app. auto.
Qed.
Print Assumptions C97_lost_or_repeated.
(* A transaction of which the packet with the rows gets lost on the way: the numbers jump, no error is handed out, and the saved set
   has the transaction. *)
Definition lost66 : list packet := firstn 4 packets66 ++ skipn 5 packets66.
Theorem C97_noticed_refuted : exists ps ps' evs evs' c c', in_sequence ps /\ ps' = firstn 4 ps ++ skipn 5 ps /\ ~ in_sequence ps' /\ evs' = firstn 4 evs ++ skipn 5 evs /\
  calls (stream_next Release) (length evs) (stream_new [Got (flat_map wire ps)] CkCrc32) = map (fun x => Ok (Some (inl x))) evs /\
  calls (stream_next Release) (length evs') (stream_new [Got (flat_map wire ps')] CkCrc32) = map (fun x => Ok (Some (inl x))) evs' /\
  commit_all Release (client_new (from_mysql_gtid set1)) evs = Ok c /\ commit_all Release (client_new (from_mysql_gtid set1)) evs' = Ok c' /\ o_set (c_opts c) = o_set (c_opts c').
Proof.
  exists packets66, lost66, (stream_events items66), (firstn 4 (stream_events items66) ++ skipn 5 (stream_events items66)). eexists. eexists.
  split; [|split; [reflexivity|split; [|split; [reflexivity|split; [vm_compute; reflexivity|split; [vm_compute; reflexivity|split; [vm_compute; reflexivity|split; [vm_compute; reflexivity|vm_compute; reflexivity]]]]]]]].
  - intros i p q E1 E2. assert (L : (S i < length packets66)%nat) by (apply nth_error_Some; congruence). change (length packets66) with 8%nat in L.
    assert (K : forall j, nth_error (map snd packets66) j = option_map snd (nth_error packets66 j)) by (intros j; apply nth_error_map).
    pose proof (K i) as K1. pose proof (K (S i)) as K2. rewrite E1 in K1. rewrite E2 in K2. change (map snd packets66) with [1; 2; 3; 4; 5; 6; 7; 8] in K1, K2. clear K E1 E2.
    do 7 (destruct i as [|i]; [cbn [nth_error option_map] in K1, K2; injection K1 as <-; injection K2 as <-; reflexivity|]). lia.
  - intros H. specialize (H 3%nat (nth 3 lost66 ([], 0)) (nth 4 lost66 ([], 0)) eq_refl eq_refl). vm_compute in H. discriminate H.
Qed.
Print Assumptions C97_noticed_refuted.
(* the packet with the rows as lost packet of C97_lost_or_repeated, and other numbers *)
Example C97_example : same_bodies packets66 (map (fun p => (fst p, 77)) packets66) /\ pending [Got (flat_map wire packets66)] packets66 [] [] /\
  pending [Got (flat_map wire (map (fun p => (fst p, 77)) packets66))] (map (fun p => (fst p, 77)) packets66) [] [].
Proof.
  assert (P : forall ps, forallb (fun p => (N.of_nat (length (fst p)) <? 16777216) && (snd p <? 256)) ps = true -> pending [Got (flat_map wire ps)] ps [] []).
  { intros ps H. exists [Got (flat_map wire ps)]. split; [reflexivity|]. split; [repeat constructor; discriminate|]. split; [unfold in_bytes; cbn [flat_map]; reflexivity|].
    rewrite forallb_forall in H. apply Forall_forall. intros p I. apply H in I. apply andb_prop in I. unfold packet_ok. lia. }
  split; [unfold same_bodies; now rewrite map_map|]. split; apply P; vm_compute; reflexivity.
Qed.
(* a server that numbers its packets 0, 1, 2, ... and one that gives all of them the number 77 *)
Definition answers97 : list packet := number ([mysql_hello; okp] ++ good_answers).
Definition world97 (ps : list packet) : world := World (client_new o_here) [Got (flat_map wire ps)] [].
Example C97_example_setup : same_bodies answers97 (map (fun p => (fst p, 77)) answers97) /\
  fst (replicate Release env0 st0 (world97 answers97)) = Ok CkCrc32 /\ fst (replicate Release env0 st0 (world97 (map (fun p => (fst p, 77)) answers97))) = Ok CkCrc32 /\
  w_client (snd (replicate Release env0 st0 (world97 answers97))) = w_client (snd (replicate Release env0 st0 (world97 (map (fun p => (fst p, 77)) answers97)))).
Proof. split; [unfold same_bodies; now rewrite map_map|]. split; [vm_compute; reflexivity|]. split; vm_compute; reflexivity. Qed.
(* the event with the rows does not change the decoder: it can get lost *)
Example C97_example_lost : let h := hx 32 60 627 in let st := PState CkCrc32 [(t_id ex_table, table_map_of ex_table)] in
  streamed Release st [SEvent h (rows_bytes ex_table ex_rows ++ crc4)] [inl (h, EvDelete (rows_event_of ex_table ex_rows))] st.
Proof. cbv zeta. eapply st_event; [vm_compute; reflexivity|]. apply st_nil. Qed.
