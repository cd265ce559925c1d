(* Claimed properties of reconnecting to a MySQL server whatever its transactions consist of (C95). *)
From Coq Require Import Sorting.Permutation Strings.String.
From Verif Require Import Base.Tac Base.Bytes Base.Text Base.Res Base.Str Base.Parse Model.Gtid Model.GtidMaria Model.Events Model.Client Model.Commands
  Model.Responses Model.Channel Model.Session Spec.GtidSpec Spec.GtidMariaSpec Spec.ClientSpec Spec.EventSpec Spec.TableSpec Spec.RowSpec Spec.CommandSpec Spec.ChannelSpec
  Spec.SessionSpec Spec.PipelineSpec Spec.MariaSessionSpec Spec.GroupSessionSpec
  Proofs.GtidProofs Proofs.GtidSetProofs Proofs.ClientProofs Proofs.CommitTotal Proofs.CheckpointProofs Proofs.PositionProofs Proofs.SessionProofs Proofs.PlanProofs Proofs.LoginProofs Proofs.PipelineProofs
  Proofs.GroupSessionProofs Props.ClientProps Props.EventProps Props.RowProps Props.CommandProps Props.SessionProps Props.PipelineProps.
Local Open Scope N_scope.

(* ---- C95 ---- *)
Definition tlog_fine (log : list tgroup) : Prop :=
  Forall (fun t => stream_gtid_ok (me_gtid (tg_mark t)) /\ 0 < g_txn (me_gtid (tg_mark t))) log.
Lemma tpassed_In k is t : In t (tpassed k is) -> In t (tstream_groups is).
Proof.
  revert k. induction is as [|i is IH]; intros k H; [exact H|]. unfold tpassed in H. cbn [taken_parts] in H. rewrite filter_app, map_app, in_app_iff in H.
  unfold tstream_groups. cbn [flat_map]. apply in_or_app. destruct H as [H|H]; [left|right; exact (IH _ H)].
  apply in_map_iff in H. destruct H as (p & <- & H). apply filter_In in H. destruct H as [H _]. apply in_map_iff in H. destruct H as (u & <- & H). exact H.
Qed.
(* one connection *)
Lemma tstep bl ev st log c s cs ck w' ps p r is its pk w2 n evs sm c' :
  (forall s, Permutation s (e_order ev s)) -> s_server_id st < 4294967296 -> tlog_fine log -> saved c s ->
  lengths_fit c -> replicate bl ev st (World c cs []) = (Ok ck, w') -> sent (w_log w') = ps ++ [(p, 0)] -> srv_dump_gtid p = Some r ->
  Forall titem_ok is -> lacking (srv_has (sg_set r)) log (tstream_groups is) -> log_sent (Writer ck []) (tstream_events is) its pk w2 ->
  flowing (w_in w') -> in_bytes (w_in w') = firstn n (flat_map wire pk) ->
  takes bl (stream_new (w_in w') ck) (map inl evs) sm -> commit_all bl (w_client w') evs = Ok c' ->
  lacking (set_has s) log (tstream_groups is) /\
  exists s', saved c' s' /\ forall d m, set_has s' d m <-> set_has s d m \/ In (d, m) (map tgroup_id (tpassed (length evs) is)).
Proof.
  intros OR ID LF K LE E SE D IO MI L F B T CO.
  pose proof K as (M & S & K1 & K2 & K3 & PO). pose proof (replicate_keeps bl ev st (World c cs []) _ _ M E) as O. cbn [w_client] in O.
  pose proof (replicate_resets bl ev st (World c cs []) _ _ M E) as RT.
  apply (lacking_ext _ (set_has s)) in MI; [|exact (request_read bl ev st c s cs ck w' ps p r OR ID K LE E SE D)]. split; [exact MI|].
  destruct (taken_events bl ck _ its pk w2 (w_in w') n evs sm (w_client w') L F B T) as (es & EV2 & EL & EC & _). rewrite EC in CO. rewrite <- EL. clear T EC EL evs.
  assert (G : Forall (fun t => stream_gtid_ok (me_gtid (tg_mark t)) /\ 0 < g_txn (me_gtid (tg_mark t))) (tstream_groups is)).
  { apply Forall_forall. intros t Hi. apply (lacking_In _ _ _ MI) in Hi. unfold tlog_fine in LF. rewrite Forall_forall in LF. now apply LF. }
  assert (G1 : Forall (fun t => mysql_ok (me_gtid (tg_mark t))) (tstream_groups is)) by (eapply Forall_impl; [|exact G]; cbn beta; intros t [Ht _]; now apply stream_gtid_uuid).
  rewrite EV2 in CO. destruct (commit_tgroups bl is (length es) (w_client w') c' s IO G1) as (s' & Y1 & Y2 & Y3 & Y4 & Y5); unfold mode; rewrite ?O; auto.
  exists s'. split; [|exact Y5]. split; [exact Y1|]. split; [exact Y2|]. split; [exact Y3|]. split; [now apply Y4|]. split.
  - intros d Hd. apply Y5 in Hd. destruct Hd as [Hd|Hd]; [now apply (K3 d)|]. apply in_map_iff in Hd. destruct Hd as (t & Et & Ht). apply tpassed_In in Ht.
    rewrite Forall_forall in G. destruct (G t Ht) as [_ G0]. unfold tgroup_id in Et. injection Et as _ Et. lia.
  - apply (commit_pos bl (firstn (length es) (tstream_events is)) (w_client w') c'); [|now rewrite O|exact CO]. pose proof (sent_heads _ _ _ _ _ L) as WH. now apply ClientProofs.Forall_firstn.
Qed.
(* For every log, any number of connections and failed attempts, and whatever part of the bytes arrives each time: the
   saved set is the old one and the groups of which the part taken on some connection contains an end, or a statement
   that no BEGIN precedes *)
Theorem C95_saved : forall bl ev st log c xs c2 s, (forall s, Permutation s (e_order ev s)) -> s_server_id st < 4294967296 -> tlog_fine log ->
  saved c s -> tcontacts bl ev st log c xs c2 ->
  exists s2, saved c2 s2 /\ forall d n, set_has s2 d n <-> set_has s d n \/ In (d, n) (map tgroup_id (tpassed_all xs)).
Proof.
  intros bl ev st log c xs c2 s OR ID LF K C. revert s K.
  induction C as [c|c cs e w' xs c2 E C IH|c cs ck w' ps p r is its pk w2 n evs sm c' xs c2 LE E SE D IO MI L F B T CO C IH]; intros s K.
  - exists s. split; [exact K|]. cbn. tauto.
  - apply IH. pose proof (replicate_keeps bl ev st (World c cs []) _ _ (proj1 K) E) as O. cbn [w_client] in O. unfold saved in *. now rewrite O.
  - destruct (tstep bl ev st log c s cs ck w' ps p r is its pk w2 n evs sm c' OR ID LF K LE E SE D IO MI L F B T CO) as (_ & s1 & K1 & H1).
    destruct (IH s1 K1) as (s2 & K2 & H2). exists s2. split; [exact K2|]. intros d m. rewrite H2, H1. unfold tpassed_all. cbn [flat_map ts_cut ts_items].
    rewrite map_app, in_app_iff. tauto.
Qed.
Print Assumptions C95_saved.
Lemma tcontacts_app bl ev st log c xs ys c2 : tcontacts bl ev st log c (xs ++ ys) c2 -> exists c1, tcontacts bl ev st log c xs c1 /\ tcontacts bl ev st log c1 ys c2.
Proof.
  intros C. remember (xs ++ ys) as zs eqn:Z. revert xs ys Z.
  induction C as [c|c cs e w' zs c2 E C IH|c cs ck w' ps p r is its pk w2 n evs sm c' zs c2 LE E SE D IO MI L F B T CO C IH]; intros xs ys Z.
  - symmetry in Z. apply app_eq_nil in Z. destruct Z as [-> ->]. exists c. split; constructor.
  - destruct (IH xs ys Z) as (c1 & A & A'). exists c1. split; [eapply tc_failed; eauto|exact A'].
  - destruct xs as [|x xs]; cbn [app] in Z; [exists c; split; [constructor|]; rewrite <- Z; eapply tc_stream; eauto|]. injection Z as <- Z.
    destruct (IH xs ys Z) as (c1 & A & A'). exists c1. split; [eapply tc_stream; eauto|exact A'].
Qed.
Lemma tfirst bl ev st log c y ys c2 s : (forall s, Permutation s (e_order ev s)) -> s_server_id st < 4294967296 -> tlog_fine log ->
  saved c s -> tcontacts bl ev st log c (y :: ys) c2 -> lacking (set_has s) log (tstream_groups (ts_items y)).
Proof.
  intros OR ID LF K C. remember (y :: ys) as zs eqn:Z. revert s K.
  induction C as [c|c cs e w' zs c2 E C IH|c cs ck w' ps p r is its pk w2 n evs sm c' zs c2 LE E SE D IO MI L F B T CO C IH]; intros s K; [discriminate| |].
  - apply IH; [exact Z|]. pose proof (replicate_keeps bl ev st (World c cs []) _ _ (proj1 K) E) as O. cbn [w_client] in O. unfold saved in *. now rewrite O.
  - injection Z as <- <-. cbn [ts_items].
    exact (proj1 (tstep bl ev st log c s cs ck w' ps p r is its pk w2 n evs sm c' OR ID LF K LE E SE D IO MI L F B T CO)).
Qed.
(* which groups of the log a server writes on a connection: those not in the first set and not passed on a connection before *)
Theorem C95_sent_iff : forall bl ev st log c xs y ys c2 s t, (forall s, Permutation s (e_order ev s)) -> s_server_id st < 4294967296 -> tlog_fine log ->
  saved c s -> tcontacts bl ev st log c (xs ++ y :: ys) c2 ->
  In t (tstream_groups (ts_items y)) <->
  In t log /\ ~ set_has s (fst (tgroup_id t)) (snd (tgroup_id t)) /\ ~ In (tgroup_id t) (map tgroup_id (tpassed_all xs)).
Proof.
  intros bl ev st log c xs y ys c2 s t OR ID LF K C. destruct (tcontacts_app bl ev st log c xs _ c2 C) as (c1 & C1 & C2).
  destruct (C95_saved bl ev st log c xs c1 s OR ID LF K C1) as (s1 & K1 & H1).
  rewrite (lacking_In _ _ _ (tfirst bl ev st log c1 y ys c2 s1 OR ID LF K1 C2)), H1, <- surjective_pairing. tauto.
Qed.
Print Assumptions C95_sent_iff.

(* groups that settle with their last event and not before *)
Definition settles_last (t : tgroup) : Prop :=
  settles (tgroup_events t) = true /\ forall k, (k < length (tgroup_events t))%nat -> settles (firstn k (tgroup_events t)) = false.
Lemma parts_last is : Forall settles_last (tstream_groups is) -> forall k, tpassed k is = twhole k is.
Proof.
  induction is as [|i is IH]; intros H k; [reflexivity|]. unfold tstream_groups in H. cbn [flat_map] in H. apply Forall_app in H. destruct H as [Hi H].
  unfold tpassed, twhole. cbn [taken_parts]. rewrite !filter_app, !map_app. f_equal; [|exact (IH H _)].
  destruct i as [x|t]; cbn [titem_groups map filter fst snd] in *; [reflexivity|]. apply Forall_cons_iff in Hi. destruct Hi as [[H1 H2] _].
  rewrite firstn_length. destruct (Nat.leb_spec (length (tgroup_events t)) (Nat.min k (length (tgroup_events t)))) as [X|X].
  - rewrite firstn_all2 by lia. now rewrite H1.
  - rewrite H2 by lia. reflexivity.
Qed.
Lemma twhole_prefix is : forall k, exists rest, tstream_groups is = twhole k is ++ rest.
Proof.
  assert (Z : forall js, twhole 0 js = []).
  { induction js as [|i js IH]; [reflexivity|]. unfold twhole in *. cbn [taken_parts Nat.sub]. rewrite filter_app, map_app, IH, app_nil_r. now destruct i. }
  induction is as [|i is IH]; intros k; [now exists []|]. unfold twhole, tstream_groups in *. cbn [taken_parts flat_map]. rewrite filter_app, map_app.
  destruct (Nat.le_gt_cases (length (titem_events i)) k) as [Hk|Hk].
  - destruct (IH (k - length (titem_events i))%nat) as [rest ->]. exists rest. rewrite <- app_assoc. f_equal.
    destruct i as [x|t]; cbn [titem_groups map filter fst snd titem_events] in *; [reflexivity|]. rewrite firstn_all2 by lia. now rewrite Nat.leb_refl.
  - replace (k - length (titem_events i))%nat with 0%nat by lia. specialize (Z is). unfold twhole in Z. rewrite Z, app_nil_r.
    destruct i as [x|t]; cbn [titem_groups map filter fst snd titem_events] in *; [eexists; reflexivity|]. rewrite firstn_length.
    destruct (Nat.leb_spec (length (tgroup_events t)) (Nat.min k (length (tgroup_events t)))); [lia|]. eexists. reflexivity.
Qed.
Lemma lacking_nil_inv P a : lacking P [] a -> a = [].
Proof. inversion 1. reflexivity. Qed.
Lemma lacking_cons_inv P t l a : lacking P (t :: l) a ->
  (P (fst (tgroup_id t)) (snd (tgroup_id t)) /\ lacking P l a) \/ (~ P (fst (tgroup_id t)) (snd (tgroup_id t)) /\ exists r, a = t :: r /\ lacking P l r).
Proof. inversion 1; subst; [left; auto|right; split; eauto]. Qed.
Lemma lacking_grow P Q l : forall dn rest, NoDup (map tgroup_id l) -> lacking P l (dn ++ rest) ->
  (forall x, In x l -> (Q (fst (tgroup_id x)) (snd (tgroup_id x)) <-> P (fst (tgroup_id x)) (snd (tgroup_id x)) \/ In (tgroup_id x) (map tgroup_id dn))) -> lacking Q l rest.
Proof.
  induction l as [|t l IH]; intros dn rest Hnd H HQ.
  - apply lacking_nil_inv in H. apply app_eq_nil in H. destruct H as [-> ->]. constructor.
  - cbn [map] in Hnd. apply NoDup_cons_iff in Hnd. destruct Hnd as [Ht Hnd].
    apply lacking_cons_inv in H. destruct H as [[Hin H']|[Hin (r' & E & H')]].
    + apply lk_skip; [apply HQ; [now left|tauto]|]. apply (IH dn rest Hnd H'). intros x Hx. apply HQ. now right.
    + destruct dn as [|d dn]; cbn [app] in *.
      * subst rest. apply lk_send; [rewrite HQ by (now left); cbn; tauto|]. apply (IH [] r' Hnd H'). intros x Hx. rewrite HQ by now right. cbn. tauto.
      * injection E as -> <-. apply lk_skip; [apply HQ; [now left|right; now left]|].
        apply (IH dn rest Hnd H'). intros x Hx. rewrite HQ by now right. cbn [map In]. split; [|tauto].
        intros [Hi|[E|Hi]]; [tauto| |tauto]. exfalso. apply Ht. apply in_map_iff. exists x. auto.
Qed.
(* Missing from the full statement: groups that settle before their last event or never, for which it is false
   (C95_once_refuted); for those C95_saved and C95_sent_iff say what holds. *)
(* the groups completely taken, in order, are a prefix of those the client did not have, and the saved set leaves exactly the others *)
Theorem C95_delivery_partial : forall bl ev st log c xs c2 s todo, (forall s, Permutation s (e_order ev s)) -> s_server_id st < 4294967296 ->
  tlog_fine log -> NoDup (map tgroup_id log) -> Forall settles_last log ->
  saved c s -> tcontacts bl ev st log c xs c2 -> lacking (set_has s) log todo ->
  exists s2 rest, saved c2 s2 /\ todo = flat_map (fun x => twhole (ts_cut x) (ts_items x)) xs ++ rest /\ lacking (set_has s2) log rest.
Proof.
  intros bl ev st log c xs c2 s todo OR ID LF ND SL K C. revert s todo K.
  induction C as [c|c cs e w' xs c2 E C IH|c cs ck w' ps p r is its pk w2 n evs sm c' xs c2 LE E SE D IO MI L F B T CO C IH]; intros s todo K LK.
  - exists s, todo. auto.
  - apply (IH s); [|exact LK]. pose proof (replicate_keeps bl ev st (World c cs []) _ _ (proj1 K) E) as O. cbn [w_client] in O. unfold saved in *. now rewrite O.
  - destruct (tstep bl ev st log c s cs ck w' ps p r is its pk w2 n evs sm c' OR ID LF K LE E SE D IO MI L F B T CO) as (L1 & s1 & K1 & H1).
    assert (todo = tstream_groups is) as ->.
    { clear - LK L1. revert L1. generalize (tstream_groups is). induction LK as [|t l r Ht LK IH|t l r Ht LK IH]; intros g G.
      - symmetry. now apply lacking_nil_inv in G.
      - apply lacking_cons_inv in G. destruct G as [[_ G]|[G _]]; [auto|contradiction].
      - apply lacking_cons_inv in G. destruct G as [[G _]|[_ (r' & -> & G)]]; [contradiction|]. f_equal. auto. }
    assert (SL' : Forall settles_last (tstream_groups is)).
    { apply Forall_forall. intros t Ht. apply (lacking_In _ _ _ L1) in Ht. rewrite Forall_forall in SL. now apply SL. }
    rewrite (parts_last is SL') in H1. destruct (twhole_prefix is (length evs)) as [rest R]. rewrite R in LK.
    assert (LK2 : lacking (set_has s1) log rest).
    { apply (lacking_grow _ _ _ _ _ ND LK). intros x _. rewrite H1, <- surjective_pairing. tauto. }
    destruct (IH s1 rest K1 LK2) as (s2 & rest2 & K2 & -> & LK3). exists s2, rest2. split; [exact K2|]. split; [|exact LK3].
    cbn [flat_map ts_cut ts_items]. now rewrite R, app_assoc.
Qed.
Print Assumptions C95_delivery_partial.
Lemma settles_data es : Forall (fun x => is_data (snd x) = true) es -> settles es = false.
Proof. induction 1 as [|x es Hx Hes IH]; cbn [settles]; [reflexivity|]. destruct (data_calm _ Hx) as (-> & -> & _ & ->). exact IH. Qed.
Lemma settles_after_data es r : Forall (fun x => is_data (snd x) = true) es -> settles (es ++ r) = settles r.
Proof. induction 1 as [|x es Hx Hes IH]; cbn [app settles]; [reflexivity|]. destruct (data_calm _ Hx) as (-> & -> & _ & ->). exact IH. Qed.
Lemma begin_not_statement e : is_begin e = true -> is_statement e = false.
Proof. destruct e; try discriminate; cbn [is_begin is_statement]; intros ->; destruct (q_sql q); reflexivity. Qed.
Lemma marked e : is_begin e = true \/ is_end e = true \/ is_statement e = true -> is_gtid e = false.
Proof. destruct e; cbn; intuition congruence. Qed.
Lemma no_ends es : Forall (fun x => is_end (snd x) = false /\ is_gtid (snd x) = false) es -> existsb (fun y : hev => is_end (snd y)) es = false.
Proof. induction 1 as [|x es [Hx _] Hes IH]; [reflexivity|]. cbn [existsb]. now rewrite Hx. Qed.
Lemma data_no_gtid es : Forall (fun x : hev => is_data (snd x) = true) es -> Forall (fun x => is_gtid (snd x) = false) es.
Proof. intros H. eapply Forall_impl; [|exact H]. cbn beta. intros x Hx. now apply data_calm in Hx. Qed.
Lemma snoc_split {A} (l : list A) e a x b : l ++ [e] = a ++ x :: b -> (b = [] /\ x = e) \/ exists b', b = b' ++ [e] /\ l = a ++ x :: b'.
Proof.
  destruct (exists_last (l := x :: b)) as (b1 & y & E); [discriminate|]. intros H. rewrite E in H. rewrite app_assoc in H. apply app_inj_tail in H. destruct H as [H <-].
  destruct b1 as [|z b1]; cbn [app] in E; injection E as -> ->; [now left|right]. exists b1. auto.
Qed.
(* the shapes: BEGIN ... end and single statements settle with their last event *)
Theorem C95_transactions : forall t, txn_ok t -> exists g, tgroup_events g = txn_events t /\ tgroup_id g = txn_id t /\ tgroup_ok g /\ settles_last g.
Proof.
  intros [hg g pre b body e|hg g pre q] Hok; cbn [txn_ok] in Hok.
  - destruct Hok as (Hp & Hb & Hbody & He). exists (TGroup hg g ((pre ++ b :: body) ++ [e])). unfold tgroup_events. cbn [tg_head tg_mark tg_body txn_events].
    split; [now rewrite <- app_assoc|]. split; [reflexivity|]. split; [split|].
    + cbn [tg_body]. apply Forall_app. split; [|constructor; [apply marked; auto|constructor]]. apply Forall_app. split; [now apply data_no_gtid|].
      constructor; [apply marked; auto|]. eapply Forall_impl; [|exact Hbody]. cbn beta. tauto.
    + cbn [tg_body]. intros a x r E Hx. apply snoc_split in E. destruct E as [[_ ->]|(r' & -> & _)].
      * apply begin_not_end in Hx. congruence.
      * exists e. split; [apply in_or_app; right; now left|exact He].
    + assert (S : forall k, settles (firstn k (pre ++ b :: body)) = false).
      { intros k. rewrite firstn_app, settles_after_data by now apply ClientProofs.Forall_firstn. destruct (k - length pre)%nat as [|j]; [reflexivity|].
        cbn [firstn settles]. rewrite Hb, (begin_not_end _ Hb), (begin_not_statement _ Hb). cbn [orb]. apply no_ends. now apply ClientProofs.Forall_firstn. }
      split; unfold tgroup_events; cbn [tg_head tg_mark tg_body settles snd is_end is_statement is_begin orb].
      * rewrite <- app_assoc, settles_after_data by exact Hp. cbn [app settles]. rewrite Hb, existsb_app. cbn [existsb]. rewrite He. cbn [orb]. now rewrite !orb_true_r.
      * intros [|k] Hk; [reflexivity|]. cbn [length] in Hk. rewrite app_length in Hk. cbn [length] in Hk. cbn [firstn settles snd is_end is_statement is_begin orb].
        rewrite firstn_snoc_lt by lia. apply S.
  - destruct Hok as (Hp & Hq). exists (TGroup hg g (pre ++ [q])). unfold tgroup_events. cbn [tg_head tg_mark tg_body txn_events].
    split; [reflexivity|]. split; [reflexivity|]. split; [split|].
    + cbn [tg_body]. apply Forall_app. split; [now apply data_no_gtid|]. constructor; [apply marked; auto|constructor].
    + cbn [tg_body]. intros a x r E Hx. exfalso. apply snoc_split in E. destruct E as [[_ ->]|(r' & _ & ->)].
      * apply begin_not_statement in Hx. congruence.
      * apply Forall_app in Hp. destruct Hp as [_ Hp]. apply Forall_cons_iff in Hp. destruct Hp as [Hp _]. apply data_calm in Hp. destruct Hp. congruence.
    + split; unfold tgroup_events; cbn [tg_head tg_mark tg_body settles snd is_end is_statement is_begin orb].
      * rewrite settles_after_data by exact Hp. cbn [settles]. rewrite Hq. cbn [orb]. now rewrite orb_true_r.
      * intros [|k] Hk; [reflexivity|]. cbn [length] in Hk. rewrite app_length in Hk. cbn [length] in Hk. cbn [firstn settles snd is_end is_statement is_begin orb].
        rewrite firstn_snoc_lt by lia. apply settles_data. now apply ClientProofs.Forall_firstn.
Qed.
Print Assumptions C95_transactions.
(* XA transactions settle with XA START, before their rows *)
Lemma xa_query p e : In p [tx "XA START "; tx "XA END "] -> query_starts p e -> is_begin e = false /\ is_end e = false /\ is_gtid e = false /\ is_statement e = true.
Proof.
  intros Hp H. destruct e; try contradiction. destruct H as (r & E). assert (X : exists r', q_sql q = tx "XA " ++ r') by (destruct Hp as [<-|[<-|[]]]; eexists; rewrite E; reflexivity).
  destruct X as (r' & X). unfold is_statement. cbn [is_begin is_end is_gtid]. rewrite X. repeat split; try reflexivity.
Qed.
Theorem C95_xa : forall x, xa_ok x -> exists g, tgroup_events g = xa_events x /\ tgroup_ok g /\ forall k, settles (firstn k (tgroup_events g)) = (2 <=? k)%nat.
Proof.
  intros x (H1 & H2 & H3 & H4). exists (TGroup (xa_head x) (xa_gtid x) (xa_start x :: xa_body x ++ [xa_end x; xa_prepare x])). split; [reflexivity|].
  destruct (xa_query (tx "XA START ") (snd (xa_start x))) as (A1 & A2 & A3 & A4); [now left|exact H1|].
  destruct (xa_query (tx "XA END ") (snd (xa_end x))) as (B1 & B2 & B3 & B4); [right; now left|exact H3|].
  split; [split|].
  - cbn [tg_body]. constructor; [exact A3|]. apply Forall_app. split; [now apply data_no_gtid|]. constructor; [exact B3|]. constructor; [now rewrite H4|constructor].
  - assert (N : Forall (fun y => is_begin (snd y) = false) (xa_start x :: xa_body x ++ [xa_end x; xa_prepare x])).
    { constructor; [exact A1|]. apply Forall_app. split; [eapply Forall_impl; [|exact H2]; cbn beta; intros y Hy; now apply data_calm in Hy|].
      constructor; [exact B1|]. constructor; [now rewrite H4|constructor]. }
    cbn [tg_body]. intros a y b E Hy. exfalso. rewrite E in N. apply Forall_app in N. destruct N as [_ N]. apply Forall_cons_iff in N. destruct N. congruence.
  - intros [|[|k]]; [reflexivity|reflexivity|]. unfold tgroup_events. cbn [tg_head tg_mark tg_body firstn settles snd is_end is_statement is_begin orb].
    rewrite A4. now rewrite orb_true_r.
Qed.
Print Assumptions C95_xa.
(* a group without statement and end, like a compressed transaction, is never saved *)
Theorem C95_compressed : forall t, Forall (fun x => is_data (snd x) = true) (tg_body t) -> tgroup_ok t /\ forall k, settles (firstn k (tgroup_events t)) = false.
Proof.
  intros t H. split; [split; [now apply data_no_gtid|]|].
  - intros a x b E Hx. rewrite E in H. apply Forall_app in H. destruct H as [_ H]. apply Forall_cons_iff in H. destruct H as [H _]. apply data_calm in H. destruct H. congruence.
  - intros [|k]; [reflexivity|]. cbn [tgroup_events firstn settles snd is_end is_statement is_begin orb]. apply settles_data. now apply ClientProofs.Forall_firstn.
Qed.
Print Assumptions C95_compressed.
(* ---- three connections: the first breaks in an XA transaction, the others deliver a compressed transaction ---- *)
Definition q95 (t : string) : query := Query 9 0 0 [] (tx "shop") (tx t).
Definition xa95 : xa := Xa (hx 33 79 400) (MySqlGtid (Gtid (uuid_new e1) 5) 1) (hx 2 80 480, EvQuery (q95 "XA START X'01',X'',1"))
  [(hx 19 107 587, EvTableMap (table_map_of ex_table)); (hx 32 60 647, EvDelete (rows_event_of ex_table ex_rows))]
  (hx 2 80 727, EvQuery (q95 "XA END X'01',X'',1")) (hx 38 40 767, EvUnknown).
Definition g95_xa : tgroup := TGroup (xa_head xa95) (xa_gtid xa95) (xa_start xa95 :: xa_body xa95 ++ [xa_end xa95; xa_prepare xa95]).
Definition g95_zip : tgroup := TGroup (hx 33 79 846) (MySqlGtid (Gtid (uuid_new e1) 6) 1) [(hx 40 60 906, EvUnknown)].
Definition pk95_xa : list packet :=
  [pk66 (hx 33 79 400) (mysql_gtid_bytes 1 e1 5 [n2b 2; n2b 0] ++ crc4) 2; pk66 (hx 2 80 480) (query_bytes (q95 "XA START X'01',X'',1") ++ crc4) 3;
   pk66 (hx 19 107 587) (table_bytes ex_table ++ crc4) 4; pk66 (hx 32 60 647) (rows_bytes ex_table ex_rows ++ crc4) 5;
   pk66 (hx 2 80 727) (query_bytes (q95 "XA END X'01',X'',1") ++ crc4) 6; pk66 (hx 38 40 767) (repeat (n2b 1) 17 ++ crc4) 7].
Definition pk95_zip : list packet := [pk66 (hx 33 79 846) (mysql_gtid_bytes 1 e1 6 [] ++ crc4) 8; pk66 (hx 40 60 906) (repeat (n2b 7) 37 ++ crc4) 9].
Lemma w_query95 h t es s ps w2 ts : header_ok h -> h_type h = 2 -> query_ok (q95 t) -> packet_ok (n2b 0 :: header_bytes h ++ query_bytes (q95 t) ++ crc4, s) ->
  log_written (Writer CkCrc32 ts) es ps w2 -> log_written (Writer CkCrc32 ts) ((h, EvQuery (q95 t)) :: es) (pk66 h (query_bytes (q95 t) ++ crc4) s :: ps) w2.
Proof. intros H1 H2 H3 H4 H. apply (lw_event _ _ _ _ (Writer CkCrc32 ts)); auto. apply wr_service; [|reflexivity]. rewrite H2. now apply sv_query. Qed.
Lemma w_unknown95 h bs es s ps w2 ts : header_ok h -> ~ In (h_type h) known_codes -> packet_ok (n2b 0 :: header_bytes h ++ bs ++ crc4, s) ->
  log_written (Writer CkCrc32 ts) es ps w2 -> log_written (Writer CkCrc32 ts) ((h, EvUnknown) :: es) (pk66 h (bs ++ crc4) s :: ps) w2.
Proof. intros H1 H2 H4 H. apply (lw_event _ _ _ _ (Writer CkCrc32 ts)); auto. apply wr_unknown; [exact H2|reflexivity]. Qed.
Ltac query95 := do 4 (split; [vm_compute; reflexivity|]); split; [repeat constructor|]; split; [vm_compute; reflexivity|repeat constructor].
Lemma w_xa95 es ps w2 ts : log_written (Writer CkCrc32 (ex_table :: ts)) es ps w2 -> log_written (Writer CkCrc32 ts) (tgroup_events g95_xa ++ es) (pk95_xa ++ ps) w2.
Proof.
  intros H. unfold pk95_xa, g95_xa, tgroup_events, xa95. cbn [xa_head xa_gtid xa_start xa_body xa_end xa_prepare tg_head tg_mark tg_body app].
  unfold pk66 at 1. apply (lw_event _ _ _ _ (Writer CkCrc32 ts)); [head66| |split; vm_compute; reflexivity|]. { apply wr_gtid; reflexivity. }
  apply w_query95; [head66|reflexivity|query95|split; vm_compute; reflexivity|].
  unfold pk66 at 1. apply (lw_event _ _ _ _ (Writer CkCrc32 (ex_table :: ts))); [head66| |split; vm_compute; reflexivity|].
  { apply (wr_table (Writer CkCrc32 ts)); [reflexivity|exact ex_table_ok|reflexivity]. }
  unfold pk66 at 1. apply (lw_event _ _ _ _ (Writer CkCrc32 (ex_table :: ts))); [head66| |split; vm_compute; reflexivity|].
  { apply (wr_rows _ _ ex_table); [apply rw_delete2; [exact ex_rows_ok|reflexivity]|now left|reflexivity|reflexivity]. }
  apply w_query95; [head66|reflexivity|query95|split; vm_compute; reflexivity|].
  apply w_unknown95; [head66|vm_compute; intuition discriminate|split; vm_compute; reflexivity|exact H].
Qed.
Lemma w_zip95 es ps w2 ts : log_written (Writer CkCrc32 ts) es ps w2 -> log_written (Writer CkCrc32 ts) (tgroup_events g95_zip ++ es) (pk95_zip ++ ps) w2.
Proof.
  intros H. unfold pk95_zip, g95_zip, tgroup_events. cbn [tg_head tg_mark tg_body app].
  unfold pk66 at 1. apply (lw_event _ _ _ _ (Writer CkCrc32 ts)); [head66| |split; vm_compute; reflexivity|]. { apply wr_gtid; reflexivity. }
  apply w_unknown95; [head66|vm_compute; intuition discriminate|split; vm_compute; reflexivity|exact H].
Qed.
Definition log95 : list tgroup := [g95_xa; g95_zip].
Definition x95_1 : tsession := TSession [TService ev_fd; TItem g95_xa; TItem g95_zip] 3.
Definition x95_2 : tsession := TSession [TService ev_fd; TItem g95_zip] 3.
Definition pk95_1 : list packet := pk_fd ++ pk95_xa ++ pk95_zip.
Definition pk95_2 : list packet := pk_fd ++ pk95_zip.
Definition cut95 : nat := Eval vm_compute in length (flat_map wire (firstn 3 pk95_1)).
Definition w95_1 : world := Eval vm_compute in snd (link74 c74_0 pk95_1 cut95).
Definition c95_1 : client := Eval vm_compute in client74 (commit_all Release (w_client w95_1) (firstn 3 (tstream_events (ts_items x95_1)))).
Definition w95_2 : world := Eval vm_compute in snd (link74 c95_1 pk95_2 1000).
Definition c95_2 : client := Eval vm_compute in client74 (commit_all Release (w_client w95_2) (tstream_events (ts_items x95_2))).
Definition w95_3 : world := Eval vm_compute in snd (link74 c95_2 pk95_2 1000).
Definition c95_3 : client := Eval vm_compute in client74 (commit_all Release (w_client w95_3) (tstream_events (ts_items x95_2))).
Lemma ok95 : tgroup_ok g95_xa /\ tgroup_ok g95_zip.
Proof.
  split.
  - destruct (C95_xa xa95) as (g & E & K & _).
    { split; [exists (tx "X'01',X'',1"); vm_compute; reflexivity|]. split; [repeat constructor|]. split; [exists (tx "X'01',X'',1"); vm_compute; reflexivity|reflexivity]. }
    destruct g as [h m b]. unfold tgroup_events in E. cbn [tg_head tg_mark tg_body] in E. unfold xa_events in E. injection E as -> -> ->. exact K.
  - apply C95_compressed. repeat constructor.
Qed.
Lemma run95 : tcontacts Release env0 st0 log95 c74_0 [x95_1; x95_2; x95_2] c95_3.
Proof.
  destruct ok95 as [OX OZ].
  assert (G : forall a n, srv_has [(e1, [(1, a)])] e1 n <-> 1 <= n < a).
  { intros a n. split.
    - intros (ivs & x & y & [E|[]] & Hi & Hn). inv E. destruct Hi as [E|[]]. inv E. exact Hn.
    - intros Hn. exists [(1, a)], 1, a. split; [now left|]. split; [now left|exact Hn]. }
  assert (L1 : log_written (Writer CkCrc32 []) (tstream_events (ts_items x95_1)) pk95_1 (Writer CkCrc32 [ex_table])).
  { unfold x95_1, pk95_1, tstream_events. cbn [ts_items flat_map titem_events app]. apply w_fd. apply w_xa95. rewrite <- (app_nil_r pk95_zip). apply w_zip95. constructor. }
  assert (L2 : log_written (Writer CkCrc32 []) (tstream_events (ts_items x95_2)) pk95_2 (Writer CkCrc32 [])).
  { unfold x95_2, pk95_2, tstream_events. cbn [ts_items flat_map titem_events app]. apply w_fd. rewrite <- (app_nil_r pk95_zip). apply w_zip95. constructor. }
  destruct (C66_events_partial Release CkCrc32 _ _ _ (w_in w95_1) cut95 L1) as (s1 & T1 & _); [repeat constructor; discriminate|vm_compute; reflexivity|].
  replace (arrived cut95 pk95_1) with 3%nat in T1 by (vm_compute; reflexivity).
  destruct (C66_events_partial Release CkCrc32 _ _ _ (w_in w95_2) 1000 L2) as (s2 & T2 & _); [repeat constructor; discriminate|vm_compute; reflexivity|].
  destruct (C66_events_partial Release CkCrc32 _ _ _ (w_in w95_3) 1000 L2) as (s3 & T3 & _); [repeat constructor; discriminate|vm_compute; reflexivity|].
  replace (arrived 1000 pk95_2) with 3%nat in T2, T3 by (vm_compute; reflexivity).
  assert (X1 : x95_1 = TSession (ts_items x95_1) (length (firstn 3 (tstream_events (ts_items x95_1))))) by reflexivity.
  assert (X2 : x95_2 = TSession (ts_items x95_2) (length (firstn 3 (tstream_events (ts_items x95_2))))) by reflexivity.
  rewrite X1, X2.
  eapply (tc_stream Release env0 st0 log95 c74_0 _ CkCrc32 w95_1 (removelast (sent (w_log w95_1))) (fst (last (sent (w_log w95_1)) ([], 9)))).
  - split; [reflexivity|]. intros s E. inv E. reflexivity.
  - instantiate (1 := [Got (flat_map wire (number ([mysql_hello; okp] ++ good_answers)) ++ firstn cut95 (flat_map wire pk95_1))]). vm_compute. reflexivity.
  - vm_compute. reflexivity.
  - vm_compute. reflexivity.
  - exact (Forall_cons (P := titem_ok) (TService ev_fd) eq_refl (Forall_cons (TItem g95_xa) OX (Forall_cons (TItem g95_zip) OZ (Forall_nil _)))).
  - cbn [sg_set]. apply lk_send; [intros Hx; apply (G 5 5) in Hx; lia|]. apply lk_send; [intros Hx; apply (G 5 6) in Hx; lia|]. constructor.
  - exact (sent_written _ _ _ _ L1).
  - repeat constructor; discriminate.
  - instantiate (1 := cut95). vm_compute. reflexivity.
  - exact T1.
  - instantiate (1 := c95_1). vm_compute. reflexivity.
  - eapply (tc_stream Release env0 st0 log95 c95_1 _ CkCrc32 w95_2 (removelast (sent (w_log w95_2))) (fst (last (sent (w_log w95_2)) ([], 9)))).
    + split; [reflexivity|]. intros s E. inv E. reflexivity.
    + instantiate (1 := [Got (flat_map wire (number ([mysql_hello; okp] ++ good_answers)) ++ firstn 1000 (flat_map wire pk95_2))]). vm_compute. reflexivity.
    + vm_compute. reflexivity.
    + vm_compute. reflexivity.
    + exact (Forall_cons (P := titem_ok) (TService ev_fd) eq_refl (Forall_cons (TItem g95_zip) OZ (Forall_nil _))).
    + cbn [sg_set]. apply lk_skip; [apply (G 6 5); lia|]. apply lk_send; [intros Hx; apply (G 6 6) in Hx; lia|]. constructor.
    + exact (sent_written _ _ _ _ L2).
    + repeat constructor; discriminate.
    + instantiate (1 := 1000%nat). vm_compute. reflexivity.
    + exact T2.
    + instantiate (1 := c95_2). vm_compute. reflexivity.
    + eapply (tc_stream Release env0 st0 log95 c95_2 _ CkCrc32 w95_3 (removelast (sent (w_log w95_3))) (fst (last (sent (w_log w95_3)) ([], 9)))).
      * split; [reflexivity|]. intros s E. inv E. reflexivity.
      * instantiate (1 := [Got (flat_map wire (number ([mysql_hello; okp] ++ good_answers)) ++ firstn 1000 (flat_map wire pk95_2))]). vm_compute. reflexivity.
      * vm_compute. reflexivity.
      * vm_compute. reflexivity.
      * exact (Forall_cons (P := titem_ok) (TService ev_fd) eq_refl (Forall_cons (TItem g95_zip) OZ (Forall_nil _))).
      * cbn [sg_set]. apply lk_skip; [apply (G 6 5); lia|]. apply lk_send; [intros Hx; apply (G 6 6) in Hx; lia|]. constructor.
      * exact (sent_written _ _ _ _ L2).
      * repeat constructor; discriminate.
      * instantiate (1 := 1000%nat). vm_compute. reflexivity.
      * exact T3.
      * instantiate (1 := c95_3). vm_compute. reflexivity.
      * constructor.
Qed.
Lemma saved95 : saved c74_0 set1.
Proof. exact (proj1 (proj2 (proj2 C74_example))). Qed.
Lemma fine95 : tlog_fine log95.
Proof. repeat constructor; vm_compute; reflexivity. Qed.
Example C95_example : tcontacts Release env0 st0 log95 c74_0 [x95_1; x95_2; x95_2] c95_3 /\ tlog_fine log95 /\ saved c74_0 set1 /\ (forall s, Permutation s (e_order env0 s)) /\
  map (fun x => tpassed (ts_cut x) (ts_items x)) [x95_1; x95_2; x95_2] = [[g95_xa]; []; []] /\
  option_map gtid_set_text (o_set (c_opts c95_3)) = Some (tx "24bc7850-2c16-11e6-a073-0242ac110001:1-5").
Proof. split; [exact run95|]. split; [exact fine95|]. split; [exact saved95|]. split; [intros s; apply Permutation_refl|]. split; vm_compute; reflexivity. Qed.
(* The full statement is false: in this run a transaction the client did not have is never taken whole, and no server
   ever writes it again; another is taken whole twice. *)
Theorem C95_once_refuted : exists ev st log c xs c2 s lost twice,
  (forall s, Permutation s (e_order ev s)) /\ s_server_id st < 4294967296 /\ tlog_fine log /\ NoDup (map tgroup_id log) /\ saved c s /\
  tcontacts Release ev st log c xs c2 /\ In lost log /\ In twice log /\ ~ set_has s (fst (tgroup_id lost)) (snd (tgroup_id lost)) /\
  Forall (fun x => ~ In lost (twhole (ts_cut x) (ts_items x))) xs /\
  (forall y ys c3, tcontacts Release ev st log c2 (y :: ys) c3 -> Forall (fun x => ~ In lost (tstream_groups (ts_items x))) (y :: ys)) /\
  exists a x b y d, xs = a ++ x :: b ++ y :: d /\ In twice (twhole (ts_cut x) (ts_items x)) /\ In twice (twhole (ts_cut y) (ts_items y)).
Proof.
  exists env0, st0, log95, c74_0, [x95_1; x95_2; x95_2], c95_3, set1, g95_xa, g95_zip.
  split; [intros s; apply Permutation_refl|]. split; [reflexivity|]. split; [exact fine95|].
  split; [repeat constructor; intros Hi; repeat (destruct Hi as [Hi|Hi]; [vm_compute in Hi; discriminate|]); destruct Hi|].
  split; [exact saved95|]. split; [exact run95|]. split; [now left|]. split; [right; now left|].
  assert (N : ~ set_has set1 (fst (tgroup_id g95_xa)) (snd (tgroup_id g95_xa))).
  { intros (k & us & [E|[]] & _ & i & Hi & Hn). inv E. destruct Hi as [<-|[]]. unfold iv_has in Hn. cbn in Hn. lia. }
  split; [exact N|]. split.
  - repeat constructor; vm_compute; intros Hi; repeat (destruct Hi as [Hi|Hi]; [discriminate|]); destruct Hi.
  - split; [|exists [x95_1], x95_2, [], x95_2, []; split; [reflexivity|split; left; reflexivity]].
    intros y ys c3 C. apply Forall_forall. intros x Hx Hi. apply in_split in Hx. destruct Hx as (a & b & Hx). rewrite Hx in C.
    destruct (C95_saved Release env0 st0 log95 c74_0 _ c95_3 set1 (fun s => Permutation_refl s) eq_refl fine95 saved95 run95) as (s2 & K2 & H2).
    apply (C95_sent_iff Release env0 st0 log95 c95_3 a x b c3 s2 g95_xa (fun s => Permutation_refl s) eq_refl fine95 K2 C) in Hi. destruct Hi as (_ & Hi & _).
    apply Hi. apply H2. right. left. reflexivity.
Qed.
Print Assumptions C95_once_refuted.
