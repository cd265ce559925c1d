(* Claimed property of a program that is stopped and started again with the position kept as text: C107. *)
From Coq Require Import Strings.String Permutation.
From Verif Require Import Base.Tac Base.Bytes Base.Text Base.Res Base.Str Base.Parse Model.Gtid Model.GtidMaria Model.TableMap Model.Rows Model.Events Model.Client Model.Commands
  Model.Responses Model.Channel Model.Session Spec.GtidSpec Spec.ClientSpec Spec.EventSpec Spec.TableSpec Spec.RowSpec Spec.CommandSpec Spec.ChannelSpec
  Spec.SessionSpec Spec.PipelineSpec Spec.GtidMariaSpec Spec.MariaSessionSpec Spec.FailoverSpec Spec.RestartSpec Proofs.GtidSetProofs Proofs.GtidMariaProofs Proofs.MariaSessionProofs Proofs.ClientProofs
  Proofs.CommitTotal Proofs.SessionProofs Proofs.LoginProofs Proofs.PipelineProofs
  Props.GtidProps Props.GtidMariaProps Props.ClientProps Props.EventProps Props.RowProps Props.CommandProps Props.SessionProps Props.PipelineProps Props.MariaProps Props.FailoverProps.
Local Open Scope N_scope.

Lemma keys36_add bl h : forall s s', add_all bl s h = Ok s' -> keys36 s -> Forall (fun g => length (utext (g_source g)) = 36%nat) h -> keys36 s'.
Proof.
  induction h as [|g h IH]; intros s s' E K H; cbn [add_all] in E; [inv E; exact K|]. apply Forall_cons_iff in H. destruct H as [H1 H].
  destruct (gtid_set_add bl s g) as [[b s1]|e| |] eqn:A; try discriminate E. cbn [rbind snd] in E. apply (IH s1 s' E); [|exact H].
  unfold gtid_set_add in A. destruct (uuid_set_add bl _ g) as [r|e| |]; try discriminate A. cbn [rbind] in A. inv A. apply hm_put_Forall; [exact H1|exact K].
Qed.
Lemma connections_keys36 bl log s xs s2 : Forall (fun t => stream_gtid_ok (txn_gtid t)) log -> connections bl log s xs s2 -> set_ok s -> keys36 s -> keys36 s2.
Proof.
  intros LF. induction 1 as [s|s c x c' s1 rest s2 (R1 & R2 & R3) IO MI CO O1 C IH]; intros SO K; [exact K|].
  assert (G1 : Forall (fun t => stream_gtid_ok (txn_gtid t)) (stream_txns (se_items x))).
  { apply Forall_forall. intros t Ht. apply (missing_In _ _ _ MI) in Ht. rewrite Forall_forall in LF. now apply LF. }
  destruct (commit_stream bl (se_items x) (se_cut x) c s IO G1) as (c'' & s' & Y1 & Y2 & Y3 & Y4 & Y5); auto.
  assert (c'' = c') as -> by congruence. assert (s' = s1) as -> by congruence. apply IH; [exact Y4|].
  apply (keys36_add bl (map txn_gtid (completed (se_cut x) (se_items x))) s s1); [exact Y5|exact K|]. apply Forall_forall. intros g Hg. apply in_map_iff in Hg. destruct Hg as (t & <- & Ht).
  apply completed_In in Ht. rewrite Forall_forall in G1. destruct (G1 t Ht) as (E & L & _). rewrite E. now apply uuid_new_length.
Qed.
Lemma roams_keys36 bl c ys c2 : Forall (fun y => log_fine (fst y)) ys -> roams bl c ys c2 -> forall s s2, saved c s -> saved c2 s2 -> keys36 s -> keys36 s2.
Proof.
  intros LF R. induction R as [c|ev st log c xs c1 ys c2 OR ID C R IH]; intros s s2 K K2 Z.
  - destruct K as (_ & K & _), K2 as (_ & K2 & _). assert (s2 = s) as -> by congruence. exact Z.
  - apply Forall_cons_iff in LF. destruct LF as [L1 LF]. cbn [fst] in L1. destruct (contacts_connections bl ev st log c xs c1 OR ID L1 C s K) as (s1 & K1 & C1).
    apply (IH LF s1 s2 K1 K2). apply (connections_keys36 bl log s xs s1); [|exact C1|apply K|exact Z]. eapply Forall_impl; [|apply L1]. cbn beta. tauto.
Qed.
Lemma saved_writable c s : saved c s -> keys36 s -> set_writable s.
Proof.
  intros (_ & _ & [N O] & C & _) Z. split; [exact N|]. unfold set_canonical in C. unfold keys36 in Z. rewrite Forall_forall in *. intros e He.
  destruct (O e He) as (E1 & E2 & E3). destruct (C e He) as [C1 C2]. split; [exact E1|]. split; [split; [exact E2|rewrite <- E1; now apply Z]|]. split; [exact C1|]. split; [exact C2|].
  eapply Forall_impl; [|exact E3]. cbn beta. intros i [_ Hi]. unfold u64_top, u64max1 in *. lia.
Qed.
Lemma perm_has s s' d n : Permutation s' s -> set_has s' d n <-> set_has s d n.
Proof. intros P. unfold set_has. split; intros (k & us & H & R); exists k, us; (split; [|exact R]); [now apply (Permutation_in _ P)|now apply (Permutation_in _ (Permutation_sym P))]. Qed.
Lemma perm_saved c s s' : saved c s -> Permutation s' s -> saved (client_new (from_mysql_gtid s')) s'.
Proof.
  intros (_ & _ & [N O] & C & Z & _) P. split; [reflexivity|]. split; [reflexivity|]. split.
  { split; [apply (Permutation_NoDup (Permutation_map fst (Permutation_sym P)) N)|]. now apply (Permutation_Forall (Permutation_sym P)). }
  split; [now apply (Permutation_Forall (Permutation_sym P))|]. split; [|reflexivity]. intros d H. apply (Z d). now apply (perm_has s s').
Qed.

Lemma received_app a b : received (a ++ b) = received a ++ received b. Proof. apply flat_map_app. Qed.
(* ---- C107 ---- *)
(* the text can always be read, and the new client has saved the same transactions *)
Theorem C107_restart : forall bl c s order, saved c s -> keys36 s -> Permutation order s ->
  exists s', gtid_set_parse bl (gtid_set_text order) = Ok s' /\ saved (client_new (from_mysql_gtid s')) s' /\ keys36 s' /\ forall d n, set_has s' d n <-> set_has s d n.
Proof.
  intros bl c s order K Z P. destruct (C05_text_roundtrip bl s order (saved_writable c s K Z) P) as (s' & E & P' & _). exists s'. split; [exact E|].
  split; [now apply (perm_saved c s)|]. split; [now apply (Permutation_Forall (Permutation_sym P'))|]. intros d n. now apply perm_has.
Qed.
Print Assumptions C107_restart.
Theorem C107_set : forall bl c zs c2 s, Forall (Forall (fun y => log_fine (fst y))) zs -> lives bl c zs c2 -> saved c s -> keys36 s ->
  exists s2, saved c2 s2 /\ keys36 s2 /\ forall d n, set_has s2 d n <-> set_has s d n \/ exists t, In t (received (concat zs)) /\ txn_id t = (d, n).
Proof.
  intros bl c zs c2 s LF R. revert s. induction R as [c ys c2 R|c ys c1 s1 order s' zs c2 R O P E L IH]; intros s K Z; apply Forall_cons_iff in LF; destruct LF as [L1 LF].
  - destruct (C105_set bl c ys c2 s L1 R K) as (s2 & K2 & H). exists s2. split; [exact K2|]. split; [exact (roams_keys36 bl c ys c2 L1 R s s2 K K2 Z)|].
    cbn [concat]. rewrite app_nil_r. exact H.
  - destruct (C105_set bl c ys c1 s L1 R K) as (x & K1 & H1). assert (x = s1) as -> by (destruct K1 as (_ & K1 & _); congruence).
    pose proof (roams_keys36 bl c ys c1 L1 R s s1 K K1 Z) as Z1. destruct (C107_restart bl c1 s1 order K1 Z1 P) as (x & E' & K' & Z' & H'). assert (x = s') as -> by congruence.
    destruct (IH LF s' K' Z') as (s2 & K2 & Z2 & H2). exists s2. split; [exact K2|]. split; [exact Z2|]. intros d n. rewrite H2, H', H1. cbn [concat]. unfold received. rewrite flat_map_app. split.
    + intros [[H|(t & T1 & T2)]|(t & T1 & T2)]; [now left|right|right]; exists t; (split; [apply in_or_app; auto|exact T2]).
    + intros [H|(t & T1 & T2)]; [now left; left|]. apply in_app_or in T1. destruct T1 as [T1|T1]; [left; right|right]; eauto.
Qed.
Print Assumptions C107_set.
(* no transaction is taken twice, in the same run or in two *)
Theorem C107_once : forall bl c zs c2 s, Forall (Forall (fun y => log_fine (fst y))) zs -> lives bl c zs c2 -> saved c s -> keys36 s ->
  NoDup (map txn_id (received (concat zs))) /\ Forall (fun t => ~ set_has s (fst (txn_id t)) (snd (txn_id t))) (received (concat zs)).
Proof.
  intros bl c zs c2 s LF R. revert s. induction R as [c ys c2 R|c ys c1 s1 order s' zs c2 R O P E L IH]; intros s K Z; apply Forall_cons_iff in LF; destruct LF as [L1 LF].
  - cbn [concat]. rewrite app_nil_r. exact (C105_once bl c ys c2 s L1 R K).
  - destruct (C105_once bl c ys c1 s L1 R K) as [A1 A2]. destruct (C105_set bl c ys c1 s L1 R K) as (x & K1 & H1). assert (x = s1) as -> by (destruct K1 as (_ & K1 & _); congruence).
    pose proof (roams_keys36 bl c ys c1 L1 R s s1 K K1 Z) as Z1. destruct (C107_restart bl c1 s1 order K1 Z1 P) as (x & E' & K' & Z' & H'). assert (x = s') as -> by congruence.
    destruct (IH LF s' K' Z') as [I1 I2]. cbn [concat]. rewrite received_app, map_app. split.
    + assert (X : forall a, In a (map txn_id (received ys)) -> ~ In a (map txn_id (received (concat zs)))).
      { intros a Ha Hb. apply in_map_iff in Ha. destruct Ha as (t & <- & Ht). apply in_map_iff in Hb. destruct Hb as (u & Eu & Hu).
        rewrite Forall_forall in I2. apply (I2 u Hu). apply H', H1. right. exists t. split; [exact Ht|]. rewrite Eu. apply surjective_pairing. }
      clear - A1 I1 X. induction (map txn_id (received ys)) as [|a l IHl]; cbn [app]; [exact I1|]. inversion A1 as [|? ? N1 N2]; subst. constructor.
      * intros Hi. apply in_app_or in Hi. destruct Hi as [Hi|Hi]; [now apply N1|]. apply (X a); [now left|exact Hi].
      * apply IHl; [exact N2|]. intros b Hb. apply X. now right.
    + apply Forall_app. split; [exact A2|]. eapply Forall_impl; [|exact I2]. cbn beta. intros t H Ht. apply H. apply H', H1. now left.
Qed.
Print Assumptions C107_once.
(* replicas with first parts of one log *)
Theorem C107_replicas : forall bl full c zs c2 s todo, log_fine full -> Forall (Forall (fun y => exists more, full = fst y ++ more)) zs ->
  lives bl c zs c2 -> saved c s -> keys36 s -> missing (set_has s) full todo ->
  exists s2 rest, o_set (c_opts c2) = Some s2 /\ todo = received (concat zs) ++ rest /\ missing (set_has s2) full rest.
Proof.
  intros bl full c zs c2 s todo FU P R. revert s todo P. induction R as [c ys c2 R|c ys c1 s1 order s' zs c2 R O PE E L IH]; intros s todo P K Z M; apply Forall_cons_iff in P; destruct P as [P1 P].
  - cbn [concat]. rewrite app_nil_r. exact (C105_replicas bl full c ys c2 s todo FU P1 R K M).
  - destruct (C105_replicas bl full c ys c1 s todo FU P1 R K M) as (x & rest & O' & -> & M1). assert (x = s1) as -> by congruence.
    assert (L1 : Forall (fun y => log_fine (fst y)) ys).
    { eapply Forall_impl; [|exact P1]. cbn beta. intros y (more & EF). destruct FU as [F1 F2]. rewrite EF in F1, F2. apply Forall_app in F2. split; [|apply F2]. rewrite map_app in F1. clear - F1.
      induction (map txn_id (fst y)) as [|a l IHl]; [constructor|]. cbn [app] in F1. inversion F1 as [|? ? N1 N2]; subst. constructor; [|auto]. intros Hi. apply N1. apply in_or_app. now left. }
    destruct (C105_set bl c ys c1 s L1 R K) as (x & K1 & _). assert (x = s1) as -> by (destruct K1 as (_ & K1 & _); congruence).
    pose proof (roams_keys36 bl c ys c1 L1 R s s1 K K1 Z) as Z1. destruct (C107_restart bl c1 s1 order K1 Z1 PE) as (x & E' & K' & Z' & H'). assert (x = s') as -> by congruence.
    assert (M2 : missing (set_has s') full rest) by (apply (missing_same (set_has s1)); [|exact M1]; intros t _; unfold in_set; now rewrite H').
    destruct (IH s' rest P K' Z' M2) as (s2 & rest2 & E1 & -> & E3). exists s2, rest2. split; [exact E1|]. split; [|exact E3].
    cbn [concat]. unfold received. rewrite flat_map_app. now rewrite <- app_assoc.
Qed.
Print Assumptions C107_replicas.

(* a set made with an id of 32 characters (Uuid::parse takes it): the text is refused when it is read back *)
Definition u32_id : uuid := Uuid e1 (tx "24bc78502c1611e6a0730242ac110001").
Definition set107_short : gtid_set := [(utext u32_id, UuidSet u32_id [Interval 1 4])].
Theorem C107_short_id_refuted : exists s order, saved (client_new (from_mysql_gtid s)) s /\ Permutation order s /\ forall bl, gtid_set_parse bl (gtid_set_text order) = Err EHex.
Proof.
  exists set107_short, set107_short. split; [|split; [apply Permutation_refl|intros []; vm_compute; reflexivity]].
  split; [reflexivity|]. split; [reflexivity|]. split; [|split; [repeat constructor; discriminate|split; [|reflexivity]]].
  - split; [repeat constructor; intros []|]. repeat constructor; cbn [fst snd us_ivs istart iend]; lia.
  - intros d (k & us & [E|[]] & _ & i & Hi & Hn). inv E. destruct Hi as [<-|[]]. unfold iv_has in Hn. cbn [istart iend] in Hn. lia.
Qed.
Print Assumptions C107_short_id_refuted.

(* once a connection in any run is taken to its end, the set after the last run has every transaction of that server's log *)
Theorem C107_caught_up : forall bl c ws ys log xs x zs us c2 s, Forall (Forall (fun y => log_fine (fst y))) (ws ++ (ys ++ (log, xs ++ [x]) :: zs) :: us) ->
  lives bl c (ws ++ (ys ++ (log, xs ++ [x]) :: zs) :: us) c2 -> saved c s -> keys36 s -> (length (stream_events (se_items x)) <= se_cut x)%nat ->
  exists s2, o_set (c_opts c2) = Some s2 /\ forall t, In t log -> set_has s2 (fst (txn_id t)) (snd (txn_id t)).
Proof.
  intros bl c ws ys log xs x zs us c2 s LF R K Z H. revert c s LF R K Z. induction ws as [|w ws IH]; intros c s LF R K Z; cbn [app] in *; apply Forall_cons_iff in LF; destruct LF as [L1 LF].
  - inversion R as [? ? ? R1|? ? c1 s1 order s' ? ? R1 O P E R2]; subst; [exact (C105_caught_up bl c ys log xs x zs c2 s L1 R1 K H)|].
    destruct (C105_caught_up bl c ys log xs x zs c1 s L1 R1 K H) as (y & O' & C). assert (y = s1) as -> by congruence.
    destruct (C105_set bl c _ c1 s L1 R1 K) as (y & K1 & _). assert (y = s1) as -> by (destruct K1 as (_ & K1 & _); congruence).
    pose proof (roams_keys36 bl c _ c1 L1 R1 s s1 K K1 Z) as Z1. destruct (C107_restart bl c1 s1 order K1 Z1 P) as (y & E' & K' & Z' & H'). assert (y = s') as -> by congruence.
    destruct (C107_set bl _ us c2 s' LF R2 K' Z') as (s2 & K2 & _ & H2). exists s2. split; [apply K2|]. intros t Ht. apply H2. left. apply H', C, Ht.
  - inversion R as [? ? ? R1 E1 E2|? ? c1 s1 order s' ? ? R1 O P E R2]; subst; [destruct ws; discriminate|].
    destruct (C105_set bl c _ c1 s L1 R1 K) as (y & K1 & _). assert (y = s1) as -> by (destruct K1 as (_ & K1 & _); congruence).
    pose proof (roams_keys36 bl c _ c1 L1 R1 s s1 K K1 Z) as Z1. destruct (C107_restart bl c1 s1 order K1 Z1 P) as (y & E' & K' & Z' & H'). assert (y = s') as -> by congruence.
    exact (IH _ s' LF R2 K' Z').
Qed.
Print Assumptions C107_caught_up.
(* with a replica that has the whole log: over all runs together, exactly the transactions missing at first are taken, in order *)
Theorem C107_everything : forall bl full c ws ys xs x zs us c2 s todo, log_fine full ->
  Forall (Forall (fun y => exists more, full = fst y ++ more)) (ws ++ (ys ++ (full, xs ++ [x]) :: zs) :: us) ->
  lives bl c (ws ++ (ys ++ (full, xs ++ [x]) :: zs) :: us) c2 -> saved c s -> keys36 s -> (length (stream_events (se_items x)) <= se_cut x)%nat ->
  missing (set_has s) full todo -> received (concat (ws ++ (ys ++ (full, xs ++ [x]) :: zs) :: us)) = todo.
Proof.
  intros bl full c ws ys xs x zs us c2 s todo FU P R K Z H M. destruct (C107_replicas bl full c _ c2 s todo FU P R K Z M) as (s2 & rest & O & -> & M2).
  assert (LF : Forall (Forall (fun y : stay => log_fine (fst y))) (ws ++ (ys ++ (full, xs ++ [x]) :: zs) :: us)).
  { eapply Forall_impl; [|exact P]. cbn beta. intros a Pa. eapply Forall_impl; [|exact Pa]. cbn beta. intros y (more & EF). destruct FU as [F1 F2]. rewrite EF in F1, F2. apply Forall_app in F2.
    split; [|apply F2]. rewrite map_app in F1. clear - F1. induction (map txn_id (fst y)) as [|b l IHl]; [constructor|]. cbn [app] in F1. inversion F1 as [|? ? N1 N2]; subst.
    constructor; [|auto]. intros Hi. apply N1. apply in_or_app. now left. }
  destruct (C107_caught_up bl c ws ys full xs x zs us c2 s LF R K Z H) as (y & O' & C). assert (y = s2) as -> by congruence.
  enough (rest = []) as -> by now rewrite app_nil_r. clear - M2 C. induction M2 as [|t l r A M IH|t l r A M IH]; [reflexivity|apply IH; intros u U; apply C; now right|].
  exfalso. apply A. apply C. now left.
Qed.
Print Assumptions C107_everything.

(* ---- MariaDB ---- *)
Theorem C107_mariadb_restart : forall c l, msaved c l -> gtid_list_parse (gtid_list_text l) = Ok l /\ msaved (client_new (from_mariadb_gtid l)) l.
Proof. intros c l (_ & _ & _ & A & B & _). split; [now apply C11_roundtrip|]. repeat split; auto. Qed.
Print Assumptions C107_mariadb_restart.
Theorem C107_mariadb_replicas : forall bl full c zs c2 l, mlog_fine full -> Forall (Forall (fun y => exists more, full = fst y ++ more)) zs ->
  mlives bl c zs c2 -> msaved c l ->
  exists l2 rest, msaved c2 l2 /\ to_send l full = mreceived (concat zs) ++ rest /\ to_send l2 full = rest.
Proof.
  intros bl full c zs c2 l FU P R. revert l P. induction R as [c ys c2 R|c ys c1 l1 l' zs c2 R O E L IH]; intros l P K; apply Forall_cons_iff in P; destruct P as [P1 P].
  - cbn [concat]. rewrite app_nil_r. exact (C105_mariadb_replicas bl full c ys c2 l FU P1 R K).
  - destruct (C105_mariadb_replicas bl full c ys c1 l FU P1 R K) as (x & rest & K1 & S1 & S2). assert (x = l1) as -> by (destruct K1 as (_ & K1 & _); congruence).
    destruct (C107_mariadb_restart c1 l1 K1) as [E' K']. assert (l' = l1) as -> by congruence.
    destruct (IH l1 P K') as (l2 & rest2 & K2 & T1 & T2). exists l2, rest2. split; [exact K2|]. split; [|exact T2].
    cbn [concat]. unfold mreceived. rewrite flat_map_app. fold (mreceived ys). fold (mreceived (concat zs)). rewrite S1, <- S2, T1, app_assoc. reflexivity.
Qed.
Print Assumptions C107_mariadb_replicas.
(* whatever the logs of the servers: the position after the last run, and no group is passed twice *)
Lemma mreceived_app a b : mreceived (a ++ b) = mreceived a ++ mreceived b. Proof. apply flat_map_app. Qed.
Lemma mlives_list bl c zs c2 : Forall (Forall (fun y => mlog_fine (fst y))) zs -> mlives bl c zs c2 -> forall l, msaved c l -> msaved c2 (madd_all l (map group_gtid (mreceived (concat zs)))).
Proof.
  intros LF R. induction R as [c ys c2 R|c ys c1 l1 l' zs c2 R O E L IH]; intros l K; apply Forall_cons_iff in LF; destruct LF as [L1 LF].
  - cbn [concat]. rewrite app_nil_r. now apply (mroams_list bl c).
  - pose proof (mroams_list bl c ys c1 L1 R l K) as K1. assert (X : madd_all l (map group_gtid (mreceived ys)) = l1) by (destruct K1 as (_ & K1 & _); congruence). rewrite X in K1.
    destruct (C107_mariadb_restart c1 l1 K1) as [E' K']. assert (l' = l1) as -> by congruence. pose proof (IH LF l1 K') as K2.
    cbn [concat]. rewrite mreceived_app, map_app, madd_app, X. exact K2.
Qed.
Theorem C107_mariadb_position : forall bl c zs c2 l, Forall (Forall (fun y => mlog_fine (fst y))) zs -> mlives bl c zs c2 -> msaved c l ->
  exists l2, msaved c2 l2 /\ forall d, domain_gtid l2 d = match last_of_domain d (map group_gtid (mreceived (concat zs))) with Some g => Some g | None => domain_gtid l d end.
Proof.
  intros bl c zs c2 l LF R K. exists (madd_all l (map group_gtid (mreceived (concat zs)))). split; [now apply (mlives_list bl c)|].
  assert (ND : NoDup (map mg_domain l)) by apply K. destruct (madd_all_spec (map group_gtid (mreceived (concat zs))) l ND) as (_ & H & _). exact H.
Qed.
Print Assumptions C107_mariadb_position.
Lemma beyond_add l t u : NoDup (map mg_domain l) -> beyond (madd_all l [group_gtid t]) u = (if group_domain t =? group_domain u then group_seq t <? group_seq u else beyond l u).
Proof.
  intros ND. destruct (madd_all_spec [group_gtid t] l ND) as (_ & H & _). unfold beyond. rewrite H. cbn [rev app domain_gtid find]. unfold domain_gtid at 1. cbn [find].
  unfold group_domain, group_seq. destruct (mg_domain (group_gtid t) =? mg_domain (group_gtid u)); reflexivity.
Qed.
Lemma beyond_later ts : forall l u, NoDup (map mg_domain l) -> increasing ts -> Forall (fun t => beyond l t = true) ts -> beyond (madd_all l (map group_gtid ts)) u = true ->
  Forall (fun t => group_domain u = group_domain t -> group_seq t < group_seq u) ts /\ beyond l u = true.
Proof.
  induction ts as [|t ts IH]; intros l u ND I B U; [split; [constructor|exact U]|]. destruct I as [I1 I2]. apply Forall_cons_iff in B. destruct B as [B1 B2].
  change (map group_gtid (t :: ts)) with ([group_gtid t] ++ map group_gtid ts) in U. rewrite madd_app in U.
  destruct (madd_all_spec [group_gtid t] l ND) as (ND1 & _).
  destruct (IH _ u ND1 I2) as [J1 J2]; [|exact U|].
  - rewrite Forall_forall in *. intros v Hv. rewrite beyond_add by exact ND. destruct (group_domain t =? group_domain v) eqn:E; [|now apply B2].
    apply N.eqb_eq in E. apply N.ltb_lt. apply I1; auto.
  - rewrite beyond_add in J2 by exact ND. destruct (group_domain t =? group_domain u) eqn:E.
    + apply N.eqb_eq in E. apply N.ltb_lt in J2. split; [constructor; auto|]. unfold beyond in *. rewrite <- E. destruct (domain_gtid l (group_domain t)) as [g|]; [|reflexivity].
      apply N.ltb_lt in B1. apply N.ltb_lt. lia.
    + apply N.eqb_neq in E. split; [constructor; [intros X; congruence|exact J1]|exact J2].
Qed.
Lemma onward_app a : forall b, increasing a -> increasing b -> Forall (fun u => Forall (fun t => group_domain u = group_domain t -> group_seq t < group_seq u) a) b -> increasing (a ++ b).
Proof.
  induction a as [|t a IH]; intros b A B F; cbn [app increasing]; [exact B|]. destruct A as [A1 A2]. split.
  - apply Forall_app. split; [exact A1|]. eapply Forall_impl; [|exact F]. cbn beta. intros u Hu. now apply Forall_cons_iff in Hu.
  - apply IH; auto. eapply Forall_impl; [|exact F]. cbn beta. intros u Hu. now apply Forall_cons_iff in Hu.
Qed.
Definition onward (l : list mgtid) (ts : list group) : Prop := increasing ts /\ Forall (fun t => beyond l t = true) ts.
Lemma onward_join l a b : NoDup (map mg_domain l) -> onward l a -> onward (madd_all l (map group_gtid a)) b -> onward l (a ++ b).
Proof.
  intros ND [A1 A2] [B1 B2]. split.
  - apply onward_app; auto. eapply Forall_impl; [|exact B2]. cbn beta. intros u Hu. now apply (beyond_later a l u ND A1 A2).
  - apply Forall_app. split; [exact A2|]. eapply Forall_impl; [|exact B2]. cbn beta. intros u Hu. now apply (beyond_later a l u ND A1 A2).
Qed.
Lemma mroams_onward bl c ys c2 : Forall (fun y => mlog_fine (fst y)) ys -> mroams bl c ys c2 -> forall l, msaved c l -> onward l (mreceived ys).
Proof.
  intros LF R. induction R as [c|ev st log c xs c1 ys c2 ID C R IH]; intros l K; [split; constructor|]. apply Forall_cons_iff in LF. destruct LF as [L1 LF]. cbn [fst] in L1.
  unfold mreceived. cbn [flat_map snd]. apply onward_join; [apply K| |exact (IH LF _ (mstay bl ev st log c xs c1 l ID L1 K C))].
  destruct (C82_delivery bl ev st log c xs c1 l ID L1 K C) as (_ & rest & _ & S & _). split.
  - pose proof (increasing_filter (beyond l) log (proj1 L1)) as I. fold (to_send l log) in I. rewrite S in I. now apply increasing_app in I.
  - apply Forall_forall. intros t Ht. assert (X : In t (to_send l log)) by (rewrite S; apply in_or_app; now left). unfold to_send in X. now apply filter_In in X.
Qed.
Theorem C107_mariadb_once : forall bl c zs c2 l, Forall (Forall (fun y => mlog_fine (fst y))) zs -> mlives bl c zs c2 -> msaved c l ->
  NoDup (map (fun t => (group_domain t, group_seq t)) (mreceived (concat zs))) /\
  Forall (fun t => forall g, domain_gtid l (group_domain t) = Some g -> mg_seq g < group_seq t) (mreceived (concat zs)).
Proof.
  intros bl c zs c2 l LF R K. assert (X : onward l (mreceived (concat zs))).
  { revert l K. induction R as [c ys c2 R|c ys c1 l1 l' zs c2 R O E L IH]; intros l K; apply Forall_cons_iff in LF; destruct LF as [L1 LF].
    - cbn [concat]. rewrite app_nil_r. now apply (mroams_onward bl c ys c2).
    - pose proof (mroams_list bl c ys c1 L1 R l K) as K1. assert (X : madd_all l (map group_gtid (mreceived ys)) = l1) by (destruct K1 as (_ & K1 & _); congruence). rewrite X in K1.
      destruct (C107_mariadb_restart c1 l1 K1) as [E' K']. assert (l' = l1) as -> by congruence.
      cbn [concat]. rewrite mreceived_app. apply onward_join; [apply K|exact (mroams_onward bl c ys c1 L1 R l K)|]. rewrite X. exact (IH LF l1 K'). }
  destruct X as [X1 X2]. split.
  - clear - X1. induction (mreceived (concat zs)) as [|t r IH]; cbn [map]; [constructor|]. destruct X1 as [A B]. constructor; [|now apply IH].
    intros H. apply in_map_iff in H. destruct H as (u & E & Hu). injection E as E1 E2. rewrite Forall_forall in A. pose proof (A u Hu E1). lia.
  - eapply Forall_impl; [|exact X2]. cbn beta. intros t B g G. unfold beyond in B. rewrite G in B. now apply N.ltb_lt.
Qed.
Print Assumptions C107_mariadb_once.
(* a connection to a replica with the whole log, taken to its end in any run: over all runs exactly the groups after the first position *)
Lemma gpassed_all is : forall k, (length (mstream_events is) <= k)%nat -> gpassed k is = mstream_groups is.
Proof.
  induction is as [|i r IH]; intros k H; [reflexivity|]. unfold mstream_events in H. cbn [flat_map] in H. rewrite app_length in H. fold (mstream_events r) in H.
  cbn [gpassed]. destruct (k <? length (mitem_events i))%nat eqn:E; [apply Nat.ltb_lt in E; lia|]. rewrite IH by lia. reflexivity.
Qed.
Lemma mcontact_end bl ev st log x : s_server_id st < 4294967296 -> mlog_fine log -> (length (mstream_events (ms_items x)) <= ms_cut x)%nat ->
  forall c zs c2, mcontacts bl ev st log c zs c2 -> zs = [x] -> forall l, msaved c l -> exists l2, msaved c2 l2 /\ to_send l2 log = [].
Proof.
  intros ID LF H c zs c2 C. induction C as [c|c cs e w' xs c2 E C IH|c cs ck w1 w' qs a q b l is its pk w2 n evs sm c' xs c2 EC E SE EQ ST NB IO MG L F B T CO C IH]; intros Z l0 K; [discriminate| |].
  - apply (IH Z l0). pose proof (replicate_keeps bl ev st (World c cs []) _ _ (proj1 K) E) as O. cbn [w_client] in O. unfold msaved in *. now rewrite O.
  - injection Z as <- ->. cbn [ms_items ms_cut] in H.
    destruct (mstep bl ev st log c l0 cs ck w1 w' qs a q b l is its pk w2 n evs sm c' ID LF K EC E SE EQ ST NB IO MG L F B T CO) as (l1 & rest & K1 & S0 & S1 & ->).
    rewrite (gpassed_all is _ H), MG in S0. assert (R : rest = []) by (apply (app_inv_head (to_send l0 log)); now rewrite app_nil_r, <- S0).
    destruct (C82_delivery bl ev st log c' [] c2 l1 ID LF K1 C) as (l2 & rest2 & K2 & T1 & T2). exists l2. split; [exact K2|]. rewrite T2. rewrite S1, R in T1. symmetry in T1. exact T1.
Qed.
Lemma mroams_end bl full c ys xs x zs c2 l : mlog_fine full -> Forall (fun y => exists more, full = fst y ++ more) (ys ++ (full, xs ++ [x]) :: zs) ->
  mroams bl c (ys ++ (full, xs ++ [x]) :: zs) c2 -> msaved c l -> (length (mstream_events (ms_items x)) <= ms_cut x)%nat ->
  exists l2, msaved c2 l2 /\ to_send l2 full = [].
Proof.
  intros FU P R K H. revert c l P R K. induction ys as [|y ys IH]; intros c l P R K; cbn [app] in *; apply Forall_cons_iff in P; destruct P as [P1 P].
  - inversion R as [|ev st ? ? ? c1 ? ? ID C R1]; subst. destruct (mcontacts_app bl ev st full c xs [x] c1 C) as (c0 & C0 & C1).
    destruct (C82_delivery bl ev st full c xs c0 l ID FU K C0) as (l0 & _ & K0 & _).
    destruct (mcontact_end bl ev st full x ID FU H c0 [x] c1 C1 eq_refl l0 K0) as (l1 & K1 & E1).
    destruct (C105_mariadb_replicas bl full c1 zs c2 l1 FU P R1 K1) as (l2 & rest & K2 & T1 & T2). exists l2. split; [exact K2|]. rewrite T2. rewrite E1 in T1. symmetry in T1. now apply app_eq_nil in T1.
  - inversion R as [|ev st log' ? xs' c1 ? ? ID C R1]; subst. assert (L1 : mlog_fine log').
    { destruct P1 as (more & E). cbn [fst] in E. destruct FU as [F1 F2]. rewrite E in F1, F2. apply Forall_app in F2. split; [now apply increasing_app in F1|apply F2]. }
    exact (IH c1 _ P R1 (mstay bl ev st log' c xs' c1 l ID L1 K C)).
Qed.
Theorem C107_mariadb_everything : forall bl full c ws ys xs x zs us c2 l, mlog_fine full ->
  Forall (Forall (fun y => exists more, full = fst y ++ more)) (ws ++ (ys ++ (full, xs ++ [x]) :: zs) :: us) ->
  mlives bl c (ws ++ (ys ++ (full, xs ++ [x]) :: zs) :: us) c2 -> msaved c l -> (length (mstream_events (ms_items x)) <= ms_cut x)%nat ->
  mreceived (concat (ws ++ (ys ++ (full, xs ++ [x]) :: zs) :: us)) = to_send l full.
Proof.
  intros bl full c ws ys xs x zs us c2 l FU P R K H.
  assert (X : exists l2, msaved c2 l2 /\ to_send l2 full = []).
  { revert c l P R K. induction ws as [|w ws IH]; intros c l P R K; cbn [app] in *; apply Forall_cons_iff in P; destruct P as [P1 P].
    - inversion R as [? ? ? R1|? ? c1 l1 l' ? ? R1 O E R2]; subst; [exact (mroams_end bl full c ys xs x zs c2 l FU P1 R1 K H)|].
      destruct (mroams_end bl full c ys xs x zs c1 l FU P1 R1 K H) as (y & K1 & E1). assert (y = l1) as -> by (destruct K1 as (_ & K1 & _); congruence).
      destruct (C107_mariadb_restart c1 l1 K1) as [E' K']. assert (l' = l1) as -> by congruence.
      destruct (C107_mariadb_replicas bl full _ us c2 l1 FU P R2 K') as (l2 & rest & K2 & T1 & T2). exists l2. split; [exact K2|]. rewrite T2. rewrite E1 in T1. symmetry in T1. now apply app_eq_nil in T1.
    - inversion R as [? ? ? R1 E1 E2|? ? c1 l1 l' ? ? R1 O E R2]; subst; [destruct ws; discriminate|].
      destruct (C105_mariadb_replicas bl full c w c1 l FU P1 R1 K) as (y & _ & K1 & _). assert (y = l1) as -> by (destruct K1 as (_ & K1 & _); congruence).
      destruct (C107_mariadb_restart c1 l1 K1) as [E' K']. assert (l' = l1) as -> by congruence. exact (IH _ l1 P R2 K'). }
  destruct X as (l2 & K2 & E2). destruct (C107_mariadb_replicas bl full c _ c2 l FU P R K) as (y & rest & K3 & T1 & T2).
  assert (y = l2) as -> by (destruct K2 as (_ & K2 & _); destruct K3 as (_ & K3 & _); congruence). rewrite T1, <- T2, E2. now rewrite app_nil_r.
Qed.
Print Assumptions C107_mariadb_everything.

(* the first run ends when its connection breaks in the second transaction; the second begins with the text "...:1-5" *)
Definition set107 : gtid_set := [(utext (uuid_new e1), UuidSet (uuid_new e1) [Interval 1 5])].
Definition w107_2 : world := Eval vm_compute in snd (link74 (client_new (from_mysql_gtid set107)) (pk_fd ++ pk_ddl) 1000).
Definition c107_2 : client := Eval vm_compute in client74 (commit_all Release (w_client w107_2) (stream_events [Service ev_fd; Txn ex_ddl])).
Definition runs107 : list (list stay) := [[(log74, [Session items66 7])]; [(log74, [Session [Service ev_fd; Txn ex_ddl] 3])]].
Example C107_example : lives Release c74_0 runs107 c107_2 /\ log_fine log74 /\ saved c74_0 set1 /\ keys36 set1 /\
  missing (set_has set1) log74 [ex_txn; ex_ddl] /\ received (concat runs107) = [ex_txn; ex_ddl] /\
  gtid_set_text set107 = tx "24bc7850-2c16-11e6-a073-0242ac110001:1-5" /\ option_map gtid_set_text (o_set (c_opts c107_2)) = Some (tx "24bc7850-2c16-11e6-a073-0242ac110001:1-6").
Proof.
  destruct C74_example as (_ & LF & SA & PE & MI & _).
  assert (G : forall a n, srv_has [(e1, [(1, a)])] e1 n <-> 1 <= n < a).
  { intros a n. split.
    - intros (ivs & x & y & [E|[]] & Hi & Hn). inv E. destruct Hi as [E|[]]. inv E. exact Hn.
    - intros Hn. exists [(1, a)], 1, a. split; [now left|]. split; [now left|exact Hn]. }
  split; [|split; [exact LF|split; [exact SA|split; [repeat constructor|split; [exact MI|split; [reflexivity|split; vm_compute; reflexivity]]]]]].
  assert (L3 : log_written (Writer CkCrc32 []) (stream_events [Service ev_fd; Txn ex_ddl]) (pk_fd ++ pk_ddl) (Writer CkCrc32 [])).
  { cbn [stream_events flat_map item_events app]. apply w_fd. rewrite <- (app_nil_r pk_ddl). apply w_ddl. constructor. }
  destruct (C66_events_partial Release CkCrc32 (stream_events items66) packets66 (Writer CkCrc32 [ex_table]) (w_in w74_1) (cut66 + 60) (proj1 C66_example)) as (s1 & T1 & _);
    [repeat constructor; discriminate|vm_compute; reflexivity|].
  replace (arrived (cut66 + 60) packets66) with 7%nat in T1 by (vm_compute; reflexivity).
  destruct (C66_events_partial Release CkCrc32 _ _ _ (w_in w107_2) 1000 L3) as (s3 & T3 & _); [repeat constructor; discriminate|vm_compute; reflexivity|].
  replace (arrived 1000 (pk_fd ++ pk_ddl)) with 3%nat in T3 by (vm_compute; reflexivity).
  unfold runs107.
  apply (li_again Release c74_0 _ c74_1 set107 set107 set107); [|reflexivity|apply Permutation_refl|vm_compute; reflexivity|apply li_last].
  - apply (ro_stay Release env0 st0 _ _ _ c74_1); [exact PE|reflexivity| |constructor].
    change (Session items66 7) with (Session items66 (length (firstn 7 (stream_events items66)))).
    eapply (co_stream Release env0 st0 log74 c74_0 _ CkCrc32 w74_1 (removelast (sent (w_log w74_1))) (fst (last (sent (w_log w74_1)) ([], 9)))).
    + split; [reflexivity|]. intros s E. inv E. reflexivity.
    + instantiate (1 := [Got (flat_map wire (number ([mysql_hello; okp] ++ good_answers)) ++ firstn (cut66 + 60) (flat_map wire packets66))]). vm_compute. reflexivity.
    + vm_compute. reflexivity.
    + vm_compute. reflexivity.
    + exact (proj1 (proj2 C66_example)).
    + cbn [sg_set]. apply missing_skip; [apply (G 5 3); lia|]. apply missing_send; [intros Hx; apply (G 5 5) in Hx; lia|].
      apply missing_send; [intros Hx; apply (G 5 6) in Hx; lia|]. constructor.
    + exact (sent_written _ _ _ _ (proj1 C66_example)).
    + repeat constructor; discriminate.
    + instantiate (1 := (cut66 + 60)%nat). vm_compute. reflexivity.
    + exact T1.
    + vm_compute. reflexivity.
    + constructor.
  - apply (ro_stay Release env0 st0 _ _ _ c107_2); [exact PE|reflexivity| |constructor].
    change (Session [Service ev_fd; Txn ex_ddl] 3) with (Session [Service ev_fd; Txn ex_ddl] (length (firstn 3 (stream_events [Service ev_fd; Txn ex_ddl])))).
    eapply (co_stream Release env0 st0 log74 _ _ CkCrc32 w107_2 (removelast (sent (w_log w107_2))) (fst (last (sent (w_log w107_2)) ([], 9)))).
    + split; [reflexivity|]. intros s E. inv E. reflexivity.
    + instantiate (1 := [Got (flat_map wire (number ([mysql_hello; okp] ++ good_answers)) ++ firstn 1000 (flat_map wire (pk_fd ++ pk_ddl)))]). vm_compute. reflexivity.
    + vm_compute. reflexivity.
    + vm_compute. reflexivity.
    + repeat constructor.
    + cbn [sg_set]. apply missing_skip; [apply (G 6 3); lia|]. apply missing_skip; [apply (G 6 5); lia|].
      apply missing_send; [intros Hx; apply (G 6 6) in Hx; lia|]. constructor.
    + exact (sent_written _ _ _ _ L3).
    + repeat constructor; discriminate.
    + instantiate (1 := 1000%nat). vm_compute. reflexivity.
    + exact T3.
    + vm_compute. reflexivity.
    + constructor.
Qed.
(* the last connection is taken to its end *)
Example C107_everything_example : received (concat runs107) = [ex_txn; ex_ddl].
Proof.
  destruct C107_example as (L & LF & SA & K & MI & _).
  apply (C107_everything Release log74 c74_0 [[(log74, [Session items66 7])]] [] [] (Session [Service ev_fd; Txn ex_ddl] 3) [] [] c107_2 set1 [ex_txn; ex_ddl] LF); [|exact L|exact SA|exact K| |exact MI].
  - repeat constructor; exists []; symmetry; apply app_nil_r.
  - apply le_n.
Qed.
(* MariaDB: started, stopped before the first connection, started again from "0-3-10", stopped, started from "0-3-11,1-3-5" *)
Example C107_mariadb_example : mlives Release c82_0 [[]; stays105m; []] (client_new (from_mariadb_gtid [g82 0 11; g82 1 5])) /\ mlog_fine (log82 ++ [new82]) /\
  Forall (Forall (fun y => exists more, log82 ++ [new82] = fst y ++ more)) [[]; stays105m; []] /\ msaved c82_0 [g82 0 10] /\ mreceived (concat [[]; stays105m; []]) = [rows82; ddl82].
Proof.
  destruct C105_mariadb_example as (R & F & P & K & _ & E & _). split; [|split; [exact F|split; [|split; [exact K|]]]].
  - apply (mli_again Release c82_0 [] c82_0 [g82 0 10] [g82 0 10]); [constructor|reflexivity|vm_compute; reflexivity|].
    apply (mli_again Release _ stays105m c82_2 [g82 0 11; g82 1 5] [g82 0 11; g82 1 5]); [exact R|reflexivity|vm_compute; reflexivity|]. apply mli_last. constructor.
  - constructor; [constructor|]. constructor; [exact P|]. constructor; constructor.
  - cbn [concat app]. rewrite app_nil_r. exact E.
Qed.
Example C107_mariadb_everything_example : mreceived (concat [[]; stays105m; []]) = to_send [g82 0 10] log82.
Proof.
  destruct C107_mariadb_example as (L & [F1 F2] & _ & K & _).
  apply (C107_mariadb_everything Release log82 c82_0 [[]] [(log82, [MSession items82_1 6])] [] (MSession items82_2 3) [] [[]] (client_new (from_mariadb_gtid [g82 0 11; g82 1 5])) [g82 0 10]); [|repeat constructor; exists []; symmetry; apply app_nil_r|exact L|exact K|apply le_n].
  apply Forall_app in F2. split; [now apply increasing_app in F1|apply F2].
Qed.
Example C107_mariadb_once_example : NoDup (map (fun t => (group_domain t, group_seq t)) (mreceived (concat [[]; stays105m; []]))) /\
  map (fun t => (group_domain t, group_seq t)) (mreceived (concat [[]; stays105m; []])) = [(0, 11); (1, 5)].
Proof.
  destruct C107_mariadb_example as (L & [F1 F2] & _ & K & E). split; [|rewrite E; reflexivity]. apply Forall_app in F2. assert (F : mlog_fine log82) by (split; [now apply increasing_app in F1|apply F2]).
  apply (C107_mariadb_once Release c82_0 _ (client_new (from_mariadb_gtid [g82 0 11; g82 1 5])) [g82 0 10]); [|exact L|exact K].
  apply Forall_cons; [constructor|]. apply Forall_cons; [|apply Forall_cons; constructor]. apply Forall_cons; [exact F|]. apply Forall_cons; [exact F|constructor].
Qed.
