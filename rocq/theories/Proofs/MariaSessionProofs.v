(* What a MariaDB server sends after a break is the rest (C82). *)
From Coq Require Import Strings.String.
From Verif Require Import Base.Tac Base.Bytes Base.Text Base.Res Base.Str Model.Gtid Model.GtidMaria Model.Events Model.Client Model.Responses Model.Channel Model.Session
  Spec.GtidMariaSpec Spec.ClientSpec Spec.ChannelSpec Spec.SessionSpec Spec.PipelineSpec Spec.MariaSessionSpec
  Proofs.GtidMariaProofs Proofs.ClientProofs.
Local Open Scope N_scope.

(* ---- order ---- *)
Lemma increasing_app a b : increasing (a ++ b) -> increasing a /\ increasing b /\
  forall t u, In t a -> In u b -> group_domain u = group_domain t -> group_seq t < group_seq u.
Proof.
  induction a as [|x a IH]; cbn [app increasing]; intros H; [repeat split; auto; intros t u []|].
  destruct H as [H1 H2]. destruct (IH H2) as (A & B & C). apply Forall_app in H1. destruct H1 as [H1 H3].
  split; [auto|]. split; [exact B|]. intros t u [<-|Ht] Hu; [rewrite Forall_forall in H3; auto|auto].
Qed.
Lemma increasing_filter f l : increasing l -> increasing (filter f l).
Proof.
  induction l as [|x l IH]; cbn [filter increasing]; [auto|]. intros [H1 H2]. destruct (f x); [|auto]. cbn [increasing]. split; [|auto].
  apply Forall_forall. intros u Hu. apply filter_In in Hu. rewrite Forall_forall in H1. now apply H1.
Qed.
Lemma last_snoc d l g : last_of_domain d (l ++ [g]) = if mg_domain g =? d then Some g else last_of_domain d l.
Proof. unfold last_of_domain. rewrite rev_app_distr. reflexivity. Qed.
Lemma last_in d l g : last_of_domain d (map group_gtid l) = Some g -> exists t, In t l /\ group_gtid t = g /\ group_domain t = d.
Proof.
  unfold last_of_domain. intros H. apply find_some in H. destruct H as [H1 H2]. apply in_rev, in_map_iff in H1. destruct H1 as (t & <- & H1).
  exists t. apply N.eqb_eq in H2. auto.
Qed.
Lemma last_max l : increasing l -> forall t, In t l -> exists g, last_of_domain (group_domain t) (map group_gtid l) = Some g /\ group_seq t <= mg_seq g.
Proof.
  induction l as [|x l IH] using rev_ind; intros H t Ht; [destruct Ht|]. apply increasing_app in H. destruct H as (H1 & _ & H2).
  rewrite map_app. cbn [map]. rewrite last_snoc. apply in_app_or in Ht. destruct Ht as [Ht|[<-|[]]].
  - destruct (N.eqb_spec (mg_domain (group_gtid x)) (group_domain t)) as [E|E]; [|now apply IH].
    exists (group_gtid x). split; [reflexivity|]. specialize (H2 t x Ht (or_introl eq_refl) E). unfold group_seq in *. lia.
  - unfold group_domain. rewrite N.eqb_refl. exists (group_gtid x). split; [reflexivity|unfold group_seq; lia].
Qed.
Lemma filter_id {A} (f : A -> bool) l : (forall x, In x l -> f x = true) -> filter f l = l.
Proof. induction l as [|x l IH]; cbn [filter]; intros H; [reflexivity|]. rewrite H by now left. f_equal. apply IH. intros y Hy. apply H. now right. Qed.
Lemma filter_nil {A} (f : A -> bool) l : (forall x, In x l -> f x = false) -> filter f l = [].
Proof. induction l as [|x l IH]; cbn [filter]; intros H; [reflexivity|]. rewrite H by now left. apply IH. intros y Hy. apply H. now right. Qed.
Lemma filter_sub {A} (f g : A -> bool) l : (forall x, In x l -> f x = false -> g x = false) -> filter g l = filter g (filter f l).
Proof.
  induction l as [|x l IH]; cbn [filter]; intros H; [reflexivity|]. destruct (f x) eqn:E; cbn [filter].
  - destruct (g x); [f_equal|]; apply IH; intros y Hy; apply H; now right.
  - rewrite (H x (or_introl eq_refl) E). apply IH. intros y Hy. apply H. now right.
Qed.
(* positions moved to the last of the groups done leave the rest *)
Theorem send_rest log l l' dn rest : increasing log -> to_send l log = dn ++ rest ->
  (forall d, domain_gtid l' d = match last_of_domain d (map group_gtid dn) with Some g => Some g | None => domain_gtid l d end) ->
  to_send l' log = rest.
Proof.
  intros I S H. assert (IS : increasing (dn ++ rest)) by (rewrite <- S; now apply increasing_filter).
  destruct (increasing_app _ _ IS) as (I1 & _ & I3). unfold to_send in *.
  assert (F : forall t, In t dn -> beyond l t = true). { intros t Ht. assert (X : In t (filter (beyond l) log)) by (rewrite S; apply in_or_app; auto). now apply filter_In in X. }
  assert (G : forall t, In t rest -> beyond l t = true). { intros t Ht. assert (X : In t (filter (beyond l) log)) by (rewrite S; apply in_or_app; auto). now apply filter_In in X. }
  rewrite (filter_sub (beyond l) (beyond l') log), S, filter_app.
  - rewrite filter_nil, filter_id; [reflexivity| |].
    + intros t Ht. unfold beyond. rewrite H. destruct (last_of_domain _ _) as [g|] eqn:E; [|exact (G t Ht)].
      apply last_in in E. destruct E as (u & Hu & <- & Hd). apply N.ltb_lt. apply (I3 u t Hu Ht). congruence.
    + intros t Ht. unfold beyond. rewrite H. destruct (last_max dn I1 t Ht) as (g & -> & L). apply N.ltb_ge. exact L.
  - intros t _ Ht. unfold beyond in *. rewrite H. destruct (domain_gtid l (group_domain t)) as [g0|] eqn:E0; [|discriminate Ht]. apply N.ltb_ge in Ht.
    destruct (last_of_domain _ _) as [g|] eqn:E; [|apply N.ltb_ge; exact Ht]. apply last_in in E. destruct E as (u & Hu & <- & Hd).
    specialize (F u Hu). unfold beyond in F. rewrite Hd, E0 in F. apply N.ltb_lt in F. apply N.ltb_ge. unfold group_seq in *. lia.
Qed.

(* ---- complete groups ---- *)
Lemma gcompleted_gtids is : forall k, mcompleted k is = map group_gtid (gcompleted k is).
Proof.
  induction is as [|i is IH]; intros k; cbn [mcompleted gcompleted]; [reflexivity|]. destruct (k <? _)%nat; [reflexivity|].
  rewrite map_app, IH. f_equal. now destruct i.
Qed.
Lemma gcompleted_prefix is : forall k, exists rest, mstream_groups is = gcompleted k is ++ rest.
Proof.
  induction is as [|i is IH]; intros k; cbn [gcompleted]; [now exists []|]. unfold mstream_groups in *. cbn [flat_map].
  destruct (k <? _)%nat; [eexists; reflexivity|]. destruct (IH (k - length (mitem_events i))%nat) as [rest E]. exists rest. now rewrite E, app_assoc.
Qed.
Lemma madd_ok l g : Forall mgtid_ok l -> mgtid_ok g -> Forall mgtid_ok (snd (gtid_list_add l g)).
Proof.
  intros H G. induction l as [|x l IH]; cbn [gtid_list_add]; [repeat constructor; apply G|]. apply Forall_cons_iff in H. destruct H as [H1 H2].
  destruct (_ =? _); [constructor; assumption|]. specialize (IH H2). destruct (gtid_list_add l g). cbn [snd] in *. constructor; assumption.
Qed.
Lemma madd_all_ok h : forall l, Forall mgtid_ok l -> Forall mgtid_ok h -> Forall mgtid_ok (madd_all l h).
Proof. induction h as [|g h IH]; intros l H G; cbn [madd_all]; [exact H|]. apply Forall_cons_iff in G. destruct G. apply IH; [now apply madd_ok|assumption]. Qed.

(* no set, no set afterwards *)
Lemma commit_gtid_noset bl c c' : commit_gtid bl c = Ok c' -> o_set (c_opts c) = None -> o_set (c_opts c') = None.
Proof.
  unfold commit_gtid. intros E S. destruct (c_maria c), (o_list (c_opts c)); destruct (c_mysql c); cbn [with_list o_set] in E; rewrite ?S in E; cbn [rbind] in E;
    injection E as <-; cbn [c_opts o_set with_list]; exact S.
Qed.
Lemma position_set c h e : o_set (c_opts (update_binlog_position c h e)) = o_set (c_opts c).
Proof. unfold update_binlog_position. destruct e; try reflexivity; destruct (0 <? h_next h); reflexivity. Qed.
Lemma commit_noset bl c h e c' : commit bl c h e = Ok c' -> o_set (c_opts c) = None -> o_set (c_opts c') = None.
Proof.
  unfold commit. intros E S. destruct (update_gtid_position bl c e) as [c1|x| |] eqn:U; cbn [rbind] in E; try discriminate. assert (X : c' = update_binlog_position c1 h e) by congruence.
  rewrite X, position_set. clear X E. unfold update_gtid_position in U. destruct (negb _); [congruence|].
  destruct e; try (injection U as <-; exact S); try (eapply commit_gtid_noset; eassumption).
  destruct (q_sql q) as [|x r]; [congruence|]. destruct (text_eqb _ (tx "BEGIN")); [injection U as <-; exact S|]. destruct (_ || _); [eapply commit_gtid_noset; eassumption|].
  destruct (negb (c_txn c)); [eapply commit_gtid_noset; eassumption|congruence].
Qed.
Lemma commits_noset bl es : forall c c', commit_all bl c es = Ok c' -> o_set (c_opts c) = None -> o_set (c_opts c') = None.
Proof.
  induction es as [|[h e] es IH]; intros c c' E S; cbn [commit_all] in E; [congruence|]. destruct (commit bl c h e) as [c1|x| |] eqn:C; cbn [rbind] in E; try discriminate.
  eapply IH; [exact E|]. eapply commit_noset; eassumption.
Qed.

(* ---- groups with statements before their end ---- *)
Lemma madd_same l g : snd (gtid_list_add (snd (gtid_list_add l g)) g) = snd (gtid_list_add l g).
Proof.
  induction l as [|x l IH]; cbn [gtid_list_add]; [cbn; now rewrite N.eqb_refl|].
  destruct (mg_domain x =? mg_domain g) eqn:E; cbn [snd gtid_list_add]; [now rewrite N.eqb_refl|].
  destruct (gtid_list_add l g) as [b l'] eqn:Q. cbn [snd gtid_list_add] in *. rewrite E. destruct (gtid_list_add l' g) as [b2 l2] eqn:Q2. cbn [snd] in *. now rewrite IH.
Qed.
Lemma finish_group bl c h e g l : update_gtid_position bl c e = commit_gtid bl c ->
  c_maria c = Some g -> o_list (c_opts c) = Some l -> o_set (c_opts c) = None ->
  exists c', commit bl c h e = Ok c' /\ o_strategy (c_opts c') = o_strategy (c_opts c) /\
    o_list (c_opts c') = Some (snd (gtid_list_add l g)) /\ o_set (c_opts c') = None /\ c_txn c' = false /\ c_maria c' = Some g.
Proof.
  intros Hu Hg Hl Hs. assert (X : exists c1, commit_gtid bl c = Ok c1 /\ o_strategy (c_opts c1) = o_strategy (c_opts c) /\
    o_list (c_opts c1) = Some (snd (gtid_list_add l g)) /\ o_set (c_opts c1) = None /\ c_txn c1 = false /\ c_maria c1 = Some g).
  { unfold commit_gtid. rewrite Hg, Hl. cbn [with_list o_set]. rewrite Hs. destruct (c_mysql c); cbn [rbind]; eexists; (split; [reflexivity|]); cbn; auto. }
  destruct X as (c1 & H1 & H2 & H3 & H4 & H5 & H6). rewrite <- Hu in H1. destruct (commit_gst bl c h e c1 H1) as (c' & A & B). exists c'. split; [exact A|].
  gstd B. repeat split; congruence.
Qed.
(* the events of a group after its GTID *)
Lemma body_moves bl g es : Forall (fun x => is_gtid (snd x) = false) es -> forall c l, mode c -> c_maria c = Some g -> o_list (c_opts c) = Some l -> o_set (c_opts c) = None ->
  exists c', commit_all bl c es = Ok c' /\ mode c' /\ c_maria c' = Some g /\ o_set (c_opts c') = None /\
    o_list (c_opts c') = Some (if (if c_txn c then existsb (fun y => is_end (snd y)) es else settles es) then snd (gtid_list_add l g) else l).
Proof.
  induction 1 as [|[h e] es He Hes IH]; intros c l Hm Hg Hl Hs; cbn [commit_all existsb settles snd] in *.
  - exists c. repeat split; auto. now destruct (c_txn c).
  - assert (FIN : update_gtid_position bl c e = commit_gtid bl c -> exists c', rbind (commit bl c h e) (fun c1 => commit_all bl c1 es) = Ok c' /\ mode c' /\ c_maria c' = Some g /\ o_set (c_opts c') = None /\ o_list (c_opts c') = Some (snd (gtid_list_add l g))).
    { intros U. destruct (finish_group bl c h e g l U Hg Hl Hs) as (c1 & -> & A1 & A2 & A3 & A4 & A5). cbn [rbind].
      destruct (IH c1 _ (eq_trans A1 Hm) A5 A2 A3) as (c2 & -> & B1 & B2 & B3 & B4). exists c2. repeat split; auto. rewrite B4, madd_same. now destruct (if c_txn c1 then _ else _). }
    assert (KEEP : forall c1, commit bl c h e = Ok c1 -> gst c1 = gst c -> exists c', rbind (commit bl c h e) (fun c1 => commit_all bl c1 es) = Ok c' /\ mode c' /\ c_maria c' = Some g /\ o_set (c_opts c') = None /\
       o_list (c_opts c') = Some (if (if c_txn c then existsb (fun y => is_end (snd y)) es else settles es) then snd (gtid_list_add l g) else l)).
    { intros c1 -> G. gstd G. cbn [rbind]. destruct (IH c1 l) as (c2 & -> & B1 & B2 & B3 & B4) ; try (unfold mode in *; congruence). exists c2. repeat split; auto.
      rewrite B4. match goal with X : c_txn c1 = c_txn c |- _ => now rewrite X end. }
    destruct (is_end e) eqn:EE; [cbn [orb]; replace (if c_txn c then true else true) with true by (now destruct (c_txn c)); apply FIN; now apply end_update|].
    cbn [orb]. destruct (c_txn c) eqn:ET.
    + destruct (body_step bl c h e Hm ET EE He) as (c1 & X & G). exact (KEEP c1 X G).
    + destruct (is_statement e) eqn:ES; [cbn [orb]; apply FIN; now apply statement_update|]. cbn [orb].
      destruct (is_begin e) eqn:EB.
      * destruct (begin_step bl c h e Hm EB) as (c1 & -> & G). gstd G. cbn [rbind]. destruct (IH c1 l) as (c2 & -> & B1 & B2 & B3 & B4) ; try (unfold mode in *; congruence). exists c2. repeat split; auto.
        rewrite B4. match goal with X : c_txn c1 = true |- _ => now rewrite X end.
      * destruct (data_step bl c h e) as (c1 & X & G); [unfold is_data; now rewrite EB, EE, He, ES|]. exact (KEEP c1 X G).
Qed.
Lemma data_plain x : is_data x = true -> is_begin x = false /\ is_end x = false /\ is_gtid x = false /\ is_statement x = false.
Proof. unfold is_data. destruct (is_begin x), (is_end x), (is_gtid x), (is_statement x); cbn; intros; try discriminate; auto. Qed.
Lemma data_settles es r : Forall (fun x => is_data (snd x) = true) es -> settles (es ++ r) = settles r.
Proof. induction 1 as [|x es Hx Hes IH]; cbn [app settles]; [reflexivity|]. destruct (data_plain _ Hx) as (-> & -> & _ & ->). exact IH. Qed.
Lemma end_settles es e : is_end (snd e) = true -> settles (es ++ [e]) = true.
Proof.
  intros He. induction es as [|x es IH]; cbn [app settles]; [now rewrite He|]. rewrite IH. replace (existsb (fun y => is_end (snd y)) (es ++ [e])) with true.
  - destruct (is_begin (snd x)); apply orb_true_r.
  - symmetry. rewrite existsb_app. cbn [existsb]. rewrite He. cbn. apply orb_true_r.
Qed.
Lemma group_any t : exists hg g body e, group_events t = ((hg, EvMariaGtid g) :: body) ++ [e] /\ group_gtid t = ma_gtid g /\
  (group_ok t -> Forall (fun x => is_gtid (snd x) = false) (body ++ [e]) /\ settles (body ++ [e]) = true /\
     (is_end (snd e) = true \/ is_statement (snd e) = true /\ Forall (fun x => is_data (snd x) = true) body)).
Proof.
  assert (EG : forall x, is_end x = true \/ is_statement x = true -> is_gtid x = false) by (intros []; cbn; intros [|]; congruence).
  destruct t as [hg g body e|hg g pre q]; cbn [group_events group_gtid group_ok].
  - exists hg, g, body, e. split; [reflexivity|]. split; [reflexivity|]. intros [H1 H2]. split; [|split; [now apply end_settles|now left]].
    apply Forall_app. split; [eapply Forall_impl; [|exact H1]; cbn beta; tauto|repeat constructor; auto].
  - exists hg, g, pre, q. split; [reflexivity|]. split; [reflexivity|]. intros [H1 H2]. split; [|split; [rewrite data_settles by exact H1; cbn [settles]; rewrite H2; now rewrite orb_true_r|now right]].
    apply Forall_app. split; [|repeat constructor; auto]. eapply Forall_impl; [|exact H1]. cbn beta. intros x Hx. now apply data_plain in Hx.
Qed.
Lemma group_cut bl t l k : group_ok t -> forall c, mode c -> c_txn c = false -> o_list (c_opts c) = Some l -> o_set (c_opts c) = None ->
  exists c', commit_all bl c (firstn k (group_events t)) = Ok c' /\ mode c' /\ o_set (c_opts c') = None /\
    o_list (c_opts c') = Some (if settles (firstn k (group_events t)) then snd (gtid_list_add l (group_gtid t)) else l).
Proof.
  intros Hok c Hm Ht Hl Hs. destruct (group_any t) as (hg & g & body & e & E & Eg & H). destruct (H Hok) as (Hp & _). rewrite E, Eg.
  destruct k as [|k]; [exists c; repeat split; auto|]. rewrite <- app_comm_cons. cbn [firstn commit_all]. destruct (mgtid_step bl c hg g Hm) as (c1 & -> & E1). cbn [rbind]. gstd E1.
  destruct (body_moves bl (ma_gtid g) (firstn k (body ++ [e])) (Forall_firstn _ _ _ Hp) c1 l) as (c2 & X & B1 & B2 & B3 & B4) ; try (unfold mode in *; congruence).
  exists c2. repeat split; auto. rewrite B4. match goal with X : c_txn c1 = c_txn c |- _ => rewrite X, Ht end. cbn [settles snd is_end is_statement is_begin orb]. reflexivity.
Qed.
Lemma group_whole bl t l : group_ok t -> forall c, mode c -> c_txn c = false -> o_list (c_opts c) = Some l -> o_set (c_opts c) = None ->
  exists c', commit_all bl c (group_events t) = Ok c' /\ mode c' /\ o_set (c_opts c') = None /\ c_txn c' = false /\
    o_list (c_opts c') = Some (snd (gtid_list_add l (group_gtid t))).
Proof.
  intros Hok c Hm Ht Hl Hs. destruct (group_any t) as (hg & g & body & e & E & Eg & H). destruct (H Hok) as (Hp & Hse & He). apply Forall_app in Hp. destruct Hp as [Hp _].
  rewrite E, Eg, commit_all_app. cbn [commit_all]. destruct (mgtid_step bl c hg g Hm) as (c1 & -> & E1). cbn [rbind]. gstd E1.
  assert (X : exists c2 l2, commit_all bl c1 body = Ok c2 /\ mode c2 /\ c_maria c2 = Some (ma_gtid g) /\ o_set (c_opts c2) = None /\ o_list (c_opts c2) = Some l2 /\
    (l2 = l \/ l2 = snd (gtid_list_add l (ma_gtid g))) /\ (is_statement (snd e) = true -> is_end (snd e) = true \/ c_txn c2 = false)).
  { destruct (body_moves bl (ma_gtid g) body Hp c1 l) as (c2 & Y & B1 & B2 & B3 & B4) ; try (unfold mode in *; congruence). exists c2.
    eexists. split; [exact Y|]. split; [exact B1|]. split; [exact B2|]. split; [exact B3|]. split; [exact B4|]. split; [destruct (if c_txn c1 then _ else _); auto|].
    intros _. destruct He as [He|[_ Hd]]; [now left|right]. destruct (data_all bl body Hd c1) as (c3 & Z & G). gstd G. congruence. }
  destruct X as (c2 & l2 & -> & B1 & B2 & B3 & B4 & B5 & B6). cbn [rbind commit_all]. destruct e as [h e]. cbn [snd] in *.
  destruct (finish_group bl c2 h e (ma_gtid g) l2) as (c3 & -> & A1 & A2 & A3 & A4 & A5); auto.
  { destruct He as [He|[He _]]; [now apply end_update|]. destruct (B6 He) as [Z|Z]; [now apply end_update|now apply statement_update]. }
  cbn [rbind]. exists c3. repeat split; auto; [unfold mode in *; congruence|]. rewrite A2. destruct B5 as [-> | ->]; [reflexivity|]. now rewrite madd_same.
Qed.
Lemma madd_all_app a : forall b l, madd_all l (a ++ b) = madd_all (madd_all l a) b.
Proof. induction a as [|g a IH]; intros b l; cbn [app madd_all]; auto. Qed.
(* the list after any number of events of any such stream *)
Theorem commit_groups bl : forall is k c l,
  Forall mitem_any is -> mode c -> c_txn c = false -> o_list (c_opts c) = Some l -> o_set (c_opts c) = None ->
  exists c', commit_all bl c (firstn k (mstream_events is)) = Ok c' /\ o_list (c_opts c') = Some (madd_all l (map group_gtid (gpassed k is))).
Proof.
  induction is as [|i is IH]; intros k c l Hok Hm Ht Hl Hs.
  - exists c. unfold mstream_events. cbn [flat_map]. rewrite firstn_nil. auto.
  - apply Forall_cons_iff in Hok. destruct Hok as [Hi Hok]. unfold mstream_events in *. cbn [flat_map gpassed] in *.
    rewrite firstn_app, commit_all_app. destruct (Nat.ltb_spec k (length (mitem_events i))) as [Hk|Hk].
    + replace (k - length (mitem_events i))%nat with 0%nat by lia. cbn [firstn].
      destruct i as [x|t]; cbn [mitem_events mitem_any mitem_groups filter] in *.
      * cbn [length] in Hk. replace k with 0%nat by lia. cbn [firstn commit_all rbind map madd_all]. eauto.
      * destruct (group_cut bl t l k Hi c Hm Ht Hl Hs) as (c' & -> & B & C & D). cbn [rbind commit_all]. exists c'. split; [reflexivity|]. rewrite D. now destruct (settles _).
    + rewrite firstn_all2 by lia.
      assert (exists c', commit_all bl c (mitem_events i) = Ok c' /\ mode c' /\ o_list (c_opts c') = Some (madd_all l (map group_gtid (mitem_groups i))) /\
        o_set (c_opts c') = None /\ c_txn c' = false) as (c1 & -> & H1 & H2 & H3 & H4).
      { destruct i as [[h e]|t]; cbn [mitem_events mitem_any mitem_groups map madd_all] in *.
        - destruct (data_all bl [(h, e)]) with (c := c) as (c' & A & B); [constructor; auto|]. gstd B.
          exists c'. repeat split; auto; unfold mode in *; congruence.
        - destruct (group_whole bl t l Hi c Hm Ht Hl Hs) as (c' & A & B & C & D & F). exists c'. auto. }
      cbn [rbind]. destruct (IH (k - length (mitem_events i))%nat c1 _ Hok H1 H4 H2 H3) as (c' & A & B).
      exists c'. split; [exact A|]. rewrite B, map_app. f_equal. symmetry. apply madd_all_app.
Qed.
(* the groups passed: those complete, and the one cut if the part taken settles it *)
Lemma gpassed_split is : forall k, exists u, gpassed k is = gcompleted k is ++ u /\
  (u = [] \/ exists t j, u = [t] /\ (j < length (group_events t))%nat /\ settles (firstn j (group_events t)) = true).
Proof.
  induction is as [|i is IH]; intros k; cbn [gpassed gcompleted]; [exists []; auto|].
  destruct (Nat.ltb_spec k (length (mitem_events i))) as [Hk|Hk].
  - exists (filter (fun t => settles (firstn k (group_events t))) (mitem_groups i)). split; [reflexivity|]. destruct i as [x|t]; cbn [mitem_groups filter]; [now left|].
    destruct (settles _) eqn:E; [right; exists t, k; auto|now left].
  - destruct (IH (k - length (mitem_events i))%nat) as (u & -> & H). exists u. split; [apply app_assoc|exact H].
Qed.
Lemma gpassed_prefix is : forall k, exists rest, mstream_groups is = gpassed k is ++ rest.
Proof.
  induction is as [|i is IH]; intros k; cbn [gpassed]; [now exists []|]. unfold mstream_groups in *. cbn [flat_map].
  destruct (k <? _)%nat; [|destruct (IH (k - length (mitem_events i))%nat) as [rest E]; exists rest; now rewrite E, app_assoc].
  destruct i as [x|t]; cbn [mitem_groups filter]; [eexists; reflexivity|]. destruct (settles _); eexists; reflexivity.
Qed.
(* without statements before the end a cut group is not passed *)
Lemma gpassed_rows is : Forall mitem_ok is -> forall k, gpassed k is = gcompleted k is.
Proof.
  induction 1 as [|i is Hi His IH]; intros k; cbn [gpassed gcompleted]; [reflexivity|].
  destruct (Nat.ltb_spec k (length (mitem_events i))) as [Hk|Hk]; [|now rewrite IH]. destruct i as [x|t]; cbn [mitem_groups filter mitem_events mitem_ok] in *; [reflexivity|].
  destruct (group_shape t) as (hg & g & body & e & E & _ & H). destruct (H Hi) as [Hp _]. rewrite E in *. rewrite app_length in Hk. change (length [_]) with 1%nat in Hk. rewrite firstn_snoc_lt by lia.
  replace (settles (firstn k ((hg, EvMariaGtid g) :: body))) with false; [reflexivity|]. destruct k as [|k]; [reflexivity|]. cbn [firstn settles snd is_end is_statement is_begin orb].
  rewrite <- (app_nil_r (firstn k body)). rewrite data_settles by now apply ClientProofs.Forall_firstn. reflexivity.
Qed.
Lemma rows_any is : Forall mitem_ok is -> Forall mitem_any is.
Proof.
  apply Forall_impl. intros [x|[hg g body e|hg g pre q]]; cbn; auto. intros [H1 H2]. split; [|exact H2].
  eapply Forall_impl; [|exact H1]. cbn beta. intros x Hx. apply data_plain in Hx. tauto.
Qed.
