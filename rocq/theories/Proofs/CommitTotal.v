(* When commit() returns normally (C19, C20). *)
From Coq Require Import Strings.String.
From Verif Require Import Base.Tac Base.Bytes Base.Text Base.Res Base.Str Model.Gtid Model.GtidMaria Model.Events Model.Client
  Spec.GtidSpec Spec.ClientSpec Proofs.GtidProofs Proofs.GtidSetProofs Proofs.ClientProofs.
Local Open Scope N_scope.

(* every entry is stored under the text of its own server id *)
Definition set_keyed (s : gtid_set) : Prop := Forall (fun e => fst e = utext (us_source (snd e)) /\ uuid_ok (us_source (snd e))) s.

Lemma release_uadd m x y : exists e, uadd m Release x y = Ok e.
Proof. unfold uadd. destruct (_ <? _); eauto. Qed.
Lemma release_collapse ivs : (1 < length ivs)%nat -> exists r, collapse_intervals Release ivs = Ok r.
Proof.
  destruct ivs as [|a rest]; cbn [length]; [lia|]. intros _. rewrite collapse_crec.
  revert a. induction rest as [|b rest IH]; intros a; cbn [crec]; [eauto|].
  destruct (release_uadd u64max1 (iend a) 1) as [e ->]. cbn [rbind]. destruct (e =? istart b); [apply IH|].
  destruct (IH b) as [r ->]. cbn [rbind]. eauto.
Qed.
Lemma release_uuid_add s g : udata (us_source s) = udata (g_source g) ->
  exists b s', uuid_set_add Release s g = Ok (b, s') /\ us_source s' = us_source s.
Proof.
  intros E. unfold uuid_set_add. destruct (bytes_eqb_spec (udata (us_source s)) (udata (g_source g))) as [_|Hn]; [|congruence]. cbn [negb].
  destruct (find_interval_index_ok (us_ivs s) (g_txn g)) as (index & -> & _). cbn [rbind].
  assert (exists r, touch_interval Release (us_ivs s) index (g_txn g) = Ok r) as [r ->].
  { unfold touch_interval. destruct (nth_error _ _) as [i|]; [|eauto]. destruct (release_uadd u64max1 (g_txn g) 1) as [e ->]. cbn [rbind].
    destruct (_ =? _); [eauto|]. destruct (release_uadd u64max1 (iend i) 1) as [e2 ->]. cbn [rbind]. destruct (_ =? _); [eauto|]. destruct (_ && _); eauto. }
  cbn [rbind]. destruct r as [[ivs added]|]; [|eauto].
  set (out := if added then _ else _). destruct (Nat.ltb_spec 1 (length out)) as [Hl|Hl].
  - destruct (release_collapse out Hl) as [r ->]. cbn [rbind]. eauto.
  - cbn [rbind]. eauto.
Qed.
Lemma hm_put_Forall {V} (P : text * V -> Prop) k v m : P (k, v) -> Forall P m -> Forall P (hm_put k v m).
Proof.
  intros Hp. induction 1 as [|[k' v'] m Hm H IH]; cbn [hm_put]; [repeat constructor; exact Hp|].
  destruct (text_eqb_spec k k') as [<-|_]; constructor; auto.
Qed.
Lemma release_set_add s g : set_keyed s -> uuid_ok (g_source g) -> exists b s', gtid_set_add Release s g = Ok (b, s') /\ set_keyed s'.
Proof.
  intros Hs Hg. unfold gtid_set_add. set (us := match hm_get _ s with Some _ => _ | None => _ end).
  assert (Hsrc : us_source us = g_source g).
  { unfold us. destruct (hm_get (utext (g_source g)) s) as [u|] eqn:E; [|reflexivity].
    apply hm_get_In in E. unfold set_keyed in Hs. rewrite Forall_forall in Hs. destruct (Hs _ E) as [H1 H2]. cbn [fst snd] in *.
    apply uuid_ok_text_inj; auto. }
  destruct (release_uuid_add us g) as (b & s' & -> & H); [congruence|]. cbn [rbind fst snd].
  eexists. eexists. split; [reflexivity|]. apply hm_put_Forall; [|exact Hs]. cbn [fst snd]. rewrite H, Hsrc. auto.
Qed.
Lemma uuid_parse_keeps t u : uuid_parse t = Ok u -> utext u = t /\ uuid_ok u.
Proof.
  intros H. assert (E : utext u = t).
  { unfold uuid_parse in H. destruct (hex_decode _) as [v|]; [|discriminate]. destruct (_ <? _)%nat; [discriminate|]. now inv H. }
  split; [exact E|]. unfold uuid_ok. now rewrite E.
Qed.
Lemma parse_keyed bl t s : gtid_set_parse bl t = Ok s -> set_keyed s.
Proof.
  unfold gtid_set_parse. destruct t as [|c t]; [intros E; inv E; constructor|].
  generalize (map trim (split_on 44 (remove_char 10 (c :: t)))) as parts. intros parts.
  assert (Hacc : set_keyed []) by constructor. revert Hacc. generalize (@nil (text * uuid_set)) as acc.
  induction parts as [|p parts IH]; intros acc Hacc; cbn [parse_parts]; [intros E; inv E; exact Hacc|].
  unfold parse_uuid_part. destruct (uuid_parse (firstn 36 p)) as [u|e| |] eqn:Eu; cbn [rbind]; try discriminate.
  destruct (mapM parse_interval _) as [ivs|e| |]; cbn [rbind]; try discriminate.
  destruct (uuid_set_new bl u ivs) as [us|e| |] eqn:Es; cbn [rbind fst snd]; try discriminate.
  apply IH. apply hm_put_Forall; [|exact Hacc]. cbn [fst snd].
  assert (us_source us = u) as ->.
  { unfold uuid_set_new in Es. destruct (if (1 <? length ivs)%nat then _ else _) as [x|e| |]; cbn [rbind] in Es; inv Es. reflexivity. }
  split; [reflexivity|]. now apply uuid_parse_keeps in Eu.
Qed.

(* clients on which commit cannot panic; [P] is what is known about the set, [Q] about GTIDs *)
Section total.
  Context (bl : build) (P : gtid_set -> Prop) (Q : gtid -> Prop).
  Context (Hadd : forall s g, P s -> Q g -> exists b s', gtid_set_add bl s g = Ok (b, s') /\ P s').
  Definition client_safe (c : client) : Prop :=
    (forall s, o_set (c_opts c) = Some s -> P s) /\ (forall g, c_mysql c = Some g -> Q g).
  Definition event_safe (e : event) : Prop := forall g, e = EvMySqlGtid g -> Q (me_gtid g).
  Lemma commit_gtid_total c : client_safe c -> exists c', commit_gtid bl c = Ok c' /\ client_safe c'.
  Proof.
    intros [H1 H2]. unfold commit_gtid. set (o := match c_maria c with Some _ => _ | None => _ end).
    assert (Ho : o_set o = o_set (c_opts c)) by (unfold o; destruct (c_maria c), (o_list (c_opts c)); reflexivity).
    rewrite Ho. destruct (c_mysql c) as [g|] eqn:Eg; [destruct (o_set (c_opts c)) as [s|] eqn:Es|].
    - destruct (Hadd s g (H1 _ eq_refl) (H2 _ eq_refl)) as (b & s' & -> & HP). cbn [rbind]. eexists. split; [reflexivity|].
      split; cbn [c_opts o_set with_set c_mysql]; [intros x E; injection E as <-; exact HP|exact H2].
    - cbn [rbind]. eexists. split; [reflexivity|]. split; cbn [c_opts c_mysql]; [rewrite Ho; exact H1|exact H2].
    - cbn [rbind]. eexists. split; [reflexivity|]. split; cbn [c_opts c_mysql]; [rewrite Ho; exact H1|discriminate].
  Qed.
  Lemma commit_total c h e : client_safe c -> event_safe e -> exists c', commit bl c h e = Ok c' /\ client_safe c'.
  Proof.
    intros Hc He. assert (exists c1, update_gtid_position bl c e = Ok c1 /\ client_safe c1) as (c1 & E & Hc1).
    { unfold update_gtid_position. destruct (negb _); [eauto|].
      destruct e; try (eexists; split; [reflexivity|exact Hc]); try (now apply commit_gtid_total).
      - destruct (q_sql q); [eauto|]. destruct (text_eqb _ _).
        + eexists. split; [reflexivity|]. exact Hc.
        + destruct (_ || _); [now apply commit_gtid_total|]. destruct (negb _); [now apply commit_gtid_total|eauto].
      - eexists. split; [reflexivity|]. destruct Hc as [H1 H2]. split; cbn [c_opts c_mysql]; [exact H1|]. intros x Ex. injection Ex as <-. now apply He. }
    unfold commit. rewrite E. cbn [rbind]. eexists. split; [reflexivity|]. pose proof (position_gst c1 h e) as G. unfold gst in G.
    injection G as _ G2 _ _ _ G6. unfold client_safe. rewrite G2, G6. exact Hc1.
  Qed.
  Lemma commit_all_total es : forall c, client_safe c -> Forall (fun x => event_safe (snd x)) es ->
    exists c', commit_all bl c es = Ok c' /\ client_safe c'.
  Proof.
    induction es as [|[h e] es IH]; intros c Hc Hes; cbn [commit_all]; [eauto|].
    apply Forall_cons_iff in Hes. destruct Hes as [He Hes]. destruct (commit_total c h e Hc He) as (c1 & -> & Hc1). cbn [rbind]. auto.
  Qed.
End total.

(* ---- frame ---- *)
Lemma commit_gtid_frame bl c c' : commit_gtid bl c = Ok c' ->
  o_file (c_opts c') = o_file (c_opts c) /\ o_pos (c_opts c') = o_pos (c_opts c) /\ o_strategy (c_opts c') = o_strategy (c_opts c).
Proof.
  unfold commit_gtid. set (o := match c_maria c with Some _ => _ | None => _ end).
  assert (Ho : o_file o = o_file (c_opts c) /\ o_pos o = o_pos (c_opts c) /\ o_strategy o = o_strategy (c_opts c)).
  { unfold o. destruct (c_maria c), (o_list (c_opts c)); auto. }
  destruct (c_mysql c) as [g|], (o_set o) as [s|]; cbn [rbind]; try (intros E; injection E as <-; exact Ho).
  destruct (gtid_set_add bl s g) as [[b s']|e| |]; cbn [rbind]; try discriminate. intros E. injection E as <-. exact Ho.
Qed.
Lemma commit_strategy bl c h e c' : commit bl c h e = Ok c' -> o_strategy (c_opts c') = o_strategy (c_opts c).
Proof.
  unfold commit. destruct (update_gtid_position bl c e) as [c1|er| |] eqn:E; cbn [rbind]; try discriminate. intros H. injection H as <-.
  pose proof (position_gst c1 h e) as G. unfold gst in G. injection G as G _ _ _ _ _. rewrite G. clear G.
  unfold update_gtid_position in E. destruct (negb _); [now inv E|].
  destruct e; try (inv E; reflexivity); try (now apply commit_gtid_frame in E).
  destruct (q_sql q); [now inv E|]. destruct (text_eqb _ _); [now inv E|].
  destruct (_ || _); [now apply commit_gtid_frame in E|]. destruct (negb _); [now apply commit_gtid_frame in E|now inv E].
Qed.
Lemma commit_frame bl es : forall c c', commit_all bl c es = Ok c' -> o_strategy (c_opts c') = o_strategy (c_opts c) /\
  (o_strategy (c_opts c) <> FromGtid -> o_set (c_opts c') = o_set (c_opts c) /\ o_list (c_opts c') = o_list (c_opts c)).
Proof.
  induction es as [|[h e] es IH]; intros c c' H; cbn [commit_all] in H; [inv H; auto|].
  destruct (commit bl c h e) as [c1|er| |] eqn:E; cbn [rbind] in H; try discriminate. apply IH in H. destruct H as [H1 H2].
  pose proof (commit_strategy bl c h e c1 E) as Hs. split; [congruence|]. intros Hn. rewrite Hs in H2. destruct (H2 Hn) as [A B].
  unfold commit, update_gtid_position in E. assert (negb (strategy_eqb (o_strategy (c_opts c)) FromGtid) = true) as En.
  { destruct (o_strategy (c_opts c)); try reflexivity. congruence. }
  rewrite En in E. cbn [rbind] in E. injection E as <-. pose proof (position_gst c h e) as G. unfold gst in G. injection G as _ G2 G3 _ _ _. split; congruence.
Qed.

(* a client that has a set keeps having one *)
Lemma commit_keeps_set bl es : forall c c' s, commit_all bl c es = Ok c' -> o_set (c_opts c) = Some s -> exists s', o_set (c_opts c') = Some s'.
Proof.
  induction es as [|[h e] es IH]; intros c c' s H Hs; cbn [commit_all] in H; [injection H as <-; eauto|].
  destruct (commit bl c h e) as [c1|er| |] eqn:E; cbn [rbind] in H; try discriminate.
  assert (X : exists s1, o_set (c_opts c1) = Some s1); [|destruct X as [s1 X]; exact (IH c1 c' s1 H X)].
  clear H. unfold commit in E. destruct (update_gtid_position bl c e) as [c2|er| |] eqn:E2; cbn [rbind] in E; try discriminate. injection E as <-.
  assert (X : exists s1, o_set (c_opts c2) = Some s1).
  { assert (G : forall c2, commit_gtid bl c = Ok c2 -> exists s1, o_set (c_opts c2) = Some s1).
    { intros c0. unfold commit_gtid. set (o := match c_maria c with Some _ => _ | None => _ end).
      assert (Ho : o_set o = o_set (c_opts c)) by (unfold o; destruct (c_maria c), (o_list (c_opts c)); reflexivity). rewrite Ho, Hs.
      destruct (c_mysql c) as [g|]; [destruct (gtid_set_add bl s g) as [[b s']|x| |]|]; cbn [rbind]; intros X; try discriminate X; injection X as <-; cbn [c_opts o_set with_set]; eauto.
      rewrite Ho. eauto. }
    unfold update_gtid_position in E2. destruct (negb _); [injection E2 as <-; eauto|].
    destruct e; try (injection E2 as <-; cbn [c_opts]; eauto; fail); try (now apply G).
    destruct (q_sql _); [injection E2 as <-; eauto|]. destruct (text_eqb _ _) in E2; [injection E2 as <-; cbn [c_opts]; eauto|].
    destruct (_ || _) in E2; [now apply G|]. destruct (negb _) in E2; [now apply G|]. injection E2 as <-; eauto. }
  destruct X as [s1 X]. exists s1. rewrite <- X. pose proof (position_gst c2 h e) as P. unfold gst in P. congruence.
Qed.

(* ---- XA ---- *)
Lemma xa_statement p e : query_starts p e -> p = tx "XA START " \/ p = tx "XA END " -> is_statement e = true.
Proof.
  intros H Hp. destruct e; try (destruct H; fail). cbn [query_starts] in H. destruct H as [r E].
  unfold is_statement, is_begin, is_end. rewrite E. destruct Hp as [-> | ->]; reflexivity.
Qed.
(* a statement outside BEGIN while g is pending *)
Lemma pending_statement bl c h e g s : mode c -> c_txn c = false -> c_mysql c = Some g -> o_set (c_opts c) = Some s -> set_ok s ->
  uuid_ok (g_source g) -> g_txn g < u64_top -> is_statement e = true ->
  exists c' s', commit bl c h e = Ok c' /\ mode c' /\ c_txn c' = false /\ c_mysql c' = Some g /\ o_set (c_opts c') = Some s' /\ set_ok s' /\
    forall d n, set_has s' d n <-> set_has s d n \/ (d = udata (g_source g) /\ n = g_txn g).
Proof.
  intros Hm Ht Hg Hs Hok Hu Hn He.
  destruct (gtid_set_add_spec bl s g Hok Hu Hn) as (b & s' & us & us' & A & B & C & _).
  pose proof (statement_update bl c e Hm Ht He) as Hup.
  destruct (commit_gtid_mysql bl c g s b s' Hg Hs A) as (c1 & H1 & H2 & H3 & H4 & H5). rewrite <- Hup in H1.
  destruct (commit_gst bl c h e c1 H1) as (c' & E1 & E2). gstd E2.
  exists c', s'. split; [exact E1|]. split; [unfold mode in *; congruence|]. repeat split; auto; try congruence; try apply B; apply C.
Qed.
Lemma xa_complete bl x c s : xa_ok x -> mode c -> c_txn c = false -> o_set (c_opts c) = Some s -> set_ok s ->
  stream_gtid_ok (me_gtid (xa_gtid x)) ->
  exists c' s', commit_all bl c (xa_events x) = Ok c' /\ o_set (c_opts c') = Some s' /\ set_ok s' /\
    forall d n, set_has s' d n <-> set_has s d n \/ (d = udata (g_source (me_gtid (xa_gtid x))) /\ n = g_txn (me_gtid (xa_gtid x))).
Proof.
  intros (X1 & X2 & X3 & X4) Hm Ht Hs Hok Hg. apply stream_gtid_uuid in Hg. destruct Hg as [U1 U2].
  unfold xa_events. cbn [commit_all]. destruct (gtid_step bl c (xa_head x) (xa_gtid x) Hm) as (c1 & -> & E1). cbn [rbind]. gstd E1.
  destruct (xa_start x) as [hs es]. cbn [snd] in X1.
  destruct (pending_statement bl c1 hs es (me_gtid (xa_gtid x)) s) as (c2 & s2 & -> & M2 & T2 & P2 & S2 & O2 & Hx2); auto;
    try (unfold mode in *; congruence).
  { eapply xa_statement; eauto. }
  cbn [rbind]. rewrite commit_all_app. destruct (data_all bl (xa_body x) X2 c2) as (c3 & -> & E3). cbn [rbind commit_all]. gstd E3.
  destruct (xa_end x) as [he ee]. cbn [snd] in X3.
  destruct (pending_statement bl c3 he ee (me_gtid (xa_gtid x)) s2) as (c4 & s4 & -> & M4 & T4 & P4 & S4 & O4 & Hx4); auto;
    try (unfold mode in *; congruence).
  { eapply xa_statement; eauto. }
  cbn [rbind]. destruct (xa_prepare x) as [hp ep]. cbn [snd] in X4. subst ep.
  destruct (data_step bl c4 hp EvUnknown eq_refl) as (c5 & -> & E5). cbn [rbind]. gstd E5.
  exists c5, s4. split; [reflexivity|]. split; [congruence|]. split; [exact O4|]. intros d n. rewrite Hx4, Hx2. tauto.
Qed.
(* statements and data while g is pending and already saved: nothing changes *)
Lemma saved_rest bl g : uuid_ok (g_source g) -> g_txn g < u64_top -> forall es, Forall (fun x : hev => is_data (snd x) = true \/ is_statement (snd x) = true) es ->
  forall c s, mode c -> c_txn c = false -> c_mysql c = Some g -> o_set (c_opts c) = Some s -> set_ok s -> set_has s (udata (g_source g)) (g_txn g) ->
  exists c' s', commit_all bl c es = Ok c' /\ o_set (c_opts c') = Some s' /\ set_ok s' /\ forall d n, set_has s' d n <-> set_has s d n.
Proof.
  intros Hu Hn. induction es as [|[h e] es IH]; intros HF c s Hm Ht Hg Hs Hok Hh; cbn [commit_all].
  - exists c, s. split; [reflexivity|]. repeat split; auto; apply Hok.
  - apply Forall_cons_iff in HF. destruct HF as [He HF]. cbn [snd] in He. destruct He as [He|He].
    + destruct (data_step bl c h e He) as (c1 & -> & E1). cbn [rbind]. gstd E1. apply IH; auto; try (unfold mode in *; congruence).
    + destruct (pending_statement bl c h e g s) as (c1 & s1 & -> & M1 & T1 & P1 & S1 & O1 & H1); auto. cbn [rbind].
      destruct (IH HF c1 s1 M1 T1 P1 S1 O1) as (c' & s' & A & B & C & D); [apply H1; auto|]. exists c', s'. split; [exact A|]. split; [exact B|]. split; [exact C|].
      intros d n. rewrite D, H1. split; [|tauto]. intros [X|[-> ->]]; auto.
Qed.
Lemma xa_prefix bl x c s k : xa_ok x -> mode c -> c_txn c = false -> o_set (c_opts c) = Some s -> set_ok s ->
  stream_gtid_ok (me_gtid (xa_gtid x)) ->
  exists c' s', commit_all bl c (firstn k (xa_events x)) = Ok c' /\ o_set (c_opts c') = Some s' /\ set_ok s' /\
    forall d n, set_has s' d n <-> set_has s d n \/ ((2 <= k)%nat /\ d = udata (g_source (me_gtid (xa_gtid x))) /\ n = g_txn (me_gtid (xa_gtid x))).
Proof.
  intros (X1 & X2 & X3 & X4) Hm Ht Hs Hok Hg. apply stream_gtid_uuid in Hg. destruct Hg as [U1 U2].
  unfold xa_events. destruct k as [|k].
  { exists c, s. split; [reflexivity|]. split; [exact Hs|]. split; [exact Hok|]. intros d n. split; [tauto|]. intros [X|[X _]]; [exact X|lia]. }
  cbn [firstn commit_all]. destruct (gtid_step bl c (xa_head x) (xa_gtid x) Hm) as (c1 & -> & E1). cbn [rbind]. gstd E1. destruct k as [|k].
  { exists c1, s. split; [reflexivity|]. split; [congruence|]. split; [exact Hok|]. intros d n. split; [tauto|]. intros [X|[X _]]; [exact X|lia]. }
  assert (XS : is_statement (snd (xa_start x)) = true) by (eapply xa_statement; eauto).
  assert (XE : is_statement (snd (xa_end x)) = true) by (eapply xa_statement; eauto).
  cbn [firstn]. destruct (xa_start x) as [hs es]. cbn [snd] in XS. cbn [commit_all].
  destruct (pending_statement bl c1 hs es (me_gtid (xa_gtid x)) s) as (c2 & s2 & -> & M2 & T2 & P2 & S2 & O2 & Hx2); auto;
    try (unfold mode in *; congruence). cbn [rbind].
  destruct (saved_rest bl (me_gtid (xa_gtid x)) U1 U2 (firstn k (xa_body x ++ [xa_end x; xa_prepare x]))) with (c := c2) (s := s2) as (c' & s' & A & B & C & D); auto.
  - assert (HF : Forall (fun y : hev => is_data (snd y) = true \/ is_statement (snd y) = true) (xa_body x ++ [xa_end x; xa_prepare x])).
    { apply Forall_app. split; [eapply Forall_impl; [|exact X2]; auto|]. apply Forall_cons; [auto|]. apply Forall_cons; [|constructor]. left. now rewrite X4. }
    rewrite <- (firstn_skipn k) in HF. now apply Forall_app in HF.
  - apply Hx2. auto.
  - exists c', s'. split; [exact A|]. split; [exact B|]. split; [exact C|]. intros d n. rewrite D, Hx2. split; [|tauto]. intros [X|X]; [auto|]. right. split; [lia|exact X].
Qed.

(* ---------- exactly when a debug build panics ---------- *)
Lemma crec_no_panic bl : forall rest a, Forall (fun i => iend i < u64_top) (removelast (a :: rest)) -> exists r, crec bl a rest = Ok r.
Proof.
  induction rest as [|b rest IH]; intros a H; cbn [crec]; [eauto|].
  change (removelast (a :: b :: rest)) with (a :: removelast (b :: rest)) in H. apply Forall_cons_iff in H. destruct H as [Ha H].
  rewrite uadd_ok by (change u64max1 with (u64_top + 1); lia). cbn [rbind]. destruct (iend a + 1 =? istart b).
  - apply IH. destruct rest as [|c rest]; [constructor|].
    change (removelast (b :: c :: rest)) with (b :: removelast (c :: rest)) in H. apply Forall_cons_iff in H. destruct H as [Hb H].
    change (removelast (Interval (istart a) (iend b) :: c :: rest)) with (Interval (istart a) (iend b) :: removelast (c :: rest)).
    constructor; assumption.
  - destruct (IH b H) as [r ->]. cbn [rbind]. eauto.
Qed.
Lemma collapse_no_panic bl ivs : Forall (fun i => iend i < u64_top) (removelast ivs) ->
  exists r, (if (1 <? length ivs)%nat then collapse_intervals bl ivs else Ok ivs) = Ok r.
Proof.
  intros H. destruct ivs as [|a rest]; [eexists; reflexivity|]. destruct (1 <? length (a :: rest))%nat; [|eexists; reflexivity]. rewrite collapse_crec. now apply crec_no_panic.
Qed.
Lemma removelast_below l : wcanon l -> Forall (fun i => iend i <= u64_top) l -> Forall (fun i => iend i < u64_top) (removelast l).
Proof.
  intros Hw Hb. destruct l as [|x l0 _] using rev_ind; [constructor|]. rewrite removelast_last. apply wcanon_mid in Hw. destruct Hw as (W & W1 & _).
  apply Forall_app in Hb. destruct Hb as [_ Hb]. apply Forall_cons_iff in Hb. destruct Hb as [Hb _].
  eapply Forall_impl; [|exact W]. cbn. intros; lia.
Qed.
Lemma removelast_insert {A} (P : A -> Prop) (a : list A) x b : Forall P a -> (b <> [] -> P x) -> Forall P (removelast b) -> Forall P (removelast (a ++ x :: b)).
Proof.
  intros Ha Hx Hb. rewrite removelast_app by discriminate. apply Forall_app. split; [exact Ha|].
  destruct b as [|y b]; [constructor|]. change (removelast (x :: y :: b)) with (x :: removelast (y :: b)). constructor; [now apply Hx|exact Hb].
Qed.
Lemma uuid_add_panics s g : udata (us_source s) = udata (g_source g) -> wcanon (us_ivs s) -> Forall (fun i => iend i <= u64_top) (us_ivs s) ->
  g_txn g <= u64_top -> uuid_set_add Debug s g = Panic <-> overflows (us_ivs s) (g_txn g).
Proof.
  intros E Hw Hb Ht. unfold uuid_set_add. destruct (bytes_eqb_spec (udata (us_source s)) (udata (g_source g))) as [_|Hn]; [|congruence]. cbn [negb].
  set (t := g_txn g) in *. set (ivs := us_ivs s) in *.
  destruct (find_interval_index_ok ivs t) as (index & Hi & Hle). rewrite Hi. cbn [rbind].
  apply find_interval_index_sorted in Hi; [|exact Hw]. unfold touch_interval.
  destruct (nth_error ivs index) as [i|] eqn:En.
  - destruct (nth_error_split _ _ En) as (l1 & l2 & Es & El).
    assert (Hm := Hw). rewrite Es in Hm. apply wcanon_mid in Hm. destruct Hm as (M1 & M2 & M3).
    assert (Hi' : Forall (fun j => iend j < t) l1 /\ (iv_has i t \/ t < istart i)).
    { assert (W1 : Forall (fun i => istart i <= iend i) l1) by (apply wcanon_nonempty_iv; rewrite Es in Hw; now apply wcanon_app_inv in Hw).
      destruct Hi as [(iv & E1 & H1)|(B & A & _)].
      - assert (iv = i) by congruence. subst iv. split; [|now left]. unfold iv_has in H1. eapply Forall_impl; [|exact M1]. cbn. intros; lia.
      - rewrite Es, <- El, firstn_app_exact in B. rewrite Es, <- El, skipn_app_exact in A. apply Forall_cons_iff in A. destruct A as [A _].
        split; [exact B|now right]. }
    destruct Hi' as [B1 Hi']. clear Hi.
    assert (Hbi : iend i <= u64_top). { rewrite Es in Hb. apply Forall_app in Hb. destruct Hb as [_ Hb]. now apply Forall_cons_iff in Hb. }
    assert (Hlast : iend i = u64_top -> l2 = []).
    { intros X. destruct l2 as [|j l2]; [reflexivity|]. exfalso. apply Forall_cons_iff in M3. destruct M3 as [M3 _].
      rewrite Es in Hw, Hb. apply wcanon_nonempty_iv in Hw. rewrite Forall_app in Hw, Hb.
      destruct Hw as [_ Hw], Hb as [_ Hb]. apply Forall_cons_iff in Hw, Hb. destruct Hw as [_ Hw], Hb as [_ Hb]. apply Forall_cons_iff in Hw, Hb.
      destruct Hw as [Hw _], Hb as [Hb _]. lia. }
    assert (Hov : overflows ivs t <-> iend i = u64_top /\ istart i <> t + 1).
    { split.
      - intros (l & j & E1 & E2 & E3 & E4). destruct l2 as [|k l2 _] using rev_ind.
        + rewrite Es in E1. apply app_inj_tail in E1. destruct E1 as [_ <-]. auto.
        + exfalso. rewrite Es, app_comm_cons, app_assoc in E1. apply app_inj_tail in E1. destruct E1 as [<- <-].
          apply Forall_app in E4. destruct E4 as [_ E4]. apply Forall_cons_iff in E4. destruct E4 as [E4 _]. unfold iv_has in Hi'. lia.
      - intros [X Y]. exists l1, i. rewrite (Hlast X) in Es. auto. }
    rewrite Hov. clear Hov.
    assert (Hrl : Forall (fun i => iend i < u64_top) (removelast ivs)) by (now apply removelast_below).
    assert (H1 : Forall (fun i => iend i < u64_top) l1).
    { eapply Forall_impl; [|exact B1]. cbn. intros; lia. }
    assert (H2 : Forall (fun i => iend i < u64_top) (removelast l2)).
    { rewrite Es in Hrl. rewrite removelast_app in Hrl by discriminate. apply Forall_app in Hrl. destruct Hrl as [_ Hrl].
      destruct l2 as [|j l2]; [constructor|]. change (removelast (i :: j :: l2)) with (i :: removelast (j :: l2)) in Hrl. now apply Forall_cons_iff in Hrl. }
    assert (H3 : l2 <> [] -> iend i < u64_top). { intros X. destruct (N.eq_dec (iend i) u64_top) as [Y|Y]; [now apply Hlast in Y|lia]. }
    unfold uadd at 1. destruct (N.ltb_spec (t + 1) u64max1) as [L|L]; change u64max1 with (u64_top + 1) in L.
    2:{ cbn [rbind]. split; [|intros; reflexivity]. intros _. unfold iv_has in Hi'. split; lia. }
    cbn [rbind]. destruct (N.eqb_spec (istart i) (t + 1)) as [Q|Q].
    { split; [|intros [_ X]; now apply X in Q]. cbn [rbind]. intros X. exfalso. revert X.
      rewrite Es, <- El, list_set_mid.
      assert (Forall (fun i => iend i < u64_top) (removelast (l1 ++ Interval t (iend i) :: l2))) as HH by (now apply removelast_insert).
      destruct (collapse_no_panic Debug _ HH) as [r ->]. discriminate. }
    unfold uadd at 1. destruct (N.ltb_spec (iend i + 1) u64max1) as [L2|L2]; change u64max1 with (u64_top + 1) in L2.
    2:{ cbn [rbind]. split; [|intros; reflexivity]. intros _. split; [lia|exact Q]. }
    cbn [rbind]. split; [|intros [X _]; lia]. intros X. exfalso. revert X.
    destruct (N.eqb_spec (iend i + 1) t) as [Q2|Q2]; [unfold iv_has in Hi'; lia|].
    destruct ((istart i <=? t) && (t <=? iend i)) eqn:Eh; [discriminate|].
    assert (Hlt : t < istart i). { destruct Hi' as [[X Y]|X]; [|exact X]. apply N.leb_le in X, Y. rewrite X, Y in Eh. discriminate. }
    cbn [rbind]. cbv zeta. assert (Ei : list_insert ivs index (Interval t t) = l1 ++ Interval t t :: i :: l2)
      by (rewrite Es, <- El; unfold list_insert; now rewrite firstn_app_exact, skipn_app_exact). rewrite Ei.
    assert (Forall (fun i => iend i < u64_top) (removelast (l1 ++ Interval t t :: i :: l2))) as HH.
    { apply removelast_insert; [exact H1|cbn [iend]; lia|]. apply (removelast_insert _ []); [constructor|exact H3|exact H2]. }
    destruct (collapse_no_panic Debug _ HH) as [r ->]. discriminate.
  - destruct Hi as [(iv & E1 & _)|(B & A & _)]; [congruence|]. apply nth_error_None in En. assert (index = length ivs) by lia. subst index.
    rewrite firstn_all in B. cbn [rbind]. split.
    + intros X. exfalso. revert X. cbv zeta. assert (Ei : list_insert ivs (length ivs) (Interval t t) = ivs ++ [Interval t t])
        by (unfold list_insert; now rewrite firstn_all, skipn_all). rewrite Ei.
      assert (Forall (fun i => iend i < u64_top) (removelast (ivs ++ [Interval t t]))) as HH.
      { rewrite removelast_last. eapply Forall_impl; [|exact B]. cbn. intros; lia. }
      destruct (collapse_no_panic Debug _ HH) as [r ->]. discriminate.
    + intros (l & i & E1 & E2 & _). exfalso. rewrite E1 in B. apply Forall_app in B. destruct B as [_ B]. apply Forall_cons_iff in B. destruct B as [B _]. lia.
Qed.
Definition okpanic {A} (r : res A) : Prop := r = Panic \/ exists a, r = Ok a.
Lemma okpanic_bind {A B} (r : res A) (k : A -> res B) : okpanic r -> (forall a, okpanic (k a)) -> okpanic (let? a := r in k a).
Proof. intros [->|[a ->]] Hk; cbn [rbind]; [now left|apply Hk]. Qed.
Lemma okpanic_ok {A} (a : A) : okpanic (Ok a).
Proof. right. eauto. Qed.
Lemma okpanic_uadd m bl x y : okpanic (uadd m bl x y).
Proof. unfold uadd, okpanic. destruct (_ <? _); [eauto|]. destruct bl; eauto. Qed.
Lemma okpanic_crec bl : forall rest a, okpanic (crec bl a rest).
Proof.
  induction rest as [|b rest IH]; intros a; cbn [crec]; [apply okpanic_ok|]. apply okpanic_bind; [apply okpanic_uadd|]. intros e.
  destruct (e =? istart b); [apply IH|]. apply okpanic_bind; [apply IH|]. intros r. apply okpanic_ok.
Qed.
Lemma okpanic_uuid_add bl s g : udata (us_source s) = udata (g_source g) -> okpanic (uuid_set_add bl s g).
Proof.
  intros E. unfold uuid_set_add. destruct (bytes_eqb_spec (udata (us_source s)) (udata (g_source g))) as [_|Hn]; [|congruence]. cbn [negb].
  apply okpanic_bind; [destruct (find_interval_index_ok (us_ivs s) (g_txn g)) as (i & -> & _); apply okpanic_ok|]. intros index.
  apply okpanic_bind.
  - unfold touch_interval. destruct (nth_error _ _) as [i|]; [|apply okpanic_ok]. apply okpanic_bind; [apply okpanic_uadd|]. intros t1.
    destruct (_ =? _); [apply okpanic_ok|]. apply okpanic_bind; [apply okpanic_uadd|]. intros e1. destruct (_ =? _); [apply okpanic_ok|].
    destruct (_ && _); apply okpanic_ok.
  - intros [[ivs added]|]; [|apply okpanic_ok]. cbv zeta. apply okpanic_bind; [|intros; apply okpanic_ok].
    set (out := if added then _ else _). destruct (1 <? length out)%nat; [|apply okpanic_ok].
    destruct out as [|a rest]; [apply okpanic_ok|]. rewrite collapse_crec. apply okpanic_crec.
Qed.
Lemma hm_get_Some {V} k (v : V) m : NoDup (map fst m) -> In (k, v) m -> hm_get k m = Some v.
Proof.
  induction m as [|[k' v'] m IH]; intros Hn Hi; [easy|]. cbn [map fst] in Hn. inv Hn. cbn [hm_get]. destruct (text_eqb_spec k k') as [->|Hk].
  - destruct Hi as [E|Hi]; [congruence|]. exfalso. apply H1. apply (in_map fst) in Hi. exact Hi.
  - apply IH; auto. destruct Hi as [E|Hi]; [congruence|exact Hi].
Qed.
Lemma set_add_panics s g : set_writable s -> uuid_ok (g_source g) -> g_txn g <= u64_top ->
  (gtid_set_add Debug s g = Panic <-> exists us, In (utext (g_source g), us) s /\ overflows (us_ivs us) (g_txn g)) /\
  okpanic (gtid_set_add Debug s g).
Proof.
  intros [Hn Hs] Hu Ht. rewrite Forall_forall in Hs. unfold gtid_set_add.
  set (us := match hm_get (utext (g_source g)) s with Some us => us | None => _ end).
  assert (Hus : us_source us = g_source g /\ wcanon (us_ivs us) /\ Forall (fun i => iend i <= u64_top) (us_ivs us)).
  { unfold us. destruct (hm_get (utext (g_source g)) s) as [u|] eqn:E; [|cbn; repeat split; constructor].
    apply hm_get_In in E. destruct (Hs _ E) as (K & [U _] & C & _ & B). cbn [fst snd] in *.
    split; [apply uuid_ok_text_inj; auto|]. split; [now apply canonical_wcanon|].
    eapply Forall_impl; [|exact B]. change u64max1 with (u64_top + 1). cbn. intros; lia. }
  destruct Hus as (E & W & B). pose proof (uuid_add_panics us g (f_equal udata E) W B Ht) as HP.
  pose proof (okpanic_uuid_add Debug us g (f_equal udata E)) as HO. split.
  - transitivity (uuid_set_add Debug us g = Panic).
    + destruct (uuid_set_add Debug us g); cbn [rbind]; split; first [discriminate|intros _; reflexivity|intros X; discriminate X].
    + rewrite HP. split.
      * intros H. unfold us in H. destruct (hm_get (utext (g_source g)) s) as [u|] eqn:Eu.
        -- exists u. split; [now apply hm_get_In|exact H].
        -- destruct H as (l & i & X & _). cbn [us_ivs] in X. now destruct l.
      * intros (u & Hi & H). unfold us. now rewrite (hm_get_Some _ _ _ Hn Hi).
  - apply okpanic_bind; [exact HO|]. intros. apply okpanic_ok.
Qed.
Lemma commit_gtid_panics c :
  (forall s, o_set (c_opts c) = Some s -> set_writable s) ->
  (forall g, c_mysql c = Some g -> uuid_ok (g_source g) /\ g_txn g <= u64_top) ->
  commit_gtid Debug c = Panic <->
  exists g s us, c_mysql c = Some g /\ o_set (c_opts c) = Some s /\ In (utext (g_source g), us) s /\ overflows (us_ivs us) (g_txn g).
Proof.
  intros Hs Hg. unfold commit_gtid. set (o := match c_maria c with Some _ => _ | None => _ end).
  assert (Ho : o_set o = o_set (c_opts c)) by (unfold o; destruct (c_maria c), (o_list (c_opts c)); reflexivity). rewrite Ho.
  destruct (c_mysql c) as [g|]; [destruct (o_set (c_opts c)) as [s|]|].
  - destruct (Hg _ eq_refl) as [G1 G2]. destruct (set_add_panics s g (Hs _ eq_refl) G1 G2) as [HP HO].
    transitivity (gtid_set_add Debug s g = Panic).
    + destruct HO as [->|[[b s'] ->]]; cbn [rbind]; split; congruence.
    + rewrite HP. split.
      * intros (us & A & B). exists g, s, us. auto.
      * intros (g' & s' & us & E1 & E2 & A & B). injection E1 as <-. injection E2 as <-. eauto.
  - cbn [rbind]. split; [discriminate|]. intros (g' & s' & us & E1 & E2 & _). discriminate.
  - cbn [rbind]. split; [discriminate|]. intros (g' & s' & us & E1 & E2 & _). discriminate.
Qed.
Lemma commit_panics c h e :
  (forall s, o_set (c_opts c) = Some s -> set_writable s) ->
  (forall g, c_mysql c = Some g -> uuid_ok (g_source g) /\ g_txn g <= u64_top) ->
  commit Debug c h e = Panic <->
  o_strategy (c_opts c) = FromGtid /\ (is_end e = true \/ (is_statement e = true /\ c_txn c = false)) /\
  exists g s us, c_mysql c = Some g /\ o_set (c_opts c) = Some s /\ In (utext (g_source g), us) s /\ overflows (us_ivs us) (g_txn g).
Proof.
  intros Hs Hg. pose proof (commit_gtid_panics c Hs Hg) as HC. unfold commit.
  transitivity (update_gtid_position Debug c e = Panic).
  { destruct (update_gtid_position Debug c e); cbn [rbind]; split; congruence. }
  unfold update_gtid_position. destruct (o_strategy (c_opts c)) eqn:Eo; cbn [strategy_eqb negb];
    try (split; [discriminate|intros [X _]; discriminate]).
  set (EX := exists g s us, _) in *.
  assert (Hno : forall (P : Prop) x, ~ P -> (@Ok client x = Panic <-> FromGtid = FromGtid /\ P /\ EX)).
  { intros P x HP. split; [discriminate|]. intros (_ & H & _). contradiction. }
  assert (Hyes : forall (P : Prop), P -> (commit_gtid Debug c = Panic <-> FromGtid = FromGtid /\ P /\ EX)).
  { intros P HP. rewrite HC. tauto. }
  destruct e; cbn [is_end is_statement is_begin]; try (apply Hno; intros [X|[X _]]; discriminate); try (apply Hyes; now left).
  - match goal with |- context [q_sql ?q] => destruct (q_sql q) as [|a sql] eqn:Eq end.
    + apply Hno. intros [X|[X _]]; discriminate.
    + cbv iota. destruct (text_eqb (a :: sql) (tx "BEGIN")) eqn:Eb.
      * apply Hno. destruct (text_eqb_spec (a :: sql) (tx "BEGIN")) as [->|]; [|discriminate]. intros [X|[X _]]; vm_compute in X; discriminate.
      * destruct (text_eqb (a :: sql) (tx "COMMIT") || text_eqb (a :: sql) (tx "ROLLBACK")).
        -- apply Hyes. now left.
        -- destruct (c_txn c); cbn [negb].
           ++ apply Hno. intros [X|[_ X]]; discriminate.
           ++ apply Hyes. right. split; reflexivity.
Qed.
