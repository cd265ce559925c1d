(* Proofs for C95. *)
From Verif Require Import Base.Tac Base.Bytes Base.Text Base.Res Base.Str Model.Gtid Model.GtidMaria Model.Events Model.Client
  Spec.GtidSpec Spec.ClientSpec Spec.CheckpointSpec Spec.MariaSessionSpec Spec.GroupSessionSpec
  Proofs.GtidProofs Proofs.GtidSetProofs Proofs.ClientProofs Proofs.CommitTotal Proofs.CheckpointProofs.
Local Open Scope N_scope.

Definition adds (s s' : gtid_set) (b : bool) (g : gtid) : Prop :=
  set_ok s' /\ (set_canonical s -> set_canonical s') /\
  forall d n, set_has s' d n <-> set_has s d n \/ (b = true /\ udata (g_source g) = d /\ g_txn g = n).
Definition ends (es : list hev) : bool := existsb (fun y => is_end (snd y)) es.
Definition inside_after (b : bool) (es : list hev) : bool := fold_left (fun b x => inside1 b (snd x)) es b.
Lemma plain_mark x : is_gtid (snd x) = false -> mysql_mark x = None.
Proof. unfold mysql_mark. destruct (snd x); try reflexivity; discriminate. Qed.

Lemma body_adds bl g es : Forall (fun x => is_gtid (snd x) = false) es -> mysql_ok g -> forall c c' s,
  mode c -> commit_all bl c es = Ok c' -> c_mysql c = Some g -> o_set (c_opts c) = Some s -> set_ok s ->
  exists s', mode c' /\ o_set (c_opts c') = Some s' /\ c_txn c' = inside_after (c_txn c) es /\ adds s s' (if c_txn c then ends es else settles es) g.
Proof.
  intros Hes Hg. induction Hes as [|[h e] es He Hes IH]; intros c c' s Hm H Hc Hs Hok; cbn [commit_all] in H.
  - injection H as <-. exists s. repeat split; auto; try apply Hok. intros [X|(X & _)]; [exact X|]. destruct (c_txn c); discriminate.
  - destruct (commit bl c h e) as [c1|er| |] eqn:E; cbn [rbind] in H; try discriminate.
    destruct (commit_step bl c h e c1 Hm E) as (M1 & T1 & G1 & _). rewrite plain_mark in G1 by exact He. cbn [next_gtid] in G1.
    destruct (step_set bl c h e c1 s Hm E Hs Hok) as (s1 & S1 & O1 & C1 & H1); [intros g' X; rewrite Hc in X; now injection X as <-|].
    destruct (IH c1 c' s1 M1 H (eq_trans G1 Hc) S1 O1) as (s' & M2 & S2 & T2 & O2 & C2 & H2).
    exists s'. split; [exact M2|]. split; [exact S2|]. split; [rewrite T2, T1; reflexivity|]. split; [exact O2|]. split; [auto|].
    intros d n. rewrite H2, H1. rewrite T1. unfold inside1, completes1. cbn [snd]. unfold ends. cbn [existsb settles snd]. fold (ends es).
    assert (K : forall b, (exists g', c_mysql c = Some g' /\ udata (g_source g') = d /\ g_txn g' = n) /\ b = true <-> b = true /\ udata (g_source g) = d /\ g_txn g = n).
    { intros b. rewrite Hc. split; [intros ((g' & X & Y) & Z)|intros (Z & Y)]; [injection X as <-; auto|split; eauto]. }
    assert (BE : is_begin e = true -> is_end e = false) by apply begin_not_end.
    assert (BS : is_begin e = true -> is_statement e = false) by (destruct e; try discriminate; cbn [is_begin is_statement]; intros ->; destruct (q_sql q); reflexivity).
    destruct (is_end e) eqn:EE; destruct (is_begin e) eqn:EB; try (now specialize (BE eq_refl)); destruct (is_statement e) eqn:ES; try (now specialize (BS eq_refl));
      destruct (c_txn c); cbn [orb andb negb]; rewrite ?Hc; fold (ends es);
      match goal with |- (_ \/ (?p = true /\ _)) \/ (?q = true /\ _) <-> _ \/ (?r = true /\ _) => destruct (K p) as [K1 K2]; split; [intros [[X|X]|X]|intros [X|(X1 & X2)]] end;
      try tauto; try (right; destruct X as (X1 & (g' & X2 & X3)); injection X2 as <-; auto; fail); try (left; right; split; [reflexivity|]; exists g; auto; fail);
      try (destruct X as (X1 & _); discriminate); try discriminate.
Qed.

Lemma inside_closed es : (forall a x b, es = a ++ x :: b -> is_begin (snd x) = true -> exists y, In y b /\ is_end (snd y) = true) ->
  forall t, (t = true -> exists y, In y es /\ is_end (snd y) = true) -> inside_after t es = false.
Proof.
  induction es as [|x es IH]; intros H t Ht; unfold inside_after; cbn [fold_left].
  - destruct t; [|reflexivity]. destruct (Ht eq_refl) as (y & [] & _).
  - apply IH.
    + intros a y b E. apply (H (x :: a) y b). now rewrite E.
    + unfold inside1. destruct (is_begin (snd x)) eqn:EB.
      * intros _. exact (H [] x es eq_refl EB).
      * destruct (is_end (snd x)) eqn:EE; [discriminate|]. intros ->. destruct (Ht eq_refl) as (y & [<-|Y] & Z); [congruence|eauto].
Qed.
Lemma mark_step bl c h g c' : mode c -> commit bl c h (EvMySqlGtid g) = Ok c' ->
  mode c' /\ c_mysql c' = Some (me_gtid g) /\ c_txn c' = c_txn c /\ o_set (c_opts c') = o_set (c_opts c).
Proof. intros Hm H. destruct (commit_step bl c h _ c' Hm H) as (A & B & C & _ & D & _). destruct (D eq_refl) as [D1 _]. auto. Qed.
Lemma data_calm e : is_data e = true -> is_begin e = false /\ is_end e = false /\ is_gtid e = false /\ is_statement e = false.
Proof. unfold is_data. destruct (is_begin e), (is_end e), (is_gtid e), (is_statement e); cbn; intros; try discriminate; auto. Qed.

(* the set after any number of events of any such stream *)
Theorem commit_tgroups bl : forall is k c c' s,
  Forall titem_ok is -> Forall (fun t => mysql_ok (me_gtid (tg_mark t))) (tstream_groups is) ->
  mode c -> c_txn c = false -> o_set (c_opts c) = Some s -> set_ok s -> commit_all bl c (firstn k (tstream_events is)) = Ok c' ->
  exists s', mode c' /\ o_set (c_opts c') = Some s' /\ set_ok s' /\ (set_canonical s -> set_canonical s') /\
    forall d n, set_has s' d n <-> set_has s d n \/ In (d, n) (map tgroup_id (tpassed k is)).
Proof.
  induction is as [|i is IH]; intros k c c' s Hok Hg Hm Ht Hs Hsok H.
  - cbn [tstream_events flat_map] in H. rewrite firstn_nil in H. injection H as <-. exists s. repeat split; auto; try apply Hsok. intros [X|[]]; exact X.
  - apply Forall_cons_iff in Hok. destruct Hok as [Hi Hok]. unfold tstream_events, tstream_groups in *. cbn [flat_map] in *.
    apply Forall_app in Hg. destruct Hg as [Hgi Hg]. rewrite firstn_app, commit_all_app in H.
    destruct (commit_all bl c (firstn k (titem_events i))) as [c1|er| |] eqn:E; cbn [rbind] in H; try discriminate.
    assert (X : exists s1, mode c1 /\ o_set (c_opts c1) = Some s1 /\ set_ok s1 /\ (set_canonical s -> set_canonical s1) /\
      ((length (titem_events i) <= k)%nat -> c_txn c1 = false) /\
      forall d n, set_has s1 d n <-> set_has s d n \/ In (d, n) (map tgroup_id (map fst (filter (fun p => settles (snd p)) (map (fun t => (t, firstn k (tgroup_events t))) (titem_groups i)))))).
    { destruct i as [[h e]|t]; cbn [titem_events titem_ok titem_groups map filter] in *.
      - destruct k as [|k]; cbn [firstn commit_all] in E.
        + injection E as <-. exists s. repeat split; auto; try apply Hsok. intros [X|[]]; exact X.
        + rewrite firstn_nil in E. cbn [commit_all] in E. destruct (commit bl c h e) as [c2|er| |] eqn:E2; cbn [rbind] in E; try discriminate. injection E as <-.
          destruct (commit_step bl c h e c2 Hm E2) as (A & B & _ & _ & D & _). destruct (data_calm _ Hi) as (D1 & D2 & D3 & D4). cbn [snd] in D1, D2, D3, D4. unfold completes1 in D. unfold inside1 in B. rewrite D1, D2 in B. rewrite D2, D4 in D.
          destruct (D eq_refl) as [D5 _]. exists s. split; [exact A|]. split; [congruence|]. split; [exact Hsok|]. split; [auto|]. split; [congruence|]. intros d n. cbn. tauto.
      - apply Forall_cons_iff in Hgi. destruct Hgi as [Hgt _]. destruct k as [|k]; cbn [firstn commit_all settles tgroup_events] in *.
        + injection E as <-. exists s. repeat split; auto; try apply Hsok. intros [X|[]]; exact X.
        + destruct (commit bl c (tg_head t) (EvMySqlGtid (tg_mark t))) as [c2|er| |] eqn:E2; cbn [rbind] in E; try discriminate.
          destruct (mark_step bl c _ _ c2 Hm E2) as (A & B & C & D). destruct Hi as [Hb Hc].
          destruct (body_adds bl _ (firstn k (tg_body t)) (Forall_firstn _ _ _ Hb) Hgt c2 c1 s A E B (eq_trans D Hs) Hsok) as (s1 & M1 & S1 & T1 & O1 & C1 & H1).
          rewrite C, Ht in H1, T1. cbn [snd is_end is_statement is_begin orb]. exists s1. split; [exact M1|]. split; [exact S1|]. split; [exact O1|]. split; [exact C1|]. split.
          * intros Hk. unfold tgroup_events in Hk. cbn [length] in Hk. rewrite firstn_all2 in T1 by lia. rewrite T1. apply inside_closed; [exact Hc|discriminate].
          * intros d n. rewrite H1. unfold tgroup_events. cbn [firstn snd settles is_end is_statement is_begin orb]. destruct (settles (firstn k (tg_body t))); cbn [map fst In]; unfold tgroup_id; split; (intros [X|X]; [now left|right]).
            -- left. destruct X as (_ & <- & <-). reflexivity.
            -- destruct X as [X|[]]. injection X as <- <-. auto.
            -- destruct X; discriminate.
            -- destruct X. }
    destruct X as (s1 & M1 & S1 & O1 & C1 & T1 & H1). unfold tpassed. cbn [taken_parts]. rewrite filter_app, !map_app.
    destruct (Nat.le_gt_cases (length (titem_events i)) k) as [Hk|Hk].
    + destruct (IH _ c1 c' s1 Hok Hg M1 (T1 Hk) S1 O1 H) as (s' & M2 & S2 & O2 & C2 & H2). exists s'. do 4 (split; [now auto|]).
      intros d n. rewrite H2, H1, in_app_iff. unfold tpassed. tauto.
    + replace (k - length (titem_events i))%nat with 0%nat in * by lia. cbn [firstn commit_all] in H. injection H as <-.
      assert (Z : map tgroup_id (map fst (filter (fun p => settles (snd p)) (taken_parts 0 is))) = []).
      { clear. induction is as [|i is IH]; [reflexivity|]. cbn [taken_parts]. rewrite filter_app, !map_app. cbn [Nat.sub]. rewrite IH, app_nil_r. now destruct i. }
      exists s1. do 4 (split; [now auto|]). intros d n. rewrite H1, in_app_iff, Z. cbn [In]. tauto.
Qed.

Lemma lacking_In P l a : lacking P l a -> forall t, In t a <-> In t l /\ ~ P (fst (tgroup_id t)) (snd (tgroup_id t)).
Proof. induction 1 as [|x l r Hx H IH|x l r Hx H IH]; intros t; cbn [In]; [tauto| |]; rewrite IH; intuition congruence. Qed.
Lemma lacking_ext (P Q : list byte -> N -> Prop) l r : (forall d n, P d n <-> Q d n) -> lacking P l r -> lacking Q l r.
Proof. intros H. induction 1; [constructor| |]; [apply lk_skip|apply lk_send]; auto; now rewrite <- H. Qed.
