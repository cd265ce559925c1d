(* Written sets in which a server id occurs more than once or in several spellings (C06, C09). *)
From Coq Require Import Strings.String.
From Verif Require Import Base.Tac Base.Bytes Base.Text Base.Res Base.Str Model.Gtid Spec.GtidSpec Proofs.GtidProofs Proofs.GtidSetProofs.
Local Open Scope N_scope.

Definition wkey (p : written_part) : text := utext (wp_uuid p).
Lemma part_parsed bl p : written_part_ok p -> exists us, parse_uuid_part bl (core p) = Ok (wp_uuid p, us) /\ us_source us = wp_uuid p /\ Forall iv_ok (us_ivs us) /\
  forall n, ivs_has (us_ivs us) n <-> exists w, In w (wp_ivs p) /\ written_iv_lo w <= n <= written_iv_hi w.
Proof.
  intros (P1 & P2 & P3 & P4 & P5). set (ivs := map (fun w => Interval (written_iv_lo w) (written_iv_hi w)) (wp_ivs p)).
  assert (Hivs : Forall iv_ok ivs).
  { unfold ivs. apply Forall_map. eapply Forall_impl; [|exact P5]. cbn. intros w [A B]. split; cbn [istart iend]; auto. }
  assert (Hine : ivs <> []) by (unfold ivs; destruct (wp_ivs p); [congruence|discriminate]).
  destruct (collapse_opt_spec bl ivs Hivs Hine) as (r & Hr & R1 & R2 & R3 & _).
  exists (UuidSet (wp_uuid p) r). split.
  - unfold core. rewrite parse_uuid_part_ok; auto.
    + unfold uuid_set_new. fold ivs. rewrite Hr. reflexivity.
    + eapply Forall_impl; [|exact P5]. cbn. unfold u64_top, u64max1. intros w [A B]. lia.
  - cbn [us_source us_ivs]. split; [reflexivity|]. split; [exact R1|]. intros n. rewrite R3. unfold ivs_has, ivs. split.
    + intros (i & Hi & Hn). apply in_map_iff in Hi. destruct Hi as (w & <- & Hw). exists w. split; auto.
    + intros (w & Hw & Hn). exists (Interval (written_iv_lo w) (written_iv_hi w)). split; [apply in_map_iff; eauto|exact Hn].
Qed.
Lemma set_ok_put s p us : set_ok s -> written_part_ok p -> us_source us = wp_uuid p -> Forall iv_ok (us_ivs us) -> set_ok (hm_put (wkey p) us s).
Proof.
  intros [H1 H2] Hp E V. split; [now apply hm_put_NoDup|]. apply Forall_forall. intros e He. apply hm_put_In in He; [|exact H1].
  destruct He as [->|[He _]]; [|rewrite Forall_forall in H2; auto]. cbn [fst snd]. rewrite E. split; [reflexivity|]. split; [apply Hp|exact V].
Qed.
Lemma last_parts bl : forall ps acc, Forall written_part_ok ps -> set_ok acc ->
  exists s, parse_parts bl (map core ps) acc = Ok s /\ set_ok s /\
    (forall k, In k (map fst s) <-> In k (map fst acc) \/ In k (map wkey ps)) /\
    forall d n, set_has s d n <->
      (exists k us, In (k, us) acc /\ ~ In k (map wkey ps) /\ udata (us_source us) = d /\ ivs_has (us_ivs us) n) \/
      exists a p b w, ps = a ++ p :: b /\ Forall (fun q => wkey q <> wkey p) b /\ udata (wp_uuid p) = d /\
        In w (wp_ivs p) /\ written_iv_lo w <= n <= written_iv_hi w.
Proof.
  induction ps as [|p ps IH]; intros acc Hps Ha; cbn [map parse_parts].
  - exists acc. split; [reflexivity|]. split; [exact Ha|]. split; [intros k; cbn [In]; tauto|]. intros d n. split.
    + intros (k & us & A & B & C). left. exists k, us. cbn [In]. auto.
    + intros [(k & us & A & _ & B & C)|(a & p & b & w & E & _)]; [exists k, us; auto|destruct a; discriminate].
  - apply Forall_cons_iff in Hps. destruct Hps as [Hp Hps]. destruct (part_parsed bl p Hp) as (us & -> & U1 & U2 & U3). cbn [rbind fst snd].
    change (utext (wp_uuid p)) with (wkey p). assert (Ha' := set_ok_put acc p us Ha Hp U1 U2).
    destruct (IH _ Hps Ha') as (s & E & O & K & H). exists s. split; [exact E|]. split; [exact O|]. split.
    + intros k. rewrite K, hm_put_keys. cbn [In]. intuition congruence.
    + intros d n. rewrite H. split.
      * intros [(k & u & A & B & C & D)|(a & q & b & w & E1 & E2)].
        -- apply hm_put_In in A; [|apply Ha]. destruct A as [A|[A X]].
           ++ injection A as -> ->. apply U3 in D. destruct D as (w & D1 & D2). right. exists [], p, ps, w. split; [reflexivity|]. split; [|split; [congruence|auto]].
              apply Forall_forall. intros q Hq E1. apply B. rewrite <- E1. now apply in_map.
           ++ left. exists k, u. cbn [fst] in X. split; [exact A|]. split; [|auto]. cbn [In]. intuition congruence.
        -- right. exists (p :: a), q, b, w. rewrite E1. auto.
      * intros [(k & u & A & B & C & D)|(a & q & b & w & E1 & E2 & E3 & E4)].
        -- left. exists k, u. cbn [In] in B. split; [|tauto]. apply hm_put_In; [apply Ha|]. right. cbn [fst]. split; [exact A|]. intros ->. tauto.
        -- destruct a as [|p' a]; cbn [app] in E1; injection E1 as E0 E1.
           ++ subst q b. left. exists (wkey p), us. split; [apply hm_put_In; [apply Ha|now left]|]. split; [|split; [congruence|apply U3; eauto]].
              rewrite in_map_iff. intros (q & Q1 & Q2). rewrite Forall_forall in E2. now apply (E2 q).
           ++ right. exists a, q, b, w. auto.
Qed.
Lemma parse_written_parts bl t ps : ps <> [] -> Forall written_part_ok ps -> remove_char 10 t = written_text ps -> gtid_set_parse bl t = parse_parts bl (map core ps) [].
Proof.
  intros Hne Hok Ht. unfold gtid_set_parse. destruct t as [|c t'].
  { cbn [remove_char filter] in Ht. exfalso. destruct ps as [|p ps]; [congruence|]. apply Forall_cons_iff in Hok. destruct Hok as [Hp _].
    unfold written_text in Ht. cbn [map join] in Ht.
    assert (written_part_text p <> []).
    { unfold written_part_text. intros E. apply app_eq_nil in E. destruct E as [_ E]. apply app_eq_nil in E.
      destruct E as [E _]. now apply (core_nonempty p) in E; [|apply Hp]. }
    destruct (map written_part_text ps); [congruence|]. symmetry in Ht. apply app_eq_nil in Ht. tauto. }
  rewrite Ht. unfold written_text. rewrite split_join.
  - rewrite map_map. now rewrite (map_ext_in _ core) by (intros p Hp; rewrite Forall_forall in Hok; now apply written_part_trim, Hok).
  - destruct ps; [congruence|discriminate].
  - apply Forall_forall. intros x Hx. apply in_map_iff in Hx. destruct Hx as (p & <- & Hp).
    rewrite Forall_forall in Hok. now apply written_part_no_comma, Hok.
Qed.
Lemma empty_set_ok : set_ok [].
Proof. split; constructor. Qed.
Theorem parse_last bl t ps : Forall written_part_ok ps -> ps <> [] -> remove_char 10 t = written_text ps ->
  exists s, gtid_set_parse bl t = Ok s /\ set_ok s /\ (forall k, In k (map fst s) <-> In k (map wkey ps)) /\
    forall d n, set_has s d n <-> exists a p b w, ps = a ++ p :: b /\ Forall (fun q => wkey q <> wkey p) b /\ udata (wp_uuid p) = d /\
        In w (wp_ivs p) /\ written_iv_lo w <= n <= written_iv_hi w.
Proof.
  intros Hok Hne Ht. rewrite (parse_written_parts bl t ps Hne Hok Ht). destruct (last_parts bl ps [] Hok empty_set_ok) as (s & E & O & K & H).
  exists s. split; [exact E|]. split; [exact O|]. split; [intros k; rewrite K; cbn [map In]; tauto|]. intros d n. rewrite H. split; [|auto].
  intros [(k & us & [] & _)|X]; exact X.
Qed.
(* keys after adding *)
Lemma add_all_keys bl h : forall s s', set_ok s -> Forall (fun g => uuid_ok (g_source g) /\ g_txn g < u64_top) h -> add_all bl s h = Ok s' ->
  forall k, In k (map fst s') <-> In k (map fst s) \/ In k (map (fun g => utext (g_source g)) h).
Proof.
  induction h as [|g h IH]; intros s s' Hs Hh E k; cbn [add_all map In] in *; [injection E as <-; tauto|].
  apply Forall_cons_iff in Hh. destruct Hh as [[Hg Ht] Hh].
  destruct (gtid_set_add_spec bl s g Hs Hg Ht) as (b & s1 & us & us' & Hadd & Hok & _ & _ & Es1 & _). rewrite Hadd in E. cbn [rbind snd] in E.
  rewrite (IH s1 s' Hok Hh E). rewrite Es1, hm_put_keys. intuition congruence.
Qed.
(* an entry per key: no server twice iff no server under two keys *)
Lemma ids_unique s : set_ok s -> NoDup (map (fun e => udata (us_source (snd e))) s) <->
  forall u v, uuid_ok u -> uuid_ok v -> In (utext u) (map fst s) -> In (utext v) (map fst s) -> udata u = udata v -> utext u = utext v.
Proof.
  intros [H1 H2]. rewrite Forall_forall in H2. split.
  - intros Hn u v Hu Hv Iu Iv E. apply in_map_iff in Iu, Iv. destruct Iu as (e1 & E1 & I1), Iv as (e2 & E2 & I2).
    assert (S1 : us_source (snd e1) = u) by (destruct (H2 _ I1) as (A & B & _); apply uuid_ok_text_inj; auto; congruence).
    assert (S2 : us_source (snd e2) = v) by (destruct (H2 _ I2) as (A & B & _); apply uuid_ok_text_inj; auto; congruence).
    assert (e1 = e2); [|congruence]. clear H1 H2 E1 E2 Hu Hv. rewrite <- S1, <- S2 in E. clear S1 S2.
    induction s as [|e s IH]; [destruct I1|]. cbn [map] in Hn. apply NoDup_cons_iff in Hn. destruct Hn as [Hn1 Hn2].
    destruct I1 as [->|I1], I2 as [->|I2]; auto; exfalso; apply Hn1.
    + rewrite E. apply (in_map (fun e => udata (us_source (snd e)))). exact I2.
    + rewrite <- E. apply (in_map (fun e => udata (us_source (snd e)))). exact I1.
  - intros H. assert (G : forall e f, In e s -> In f s -> udata (us_source (snd e)) = udata (us_source (snd f)) -> fst e = fst f).
    { intros e f Ie If E. destruct (H2 _ Ie) as (A & B & _), (H2 _ If) as (C & D & _). rewrite A, C. apply H; auto; [rewrite <- A|rewrite <- C]; now apply in_map. }
    clear H H2. induction s as [|e s IH]; cbn [map]; constructor.
    + intros X. apply in_map_iff in X. destruct X as (f & E & If). cbn [map] in H1. apply NoDup_cons_iff in H1. destruct H1 as [H1 _]. apply H1.
      rewrite <- (G f e); [now apply in_map|now right|now left|exact E].
    + apply IH; [cbn [map] in H1; now apply NoDup_cons_iff in H1|]. intros a b Ia Ib. apply G; now right.
Qed.
