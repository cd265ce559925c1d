(* Claimed properties of MySQL GTID sets (C01-C09). *)
From Coq Require Import Sorting.Permutation Strings.String.
From Verif Require Import Base.Tac Base.Bytes Base.Text Base.Res Base.Str Model.Gtid Spec.GtidSpec
  Proofs.GtidProofs Proofs.GtidSetProofs Proofs.GtidLastProofs.
Local Open Scope N_scope.

(* sample data for the non-vacuity examples *)
Definition d1 : list byte := map n2b [0x24;0xbc;0x78;0x50;0x2c;0x16;0x11;0xe6;0xa0;0x73;0x02;0x42;0xac;0x11;0x00;0x01].
Definition d2 : list byte := map n2b [0x24;0xbc;0x78;0x50;0x2c;0x16;0x11;0xe6;0xa0;0x73;0x02;0x42;0xac;0x11;0x00;0x02].
Definition u1 := uuid_new d1.
Definition u2 := uuid_new d2.
Definition s0 : gtid_set := [(utext u1, UuidSet u1 [Interval 3 5])].
Definition h0 : list gtid := [Gtid u1 2; Gtid u1 4; Gtid u1 7; Gtid u2 9; Gtid u1 0].
Ltac all_done := repeat (first [split | constructor]); cbn; try discriminate; try reflexivity; try lia.
Lemma s0_ok : set_ok s0.
Proof.
  split; [repeat constructor; auto|]. constructor; [|constructor]. cbn [fst snd us_source us_ivs].
  split; [reflexivity|]. split; [vm_compute; reflexivity|]. constructor; [|constructor]. unfold iv_ok, u64_top; cbn; lia.
Qed.
Lemma h0_ok : Forall (fun g => uuid_ok (g_source g) /\ g_txn g < u64_top) h0.
Proof. unfold h0, u64_top. repeat constructor; cbn [g_source g_txn]; try (vm_compute; reflexivity); lia. Qed.

(* ---- C01 ---- *)
Theorem C01_add_gtid_exact : forall bl s h,
  set_ok s -> Forall (fun g => uuid_ok (g_source g) /\ g_txn g < u64_top) h ->
  exists s', add_all bl s h = Ok s' /\ set_ok s' /\
    forall d n, set_has s' d n <-> set_has s d n \/ exists g, In g h /\ udata (g_source g) = d /\ g_txn g = n.
Proof.
  intros bl s h Hs Hh. destruct (add_all_spec bl h s Hs Hh) as (s' & H1 & H2 & H3 & _). exists s'. auto.
Qed.
Print Assumptions C01_add_gtid_exact.
Example C01_example : set_ok s0 /\ Forall (fun g => uuid_ok (g_source g) /\ g_txn g < u64_top) h0.
Proof. split; [exact s0_ok|exact h0_ok]. Qed.
Example C01_example_run : option_map gtid_set_text (match add_all Debug s0 h0 with Ok s => Some s | _ => None end) =
  Some (tx "24bc7850-2c16-11e6-a073-0242ac110001:0:2-5:7,24bc7850-2c16-11e6-a073-0242ac110002:9").
Proof. vm_compute. reflexivity. Qed.

(* The bound is needed: with an interval that ends at 2^64-1, add_gtid panics in debug builds, and a release build
   turns 0-18446744073709551615 into the single transaction 2^64-1, dropping transaction 0. *)
Theorem C01_top_of_u64_refuted :
  exists s, gtid_set_add Debug s (Gtid u1 3) = Panic /\ ~ set_has s d1 3.
Proof.
  exists [(utext u1, UuidSet u1 [Interval 7 u64_top])]. split; [vm_compute; reflexivity|].
  intros (k & us & [E|[]] & _ & i & Hi & Hn). inv E. destruct Hi as [<-|[]]. unfold iv_has in Hn. cbn in Hn. lia.
Qed.
Print Assumptions C01_top_of_u64_refuted.
Theorem C01_top_of_u64_release_refuted :
  exists s s', gtid_set_add Release s (Gtid u1 u64_top) = Ok (true, s') /\ set_has s d1 0 /\ ~ set_has s' d1 0.
Proof.
  exists [(utext u1, UuidSet u1 [Interval 0 u64_top])]. eexists. split; [vm_compute; reflexivity|]. split.
  - eexists. eexists. split; [now left|]. split; [reflexivity|]. eexists. split; [now left|]. unfold iv_has. cbn. lia.
  - intros (k & us & [E|[]] & _ & i & Hi & Hn). inv E. destruct Hi as [<-|[]]. unfold iv_has in Hn. cbn in Hn. lia.
Qed.
Print Assumptions C01_top_of_u64_release_refuted.

(* ---- C02 ---- *)
Theorem C02_canonical_preserved : forall bl s h,
  set_ok s -> Forall (fun g => uuid_ok (g_source g) /\ g_txn g < u64_top) h -> set_canonical s ->
  exists s', add_all bl s h = Ok s' /\ set_canonical s'.
Proof.
  intros bl s h Hs Hh Hc. destruct (add_all_spec bl h s Hs Hh) as (s' & H1 & H2 & H3 & H4 & _). exists s'. auto.
Qed.
Print Assumptions C02_canonical_preserved.
Theorem C02_from_empty : forall bl h,
  Forall (fun g => uuid_ok (g_source g) /\ g_txn g < u64_top) h ->
  exists s', add_all bl gtid_set_new h = Ok s' /\ set_canonical s'.
Proof.
  intros bl h Hh. apply C02_canonical_preserved; auto; [split; constructor|constructor].
Qed.
Print Assumptions C02_from_empty.
Example C02_example : set_canonical s0.
Proof. unfold set_canonical, s0. constructor; [|constructor]. cbn [snd us_ivs canonical istart iend]. repeat split; try lia. discriminate. Qed.

(* ---- C03 ---- *)
Theorem C03_add_gtid_novelty : forall bl s d n,
  set_ok s -> set_spelled s -> set_canonical s -> length d = 16%nat -> n < u64_top ->
  exists b s', gtid_set_add bl s (Gtid (uuid_new d) n) = Ok (b, s') /\ (b = true <-> ~ set_has s d n).
Proof.
  intros bl s d n Hs Hsp Hc Hd Hn.
  destruct (gtid_set_add_spec bl s (Gtid (uuid_new d) n) Hs (uuid_new_ok d Hd) Hn)
    as (b & s' & us & us' & Hadd & _ & _ & Eus & _ & _ & _ & _ & _ & Hcan).
  exists b, s'. split; [exact Hadd|]. cbn [g_source g_txn] in *.
  destruct (hm_get (utext (uuid_new d)) s) as [u|] eqn:E.
  - apply hm_get_In in E. subst us.
    assert (Hcu : canonical (us_ivs u)).
    { unfold set_canonical in Hc. rewrite Forall_forall in Hc. apply (Hc _ E). }
    destruct (Hcan Hcu) as [_ ->].
    assert (Hud : udata (us_source u) = d).
    { destruct (spelled_key s _ Hs Hsp E) as [K _]. cbn [fst snd] in K.
      unfold set_spelled in Hsp. rewrite Forall_forall in Hsp. destruct (Hsp _ E) as [_ L]. cbn [snd] in L.
      symmetry. now apply uuid_new_inj. }
    rewrite <- (spelled_has s _ u n Hs Hsp E), Hud. tauto.
  - subst us. cbn [us_ivs canonical] in Hcan. destruct (Hcan I) as [_ ->]. split; [|intros _; now rewrite ivs_has_nil].
    intros _ (k & u & Hi & Hud & Hh). apply hm_get_None in E. apply E.
    destruct (spelled_key s _ Hs Hsp Hi) as [K _]. cbn [fst snd] in K. rewrite Hud in K. rewrite <- K.
    change k with (fst (k, u)). now apply in_map.
Qed.
Print Assumptions C03_add_gtid_novelty.
Example C03_example : set_spelled s0.
Proof. unfold set_spelled, s0. constructor; [|constructor]. cbn [snd us_source]. split; vm_compute; reflexivity. Qed.

(* ---- C04 ---- *)
(* histories of (server id, transaction number) *)
Definition hist_gtids (h : list (list byte * N)) : list gtid := map (fun p => Gtid (uuid_new (fst p)) (snd p)) h.
Theorem C04_text_depends_on_members_only : forall bl1 bl2 h1 h2 o1 o2 s1 s2,
  Forall (fun p => length (fst p) = 16%nat /\ snd p < u64_top) h1 ->
  Forall (fun p => length (fst p) = 16%nat /\ snd p < u64_top) h2 ->
  (forall d n, In (d, n) h1 <-> In (d, n) h2) ->
  add_all bl1 gtid_set_new (hist_gtids h1) = Ok s1 -> add_all bl2 gtid_set_new (hist_gtids h2) = Ok s2 ->
  Permutation o1 s1 -> Permutation o2 s2 ->
  gtid_set_text o1 = gtid_set_text o2.
Proof.
  intros bl1 bl2 h1 h2 o1 o2 s1 s2 H1 H2 Heq E1 E2 P1 P2.
  assert (K : forall bl h s, Forall (fun p => length (fst p) = 16%nat /\ snd p < u64_top) h ->
     add_all bl gtid_set_new (hist_gtids h) = Ok s ->
     set_ok s /\ set_spelled s /\ set_canonical s /\ (forall d n, set_has s d n <-> In (d, n) h)).
  { clear. intros bl h s H E.
    destruct (add_all_spec bl (hist_gtids h) gtid_set_new) as (s' & A & B & C & D & F).
    - split; constructor.
    - unfold hist_gtids. apply Forall_map. eapply Forall_impl; [|exact H]. cbn. intros p [L N]. split; [now apply uuid_new_ok|exact N].
    - rewrite E in A. inv A. split; [exact B|]. split; [|split].
      + apply F; [constructor|]. unfold hist_gtids. apply Forall_map. apply Forall_forall. intros p _. reflexivity.
      + apply D. constructor.
      + intros d n. rewrite C. split.
        * intros [(k & us & [] & _)|(g & Hg & Hd & Hn)]. unfold hist_gtids in Hg. apply in_map_iff in Hg.
          destruct Hg as (p & <- & Hp). cbn [g_source g_txn udata uuid_new] in *. subst. now destruct p.
        * intros Hi. right. exists (Gtid (uuid_new d) n). split; [|split; reflexivity].
          unfold hist_gtids. apply in_map_iff. exists (d, n). auto. }
  destruct (K _ _ _ H1 E1) as (A1 & B1 & C1 & D1). destruct (K _ _ _ H2 E2) as (A2 & B2 & C2 & D2).
  apply gtid_set_text_perm. rewrite P1, P2. apply canonical_sets_perm; auto.
  intros d n. rewrite D1, D2. apply Heq.
Qed.
Print Assumptions C04_text_depends_on_members_only.
Example C04_example : exists s1 s2,
  add_all Debug gtid_set_new (hist_gtids [(d1, 1); (d2, 4); (d1, 3); (d1, 2)]) = Ok s1 /\
  add_all Release gtid_set_new (hist_gtids [(d1, 2); (d1, 3); (d1, 1); (d2, 4); (d1, 3)]) = Ok s2.
Proof. eexists. eexists. split; vm_compute; reflexivity. Qed.

(* ---- C05 ---- *)
Theorem C05_text_roundtrip : forall bl s order,
  set_writable s -> Permutation order s ->
  exists s', gtid_set_parse bl (gtid_set_text order) = Ok s' /\ Permutation s' s /\
    forall order', Permutation order' s' -> gtid_set_text order' = gtid_set_text order.
Proof.
  intros bl s order Hs HP. destruct (parse_text_roundtrip bl s order Hs HP) as (s' & H1 & H2).
  exists s'. split; [exact H1|]. split; [exact H2|]. intros o' Ho. apply gtid_set_text_perm. now rewrite Ho, H2, HP.
Qed.
Print Assumptions C05_text_roundtrip.
Lemma s0_writable : set_writable (s0 ++ [(utext u2, UuidSet u2 [Interval 1 1; Interval 7 u64_top])]).
Proof.
  split; [vm_compute; repeat constructor; cbn; intuition discriminate|].
  unfold s0, u64_top, u64max1. cbn [app].
  repeat apply Forall_cons; try apply Forall_nil;
    (split; [reflexivity|]); (split; [split; vm_compute; reflexivity|]); cbn [snd us_ivs canonical istart iend];
    (split; [lia|]); (split; [discriminate|]); repeat apply Forall_cons; try apply Forall_nil; cbn [iend]; lia.
Qed.
Example C05_example : set_writable (s0 ++ [(utext u2, UuidSet u2 [Interval 1 1; Interval 7 u64_top])]).
Proof. exact s0_writable. Qed.

(* ---- C06 ---- *)
(* partial: requires distinct servers and non-reversed intervals *)
Theorem C06_parse_keeps_all_partial : forall bl t ps,
  Forall written_part_ok ps -> ps <> [] -> remove_char 10 t = written_text ps ->
  NoDup (map (fun p => utext (wp_uuid p)) ps) ->
  exists s, gtid_set_parse bl t = Ok s /\ set_ok s /\
    map (fun e => us_source (snd e)) s = map wp_uuid ps /\
    forall d n, set_has s d n <-> written_has ps d n.
Proof. exact parse_keeps_all. Qed.
Print Assumptions C06_parse_keeps_all_partial.
Definition wps : list written_part :=
  [WPart [32] u1 [WRange 0 1 0 3; WOne 2 11] [9]; WPart [] u2 [WRange 0 47 0 49] []].
Example C06_example : Forall written_part_ok wps /\ NoDup (map (fun p => utext (wp_uuid p)) wps) /\
  remove_char 10 (written_text wps ++ [10]) = written_text wps.
Proof.
  split; [|split; [|vm_compute; reflexivity]].
  - unfold wps, u64_top. repeat apply Forall_cons; try apply Forall_nil;
      (split; [repeat constructor|split; [repeat constructor|split; [split; vm_compute; reflexivity|split; [discriminate|]]]]);
      repeat apply Forall_cons; try apply Forall_nil; cbn; unfold u64_top; lia.
  - vm_compute. repeat constructor; cbn; intuition discriminate.
Qed.
(* false without distinctness: "U:1,U:5" forgets transaction 1 *)
Theorem C06_repeated_uuid_refuted :
  exists s, gtid_set_parse Release (utext u1 ++ tx ":1," ++ utext u1 ++ tx ":5") = Ok s /\
    ~ set_has s d1 1 /\ set_has s d1 5.
Proof.
  eexists. split; [vm_compute; reflexivity|]. split.
  - intros (k & us & [E|[]] & _ & i & Hi & Hn); inv E; destruct Hi as [<-|[]]; unfold iv_has in Hn; cbn in Hn; lia.
  - eexists. eexists. split; [now left|]. split; [vm_compute; reflexivity|]. eexists. split; [now left|]. unfold iv_has. cbn. lia.
Qed.
Print Assumptions C06_repeated_uuid_refuted.
(* false with a reversed (empty) interval: "U:1-3:4-2" forgets transaction 3 *)
Theorem C06_reversed_interval_refuted :
  exists s, gtid_set_parse Release (utext u1 ++ tx ":1-3:4-2") = Ok s /\ ~ set_has s d1 3.
Proof.
  eexists. split; [vm_compute; reflexivity|].
  intros (k & us & [E|[]] & _ & i & Hi & Hn); inv E; destruct Hi as [<-|[]]; unfold iv_has in Hn; cbn in Hn; lia.
Qed.
Print Assumptions C06_reversed_interval_refuted.

(* with repeated servers: exactly the transactions of each spelling's last part are kept *)
Theorem C06_last_part_wins : forall bl t ps,
  Forall written_part_ok ps -> ps <> [] -> remove_char 10 t = written_text ps ->
  exists s, gtid_set_parse bl t = Ok s /\ set_ok s /\
    forall d n, set_has s d n <->
      exists a p b w, ps = a ++ p :: b /\ Forall (fun q => utext (wp_uuid q) <> utext (wp_uuid p)) b /\
        udata (wp_uuid p) = d /\ In w (wp_ivs p) /\ written_iv_lo w <= n <= written_iv_hi w.
Proof.
  intros bl t ps H1 H2 H3. destruct (parse_last bl t ps H1 H2 H3) as (s & A & B & _ & C). exists s. split; [exact A|]. split; [exact B|exact C].
Qed.
Print Assumptions C06_last_part_wins.
Definition wps2 : list written_part := [WPart [] u1 [WOne 0 1] []; WPart [32] u2 [WOne 0 8] []; WPart [] u1 [WOne 0 5] []].
Lemma wps2_ok : Forall written_part_ok wps2.
Proof.
  unfold wps2, u64_top. repeat apply Forall_cons; try apply Forall_nil;
    (split; [repeat constructor|split; [repeat constructor|split; [split; vm_compute; reflexivity|split; [discriminate|]]]]);
    repeat apply Forall_cons; try apply Forall_nil; cbn; unfold u64_top; lia.
Qed.
Example C06_last_example : Forall written_part_ok wps2 /\ written_text wps2 = utext u1 ++ tx ":1, " ++ utext u2 ++ tx ":8," ++ utext u1 ++ tx ":5" /\
  gtid_set_parse Debug (written_text wps2) = Ok [(utext u1, UuidSet u1 [Interval 5 5]); (utext u2, UuidSet u2 [Interval 8 8])].
Proof. split; [exact wps2_ok|]. split; vm_compute; reflexivity. Qed.

(* ---- C07 (MySQL half) ---- *)
(* full statement: forall bl t, returns (gtid_set_parse bl t); false, see below *)
Theorem C07_mysql_parse_returns_partial : forall bl t,
  Forall (fun p => part_long (trim p) /\ (bl = Release \/ part_short_numbers (trim p))) (split_on 44 (remove_char 10 t)) ->
  returns (gtid_set_parse bl t).
Proof. exact gtid_set_parse_returns. Qed.
Print Assumptions C07_mysql_parse_returns_partial.
Example C07_example : Forall (fun p => part_long (trim p) /\ (Debug = Release \/ part_short_numbers (trim p)))
  (split_on 44 (remove_char 10 (utext u1 ++ tx ":zz"))).
Proof.
  vm_compute. constructor; [|constructor]. split; [lia|]. right. repeat constructor.
Qed.
Theorem C07_mysql_parse_refuted :
  gtid_set_parse Release (utext u1 ++ tx ":1-5,") = Panic /\
  gtid_set_parse Release (tx "24bc7850") = Panic /\ gtid_set_parse Release [10] = Panic /\
  gtid_set_parse Debug (utext u1 ++ tx ":1-18446744073709551615:7") = Panic.
Proof. vm_compute. repeat split; reflexivity. Qed.
Print Assumptions C07_mysql_parse_refuted.

(* ---- C08 ---- *)
Theorem C08_uuid_roundtrip : forall d, length d = 16%nat ->
  uuid_parse (utext (uuid_new d)) = Ok (uuid_new d) /\ udata (uuid_new d) = d /\
  utext (uuid_new d) = hex_encode (firstn 4 d) ++ [45] ++ hex_encode (firstn 2 (skipn 4 d)) ++ [45] ++
     hex_encode (firstn 2 (skipn 6 d)) ++ [45] ++ hex_encode (firstn 2 (skipn 8 d)) ++ [45] ++ hex_encode (skipn 10 d) /\
  (forall d', length d' = 16%nat -> utext (uuid_new d') = utext (uuid_new d) -> d' = d).
Proof.
  intros d H. split; [now apply uuid_new_ok|]. split; [reflexivity|]. split.
  - do 16 (destruct d as [|? d]; [discriminate|]). destruct d; [|discriminate]. reflexivity.
  - intros d' H' E. now apply uuid_new_inj.
Qed.
Print Assumptions C08_uuid_roundtrip.
Example C08_example : utext (uuid_new d1) = tx "24bc7850-2c16-11e6-a073-0242ac110001" /\ length d1 = 16%nat.
Proof. vm_compute. split; reflexivity. Qed.

(* ---- C09 ---- *)
(* full statement: for every set reachable by parse and add_gtid, NoDup of the 16-byte ids.  Proved when all ids are
   spelled as the server does. *)
Theorem C09_one_entry_per_server_partial : forall bl t ps h,
  Forall written_part_ok ps -> ps <> [] -> remove_char 10 t = written_text ps ->
  NoDup (map (fun p => utext (wp_uuid p)) ps) ->
  Forall (fun p => wp_uuid p = uuid_new (udata (wp_uuid p))) ps ->
  Forall (fun p => length (fst p) = 16%nat /\ snd p < u64_top) h ->
  exists s s', gtid_set_parse bl t = Ok s /\ add_all bl s (hist_gtids h) = Ok s' /\
    NoDup (map (fun e => udata (us_source (snd e))) s').
Proof.
  intros bl t ps h Hok Hne Ht Hnd Hsp Hh.
  destruct (parse_keeps_all bl t ps Hok Hne Ht Hnd) as (s & H1 & H2 & H3 & _).
  destruct (add_all_spec bl (hist_gtids h) s H2) as (s' & A & B & C & D & F).
  - unfold hist_gtids. apply Forall_map. eapply Forall_impl; [|exact Hh]. cbn. intros p [L N]. split; [now apply uuid_new_ok|exact N].
  - exists s, s'. split; [exact H1|]. split; [exact A|]. apply spelled_unique_ids; [exact B|]. apply F.
    + unfold set_spelled. apply Forall_forall. intros e He.
      assert (In (us_source (snd e)) (map wp_uuid ps)) as Hin.
      { rewrite <- H3. apply in_map_iff. eauto. }
      apply in_map_iff in Hin. destruct Hin as (p & Ep & Hp). rewrite <- Ep. rewrite Forall_forall in Hsp, Hok.
      split; [now apply Hsp|]. apply uuid_ok_length. apply (Hok p Hp).
    + unfold hist_gtids. apply Forall_map, Forall_forall. intros p _. reflexivity.
Qed.
Print Assumptions C09_one_entry_per_server_partial.
(* an upper-case spelling gives a second entry for the same server once the stream adds a GTID *)
Theorem C09_two_spellings_refuted :
  exists s s', gtid_set_parse Release (tx "24BC7850-2C16-11E6-A073-0242AC110001:1-5") = Ok s /\
    gtid_set_add Release s (Gtid u1 6) = Ok (true, s') /\
    map (fun e => udata (us_source (snd e))) s' = [d1; d1].
Proof. eexists. eexists. split; [vm_compute; reflexivity|]. split; vm_compute; reflexivity. Qed.
Print Assumptions C09_two_spellings_refuted.

(* exactly: no server twice iff no server is spelled in two ways, by the user or by user and server *)
Theorem C09_one_entry_iff : forall bl t ps h,
  Forall written_part_ok ps -> ps <> [] -> remove_char 10 t = written_text ps ->
  Forall (fun p => length (fst p) = 16%nat /\ snd p < u64_top) h ->
  let ids := map wp_uuid ps ++ map (fun p => uuid_new (fst p)) h in
  exists s s', gtid_set_parse bl t = Ok s /\ add_all bl s (hist_gtids h) = Ok s' /\
    (NoDup (map (fun e => udata (us_source (snd e))) s') <->
     forall u v, In u ids -> In v ids -> udata u = udata v -> utext u = utext v).
Proof.
  intros bl t ps h Hok Hne Ht Hh ids. destruct (parse_last bl t ps Hok Hne Ht) as (s & H1 & H2 & H3 & _).
  assert (Hg : Forall (fun g => uuid_ok (g_source g) /\ g_txn g < u64_top) (hist_gtids h)).
  { unfold hist_gtids. apply Forall_map. eapply Forall_impl; [|exact Hh]. cbn. intros p [L N]. split; [now apply uuid_new_ok|exact N]. }
  destruct (add_all_spec bl (hist_gtids h) s H2 Hg) as (s' & A & B & _). exists s, s'. split; [exact H1|]. split; [exact A|].
  assert (K : forall k, In k (map fst s') <-> In k (map utext ids)).
  { intros k. rewrite (add_all_keys bl (hist_gtids h) s s' H2 Hg A), H3. unfold ids, hist_gtids, wkey. rewrite map_app, in_app_iff, !map_map. reflexivity. }
  assert (O : forall u, In u ids -> uuid_ok u).
  { intros u Hu. unfold ids in Hu. apply in_app_or in Hu. rewrite !in_map_iff in Hu. rewrite Forall_forall in Hok, Hh.
    destruct Hu as [(p & <- & Hp)|(p & <- & Hp)]; [apply (Hok p Hp)|apply uuid_new_ok, (Hh p Hp)]. }
  rewrite (ids_unique s' B). split.
  - intros H u v Hu Hv. apply H; auto; apply K; now apply in_map.
  - intros H u v Ou Ov Iu Iv E. apply K in Iu, Iv. apply in_map_iff in Iu, Iv. destruct Iu as (u' & Eu & Iu), Iv as (v' & Ev & Iv).
    assert (u' = u) by (apply uuid_ok_text_inj; auto). assert (v' = v) by (apply uuid_ok_text_inj; auto). subst. auto.
Qed.
Print Assumptions C09_one_entry_iff.
Example C09_iff_example : let ids := map wp_uuid wps2 ++ map (fun p => uuid_new (fst p)) [(d1, 6); (d2, 9)] in
  Forall written_part_ok wps2 /\ forall u v, In u ids -> In v ids -> udata u = udata v -> utext u = utext v.
Proof.
  cbv zeta. split; [exact wps2_ok|]. intros u v Hu Hv E.
  repeat (destruct Hu as [<-|Hu]); try destruct Hu; repeat (destruct Hv as [<-|Hv]); try destruct Hv; first [reflexivity | vm_compute in E; discriminate E].
Qed.

(* ---- C80 ---- *)
(* one GTID: its text is the text of the set of this one transaction, and parses to that set *)
Theorem C80_single : forall bl d n, length d = 16%nat -> n < u64max1 ->
  let g := Gtid (uuid_new d) n in
  gtid_text g = utext (uuid_new d) ++ tx ":" ++ dec_text n /\
  exists s, gtid_set_parse bl (gtid_text g) = Ok s /\ gtid_set_text s = gtid_text g /\
    forall d' n', set_has s d' n' <-> d' = d /\ n' = n.
Proof.
  intros bl d n Hd Hn g. split; [reflexivity|]. pose (s := [(utext (uuid_new d), UuidSet (uuid_new d) [Interval n n])]).
  assert (T : gtid_set_text s = gtid_text g).
  { unfold s, gtid_set_text, uuid_set_text, gtid_text, g. cbn [map snd us_source us_ivs g_source g_txn sort_texts fold_right insert_text join].
    unfold interval_text. cbn [istart iend]. now rewrite N.eqb_refl. }
  assert (W : set_writable s).
  { split; [constructor; [intros []|constructor]|]. constructor; [|constructor]. cbn [fst snd us_source us_ivs]. split; [reflexivity|]. split; [now apply uuid_new_ok36|].
    split; [cbn [canonical istart iend]; lia|]. split; [discriminate|]. constructor; [exact Hn|constructor]. }
  destruct (C05_text_roundtrip bl s s W (Permutation_refl _)) as (s' & P & Q & _). rewrite T in P.
  assert (s' = s) as -> by (apply Permutation_sym in Q; now apply Permutation_length_1_inv in Q).
  exists s. split; [exact P|]. split; [exact T|]. intros d' n'. split.
  - intros (k & us & [E|[]] & Hu & i & Hi & Hx). injection E as <- <-. cbn [us_source us_ivs udata uuid_new] in *. destruct Hi as [<-|[]]. unfold iv_has in Hx. cbn [istart iend] in Hx. split; [congruence|lia].
  - intros [-> ->]. exists (utext (uuid_new d)), (UuidSet (uuid_new d) [Interval n n]). split; [now left|]. split; [reflexivity|]. exists (Interval n n). split; [now left|]. unfold iv_has. cbn [istart iend]. lia.
Qed.
Print Assumptions C80_single.
(* different GTIDs have different texts *)
Theorem C80_single_injective : forall d n d' n', length d = 16%nat -> n < u64max1 -> length d' = 16%nat -> n' < u64max1 ->
  gtid_text (Gtid (uuid_new d) n) = gtid_text (Gtid (uuid_new d') n') -> d = d' /\ n = n'.
Proof.
  intros d n d' n' H1 H2 H3 H4 E. destruct (C80_single Release d n H1 H2) as (_ & s & P & _ & M). destruct (C80_single Release d' n' H3 H4) as (_ & s' & P' & _ & M').
  rewrite E in P. assert (s' = s) as -> by congruence. apply M'. apply M. auto.
Qed.
Print Assumptions C80_single_injective.
(* sets with the same text are the same set *)
Theorem C80_sets : forall s s', set_writable s -> set_writable s' -> gtid_set_text s = gtid_set_text s' -> Permutation s s'.
Proof.
  intros s s' W W' E. destruct (C05_text_roundtrip Release s s W (Permutation_refl _)) as (x & P & Q & _).
  destruct (C05_text_roundtrip Release s' s' W' (Permutation_refl _)) as (y & P' & Q' & _). rewrite E in P. assert (x = y) as -> by congruence. now rewrite <- Q, Q'.
Qed.
Print Assumptions C80_sets.
Example C80_example : gtid_text (Gtid u1 7) = tx "24bc7850-2c16-11e6-a073-0242ac110001:7" /\ set_writable s0 /\
  gtid_set_parse Debug (gtid_text (Gtid u1 18446744073709551615)) = Ok [(utext u1, UuidSet u1 [Interval 18446744073709551615 18446744073709551615])].
Proof.
  split; [vm_compute; reflexivity|]. split; [|vm_compute; reflexivity]. pose proof s0_writable as [A B]. split; [repeat constructor; intros []|]. inversion B; subst. constructor; [assumption|constructor].
Qed.
