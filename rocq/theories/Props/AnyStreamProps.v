(* Claimed properties of streams with rows that cannot be decoded or are empty: more of C66 and C84. *)
From Coq Require Import Strings.String.
From Verif Require Import Base.Tac Base.Bytes Base.Text Base.Res Base.Str Base.Parse Model.Gtid Model.GtidMaria Model.TableMap Model.Rows Model.Events Model.Client Model.Commands
  Model.Responses Model.Channel Model.Session Spec.GtidSpec Spec.ClientSpec Spec.EventSpec Spec.TableSpec Spec.RowSpec Spec.CommandSpec Spec.ChannelSpec
  Spec.SessionSpec Spec.PipelineSpec Spec.PositionSessionSpec Proofs.ClientProofs Proofs.CommitTotal Proofs.SessionProofs Proofs.PositionProofs Proofs.PlanProofs Proofs.LoginProofs Proofs.PipelineProofs
  Props.ClientProps Props.EventProps Props.RowProps Props.CommandProps Props.SessionProps Props.PipelineProps Props.PlaceProps.
Local Open Scope N_scope.

(* ---- C66 ---- *)
Definition row_total (e : event) : nat :=
  match e with EvWrite r | EvDelete r => length (re_rows r) | EvUpdate u => length (ue_rows u) | _ => 0 end.
Definition maps (id : N) (x : hev) : Prop := match snd x with EvTableMap t => tb_id t = id | _ => False end.
Lemma rowless_same e : rowless e = e <-> row_total e = 0%nat.
Proof.
  destruct e; cbn [rowless row_total]; try tauto;
    match goal with r : rows_event |- _ => destruct r as [a b c d l] | u : update_event |- _ => destruct u as [a b c d d' l] end;
    cbn [re_table re_flags re_columns re_present re_rows ue_table ue_flags ue_columns ue_before ue_after ue_rows]; destruct l; cbn [length]; split; congruence.
Qed.
Lemma emits_tables w x bs w1 : sends_out w x bs w1 -> forall id, described w1 id <> None <-> described w id <> None \/ maps id x.
Proof.
  intros H id. assert (K : wr_tables w1 = wr_tables w -> ~ maps id x -> described w1 id <> None <-> described w id <> None \/ maps id x)
    by (unfold described; intros -> Z; tauto).
  destruct H as [x bs w1 H|h t e bs crc R D T].
  - destruct H as [h e bs crc HS T| | | | | |h t crc Ht Hk T|h t e bs crc R C D T|]; try (apply K; [reflexivity|intros []]).
    + apply K; [reflexivity|]. destruct HS; intros [].
    + unfold maps, described. cbn [wr_tables find snd tb_id table_map_of]. destruct (N.eqb_spec (t_id t) id); [split; [now right|discriminate]|tauto].
    + apply K; [reflexivity|]. destruct R; intros [].
  - apply K; [reflexivity|]. destruct R; intros [].
Qed.
Lemma whole_iff w es its ps w2 : log_sent w es its ps w2 ->
  its = map inl es <-> forall a x b id, es = a ++ x :: b -> row_table (snd x) = Some id ->
    (described w id <> None \/ exists y, In y a /\ maps id y) /\ (has_columns (snd x) = true \/ row_total (snd x) = 0%nat).
Proof.
  induction 1 as [w|w h e bs w1 es its s ps w2 Hh W P L IH].
  - split; [|reflexivity]. intros _ a x b id E. now destruct a.
  - cbn [map]. assert (K : shown w (h, e) = inl (h, e) <->
      forall id, row_table e = Some id -> described w id <> None /\ (has_columns e = true \/ row_total e = 0%nat)).
    { unfold shown. cbn [fst snd]. destruct (row_table e) as [i|]; [|split; [discriminate|reflexivity]]. split.
      - intros E id X. injection X as <-. destruct (described w i); [|discriminate]. split; [discriminate|]. destruct (has_columns e); [now left|right].
        apply rowless_same. congruence.
      - intros X. destruct (X i eq_refl) as [D C]. destruct (described w i); [|now destruct D]. destruct (has_columns e); [reflexivity|].
        destruct C as [C|C]; [discriminate|]. apply rowless_same in C. now rewrite C. }
    split.
    + intros E. injection E as E1 E2. intros a x b id E T. destruct a as [|y a]; cbn [app] in E; injection E as E3 E4.
      * subst x b. apply K in T; [|exact E1]. destruct T as [T1 T2]. split; [now left|exact T2].
      * subst y es. apply (proj1 IH E2 a x b id eq_refl) in T. destruct T as [[T|(y & Y1 & Y2)] C]; (split; [|exact C]).
        -- apply (emits_tables _ _ _ _ W) in T. destruct T as [T|T]; [now left|]. right. exists (h, e). split; [now left|exact T].
        -- right. exists y. split; [now right|exact Y2].
    + intros X. f_equal.
      * apply K. intros id T. destruct (X [] (h, e) es id eq_refl T) as [[D|(y & [] & _)] C]. auto.
      * apply IH. intros a x b id E T. destruct (X ((h, e) :: a) x b id) as [D C]; [now rewrite E|exact T|]. split; [|exact C].
        destruct D as [D|(y & [<-|Y1] & Y2)].
        -- left. apply (emits_tables _ _ _ _ W). now left.
        -- left. apply (emits_tables _ _ _ _ W). now right.
        -- right. eauto.
Qed.
(* Everything is handed out as sent exactly if every row event comes after a table map of its table on this stream and
   has a column in its row images, or no rows *)
Theorem C66_whole_iff : forall bl ck evs its ps w cs n, log_sent (Writer ck []) evs its ps w -> flowing cs -> in_bytes cs = firstn n (flat_map wire ps) ->
  (length (flat_map wire ps) <= n)%nat ->
  (exists s, takes bl (stream_new cs ck) (map inl evs) s) <->
  forall a x b id, evs = a ++ x :: b -> row_table (snd x) = Some id ->
    (exists y, In y a /\ maps id y) /\ (has_columns (snd x) = true \/ row_total (snd x) = 0%nat).
Proof.
  intros bl ck evs its ps w cs n L F B Hn. destruct (C66_any_stream bl ck evs its ps w cs n L F B) as (s & T & X).
  assert (A : arrived n ps = length its).
  { clear - L Hn. revert n Hn. induction L as [|w h e bs w1 es its s ps w2 Hh W P L IH]; intros n Hn; [reflexivity|]. cbn [arrived flat_map] in *. rewrite app_length in Hn.
    destruct (Nat.ltb_spec n (length (wire (n2b 0 :: header_bytes h ++ bs, s)))); [lia|]. cbn [length]. f_equal. apply IH. lia. }
  rewrite A, firstn_all in T.
  assert (E : (exists s', takes bl (stream_new cs ck) (map inl evs) s') <-> its = map inl evs).
  { split; [|intros <-; eauto]. intros (s' & T'). pose proof (sent_length _ _ _ _ _ L) as LE.
    rewrite <- (firstn_all its) in T. destruct (taken_prefix bl _ _ _ T' _ _ _ _ _ T X) as (k & K). rewrite K. symmetry. apply firstn_all2.
    apply (f_equal (@length _)) in K. rewrite map_length, firstn_length in K. lia. }
  rewrite E, (whole_iff _ _ _ _ _ L). split; intros H a x b id E1 E2; destruct (H a x b id E1 E2) as [H1 H2]; (split; [|exact H2]).
  - destruct H1 as [H1|H1]; [now destruct H1|exact H1].
  - now right.
Qed.
Print Assumptions C66_whole_iff.
(* replicate(), then any part of any stream, committing the events taken before the first error: the saved set is the old
   one and the transactions of which all events were taken *)
Theorem C66_session_any : forall bl ev st h p q ok ps ck w is its pk wr n s evs,
  hashes ev -> names_fit st -> s_ssl st = Disabled -> hello_for h p -> q < 255 -> starts_byte 0 (fst ok) ->
  provider_from (he_version h) = MySQL -> let o := c_opts (w_client w) in
  accepts MySQL o ps o ck -> request_fits ev st o -> fits_packets MySQL st o -> o_strategy o = FromGtid -> o_set o = Some s ->
  Forall item_ok is -> Forall (fun t => stream_gtid_ok (txn_gtid t)) (stream_txns is) -> log_sent (Writer ck []) (stream_events is) its pk wr ->
  pending (w_in w) ((hello_bytes h, q) :: ok :: ps) (firstn n (flat_map wire pk)) [] ->
  map inl evs = firstn (Nat.min (length evs) (arrived n pk)) its ->
  exists w' sm c' s', replicate bl ev st w = (Ok ck, w') /\
    takes bl (stream_new (w_in w') ck) (map inl evs) sm /\
    commit_all bl (w_client w') evs = Ok c' /\ o_set (c_opts c') = Some s' /\
    forall d m, set_has s' d m <->
      set_has s d m \/ exists t, In t (completed (length evs) is) /\ udata (g_source (txn_gtid t)) = d /\ g_txn (txn_gtid t) = m.
Proof.
  intros bl ev st h p q ok ps ck w is its pk wr n s evs HH NF SSL HF Q OK PR o A R Z M S IO G L P EV.
  destruct (C61_completes bl ev st h p q ok ps o ck w (firstn n (flat_map wire pk)) [] HH NF SSL HF Q OK) as (w' & E & P2 & W); try (rewrite PR; assumption); try assumption.
  destruct P2 as (c & C1 & C2 & C3 & _). rewrite app_nil_r in C1. cbn [flat_map app] in C3.
  destruct (C66_any_stream bl ck _ its pk wr (w_in w') n L) as (sm & T & X); [now rewrite C1|now rewrite C1|].
  assert (T2 : exists sm2, takes bl (stream_new (w_in w') ck) (map inl evs) sm2).
  { rewrite EV. rewrite <- firstn_firstn. revert T. generalize (firstn (arrived n pk) its) (stream_new (w_in w') ck). clear.
    induction (length evs) as [|k IH]; intros l s T; cbn [firstn]; [exists s; constructor|]. destruct l as [|i l]; [exists s; constructor|].
    inversion T; subst. destruct (IH l s1) as (s2 & T2); [assumption|]. exists s2. econstructor; eauto. }
  destruct T2 as (sm2 & T2).
  destruct (taken_events bl ck _ its pk wr (w_in w') n evs sm2 (w_client w') L) as (es & ES & EL & EC & _); [now rewrite C1|now rewrite C1|exact T2|].
  destruct R as (_ & _ & R). destruct (R s M S) as (K & _).
  destruct (C12_checkpoint_exact bl is (length evs) (w_client w') s IO G) as (c' & s' & Y1 & Y2 & _ & Y3); try (rewrite W; assumption || reflexivity); [exact K|].
  exists w', sm2, c', s'. rewrite <- EL, <- ES in Y1. rewrite EC. auto 10.
Qed.
Print Assumptions C66_session_any.

(* rows without any column: the row is counted by the server and missing at the client *)
Definition bare_table : table := Table 7 1 (tx "d") (tx "t") [Column 3 0 true] [false; false; false; false; false; false; false] [].
Definition bare_rows : rows := Rows 2 1 [] [false] [false; false; false; false; false; false; false] [([Absent], [])].
Lemma bare_event : row_event bare_table 30 (EvWrite (rows_event_of bare_table bare_rows)) (rows_bytes bare_table bare_rows) /\ table_ok bare_table.
Proof.
  assert (T : table_ok bare_table).
  { unfold table_ok, bare_table. cbn [t_id t_db t_name t_cols t_pad t_fields].
    split; [lia|]; split; [split; [repeat constructor|reflexivity]|]; split; [split; [repeat constructor|reflexivity]|]; split; [|split; [cbn [length]; lia|split; [reflexivity|constructor]]].
    apply Forall_cons; [|apply Forall_nil]. split; [unfold known_types; cbn [In c_type]; tauto|reflexivity]. }
  split; [|exact T]. apply rw_write2; [|reflexivity]. split; [exact T|]. unfold bare_rows. cbn [r_flags r_extra r_present r_pad r_images].
  split; [reflexivity|]. split; [reflexivity|]. split; [reflexivity|]. split; [reflexivity|]. apply Forall_cons; [|apply Forall_nil].
  split; [repeat constructor|reflexivity].
Qed.
Definition bare_log : list hev := [(hx 19 40 100, EvTableMap (table_map_of bare_table)); (hx 30 31 131, EvWrite (rows_event_of bare_table bare_rows)); (hx 31 31 162, EvUpdate (UpdateEvent 9 1 1 [true] [true] []))].
Definition bare_seen : list (hev + error) := Eval vm_compute in
  [inl (hx 19 40 100, EvTableMap (table_map_of bare_table)); inl (hx 30 31 131, rowless (EvWrite (rows_event_of bare_table bare_rows))); inr (EString no_table_map)].
Definition bare_updates : updates := Updates 2 1 [] [true] [false; false; false; false; false; false; false] [true] [false; false; false; false; false; false; false] [].
Definition bare_packets : list packet :=
  [pk66 (hx 19 40 100) (table_bytes bare_table) 1; pk66 (hx 30 31 131) (rows_bytes bare_table bare_rows) 2;
   pk66 (hx 31 31 162) (updates_bytes (Table 9 1 (tx "d") (tx "t") [Column 3 0 true] [false; false; false; false; false; false; false] []) bare_updates) 3].
Lemma bare_sent : log_sent (Writer CkNone []) bare_log bare_seen bare_packets (Writer CkNone [bare_table]).
Proof.
  destruct bare_event as [R T]. unfold bare_log, bare_packets, pk66.
  change bare_seen with [shown (Writer CkNone []) (hx 19 40 100, EvTableMap (table_map_of bare_table));
    shown (Writer CkNone [bare_table]) (hx 30 31 131, EvWrite (rows_event_of bare_table bare_rows));
    shown (Writer CkNone [bare_table]) (hx 31 31 162, EvUpdate (UpdateEvent 9 1 1 [true] [true] []))].
  apply (ls_event _ _ _ _ (Writer CkNone [bare_table])); [head66| |split; vm_compute; reflexivity|].
  { apply so_writes. rewrite <- (app_nil_r (table_bytes bare_table)). apply (wr_table (Writer CkNone [])); [reflexivity|exact T|reflexivity]. }
  apply (ls_event _ _ _ _ (Writer CkNone [bare_table])); [head66| |split; vm_compute; reflexivity|].
  { rewrite <- (app_nil_r (rows_bytes bare_table bare_rows)). apply (so_rows _ _ bare_table); [exact R| |reflexivity]. intros t' X. vm_compute in X. now injection X as <-. }
  apply (ls_event _ _ _ _ (Writer CkNone [bare_table])); [head66| |split; vm_compute; reflexivity|constructor].
  set (t9 := Table 9 1 _ _ _ _ _). rewrite <- (app_nil_r (updates_bytes t9 bare_updates)). apply (so_rows _ _ t9); [|vm_compute; discriminate|reflexivity].
  change (EvUpdate (UpdateEvent 9 1 1 [true] [true] [])) with (EvUpdate (update_event_of t9 bare_updates)). apply rw_update2; [|reflexivity].
  destruct T as (T1 & T2 & T3 & T4 & T5 & T6 & T7). split; [split; [reflexivity|]; repeat split; try apply T2; try apply T3; try assumption|].
  repeat split; constructor.
Qed.
Theorem C66_bare_rows_refuted : exists evs ps, Forall packet_ok ps /\
  (forall a x b id, evs = a ++ x :: b -> row_table (snd x) = Some id -> exists y, In y a /\ maps id y) /\
  forall bl cs, flowing cs -> in_bytes cs = flat_map wire ps ->
  exists got s, takes bl (stream_new cs CkNone) (map inl got) s /\ fst (stream_next bl s) = Ok (Some (inr (EIo UnexpectedEof))) /\
    list_sum (map (fun x : hev => row_total (snd x)) evs) = 1%nat /\ list_sum (map (fun x : hev => row_total (snd x)) got) = 0%nat /\ length got = length evs /\
    log_sent (Writer CkNone []) evs (map inl got) ps (Writer CkNone [bare_table]).
Proof.
  pose proof bare_sent as L. inversion L as [|? ? ? ? w1 ? ? ? ? ? H1 W1 P1 L1]; subst. inversion L1 as [|? ? ? ? w2 ? ? ? ? ? H2 W2 P2 L2]; subst. inversion L2 as [|? ? ? ? w3 ? ? ? ? ? H3 W3 P3 L3]; subst.
  exists (firstn 2 bare_log), (firstn 2 bare_packets). split; [repeat constructor; assumption|]. split.
  - intros a x b id E T. destruct a as [|y a]; [injection E as <- <-; discriminate T|]. destruct a as [|y' a].
    + injection E as <- <- <-. injection T as <-. eexists. split; [now left|reflexivity].
    + destruct a; discriminate E.
  - assert (LL : log_sent (Writer CkNone []) (firstn 2 bare_log) (map inl [(hx 19 40 100, EvTableMap (table_map_of bare_table)); (hx 30 31 131, rowless (EvWrite (rows_event_of bare_table bare_rows)))]) (firstn 2 bare_packets) (Writer CkNone [bare_table])).
    { destruct bare_event as [R T]. unfold bare_log, bare_packets, pk66. cbn [firstn map].
      change [inl (hx 19 40 100, EvTableMap (table_map_of bare_table)); inl (hx 30 31 131, rowless (EvWrite (rows_event_of bare_table bare_rows)))] with
        [shown (Writer CkNone []) (hx 19 40 100, EvTableMap (table_map_of bare_table)); shown (Writer CkNone [bare_table]) (hx 30 31 131, EvWrite (rows_event_of bare_table bare_rows))].
      apply (ls_event _ _ _ _ (Writer CkNone [bare_table])); [head66| |split; vm_compute; reflexivity|].
      { apply so_writes. rewrite <- (app_nil_r (table_bytes bare_table)). apply (wr_table (Writer CkNone [])); [reflexivity|exact T|reflexivity]. }
      apply (ls_event _ _ _ _ (Writer CkNone [bare_table])); [head66| |split; vm_compute; reflexivity|constructor].
      rewrite <- (app_nil_r (rows_bytes bare_table bare_rows)). apply (so_rows _ _ bare_table); [exact R| |reflexivity]. intros t' X. vm_compute in X. now injection X as <-. }
    intros bl cs F B. destruct (C66_any_stream bl CkNone _ _ _ _ cs (length (in_bytes cs)) LL F) as (s & T & X); [now rewrite B, firstn_all|].
    replace (arrived (length (in_bytes cs)) (firstn 2 bare_packets)) with 2%nat in T by (rewrite B; vm_compute; reflexivity).
    cbn [firstn map] in T. exists [(hx 19 40 100, EvTableMap (table_map_of bare_table)); (hx 30 31 131, rowless (EvWrite (rows_event_of bare_table bare_rows)))], s.
    split; [exact T|]. rewrite X. repeat split; try reflexivity. exact LL.
Qed.
Print Assumptions C66_bare_rows_refuted.
Example C66_any_stream_example : log_sent (Writer CkNone []) bare_log bare_seen bare_packets (Writer CkNone [bare_table]) /\
  exists r, nth 1 bare_seen (inr EUtf8) = inl (hx 30 31 131, EvWrite r) /\ re_rows r = [] /\ nth 2 bare_seen (inr EUtf8) = inr (EString no_table_map).
Proof. split; [exact bare_sent|]. eexists. repeat split. Qed.

(* ---- C84 ---- *)
(* none of the artificial events is a table map *)
Definition no_added_maps (xs : list (hev * bool)) : Prop := Forall (fun x => snd x = false -> is_table_map (snd (fst x)) = false) xs.
Lemma not_maps id x : is_table_map (snd x) = false -> ~ maps id x.
Proof. unfold maps, is_table_map. destruct (snd x); try discriminate; auto. Qed.
Lemma stuck_log f p tm l rest xs id : marked f p tm (l :: rest) xs -> row_table (lo_event l) = Some id -> no_added_maps xs ->
  forall w its pk w2 evs k, log_sent w (map fst xs) its pk w2 -> described w id = None -> map inl evs = firstn k its ->
  logged (firstn (length evs) xs) = 0%nat.
Proof.
  intros M R. remember (l :: rest) as todo eqn:TD. revert TD.
  induction M as [|f p tm l' todo xs M IH|f p tm todo h e xs Z RO M IH|f p todo h xs M IH|f p todo h n xs Z M IH]; intros TD NA w its pk w2 evs k L D EV; cbn [map fst] in L.
  - now rewrite firstn_nil.
  - injection TD as -> _. inversion L; subst. destruct evs as [|y evs]; [reflexivity|]. destruct k; cbn [map firstn] in EV; [discriminate|]. injection EV as EV _.
    exfalso. unfold shown in EV. destruct l as [lf ls le lh lv]. cbn [lo_event lo_hev snd] in *. rewrite R, D in EV. discriminate.
  - apply Forall_cons_iff in NA. destruct NA as [N1 NA]. inversion L as [|? ? ? ? w1 ? ? ? ? ? Hh W P L1]; subst. destruct evs as [|y evs]; [reflexivity|]. destruct k; cbn [map firstn] in EV; [discriminate|]. injection EV as _ EV.
    cbn [length firstn]. change (logged ((h, e, false) :: firstn (length evs) xs)) with (logged (firstn (length evs) xs)). eapply (IH eq_refl NA w1); eauto.
    destruct (described w1 id) eqn:D1; [|reflexivity]. exfalso. assert (X : described w1 id <> None) by congruence. apply (emits_tables _ _ _ _ W) in X. destruct X as [X|X]; [now rewrite D in X|].
    revert X. apply not_maps. now apply N1.
  - apply Forall_cons_iff in NA. destruct NA as [N1 NA]. inversion L as [|? ? ? ? w1 ? ? ? ? ? Hh W P L1]; subst. destruct evs as [|y evs]; [reflexivity|]. destruct k; cbn [map firstn] in EV; [discriminate|]. injection EV as _ EV.
    cbn [length firstn]. change (logged ((h, EvRotate (Rotate f p), false) :: firstn (length evs) xs)) with (logged (firstn (length evs) xs)). eapply (IH eq_refl NA w1); eauto.
    destruct (described w1 id) eqn:D1; [|reflexivity]. exfalso. assert (X : described w1 id <> None) by congruence. apply (emits_tables _ _ _ _ W) in X. destruct X as [X|X]; [now rewrite D in X|exact X].
  - apply Forall_cons_iff in NA. destruct NA as [N1 NA]. inversion L as [|? ? ? ? w1 ? ? ? ? ? Hh W P L1]; subst. destruct evs as [|y evs]; [reflexivity|]. destruct k; cbn [map firstn] in EV; [discriminate|]. injection EV as _ EV.
    cbn [length firstn]. change (logged ((h, EvHeartbeat n, false) :: firstn (length evs) xs)) with (logged (firstn (length evs) xs)). eapply (IH eq_refl NA w1); eauto.
    destruct (described w1 id) eqn:D1; [|reflexivity]. exfalso. assert (X : described w1 id <> None) by congruence. apply (emits_tables _ _ _ _ W) in X. destruct X as [X|X]; [now rewrite D in X|exact X].
Qed.
(* committing artificial events does not move the client *)
Lemma artificial_stay bl f p tm todo xs : marked f p tm todo xs -> p < 4294967296 -> forall k c c', logged (firstn k xs) = 0%nat -> o_file (c_opts c) = f -> o_pos (c_opts c) = p ->
  commit_all bl c (map fst (firstn k xs)) = Ok c' -> o_file (c_opts c') = f /\ o_pos (c_opts c') = p.
Proof.
  intros M. induction M as [|f p tm l' todo xs M IH|f p tm todo h e xs Z RO M IH|f p todo h xs M IH|f p todo h n xs Z M IH]; intros PO k c c' LG F P E.
  - rewrite firstn_nil in E. cbn [map commit_all] in E. injection E as <-. auto.
  - destruct k; [cbn [firstn map commit_all] in E; injection E as <-; auto|]. discriminate LG.
  - destruct k; [cbn [firstn map commit_all] in E; injection E as <-; auto|]. cbn [firstn map fst commit_all] in E. destruct (commit bl c h e) as [c1|er| |] eqn:E1; cbn [rbind] in E; try discriminate.
    apply (IH PO k c1); auto; apply commit_coords in E1; destruct E1 as [K1 K2]; unfold announced_file, announced_pos in *; cbn [fst snd] in *.
    + rewrite K1. destruct e; try exact F. discriminate.
    + rewrite K2, Z. destruct e; cbn [is_rotate] in *; try exact P; discriminate.
  - destruct k; [cbn [firstn map commit_all] in E; injection E as <-; auto|]. cbn [firstn map fst commit_all] in E. destruct (commit bl c h (EvRotate (Rotate f p))) as [c1|er| |] eqn:E1; cbn [rbind] in E; try discriminate.
    apply (IH PO k c1); auto; apply commit_coords in E1; destruct E1 as [K1 K2]; unfold announced_file, announced_pos in *; cbn [fst snd ro_file ro_pos is_rotate] in *; [exact K1|].
    rewrite K2. now apply N.mod_small.
  - destruct k; [cbn [firstn map commit_all] in E; injection E as <-; auto|]. cbn [firstn map fst commit_all] in E. destruct (commit bl c h (EvHeartbeat n)) as [c1|er| |] eqn:E1; cbn [rbind] in E; try discriminate.
    apply (IH PO k c1); auto; apply commit_coords in E1; destruct E1 as [K1 K2]; unfold announced_file, announced_pos in *; cbn [fst snd is_rotate is_table_map] in *; [congruence|].
    rewrite K2. destruct (0 <? h_next h); congruence.
Qed.
(* A client standing directly before a row event that has its table map before the saved position: on no connection does
   it take any event of the log, whatever arrives, and it stands there afterwards as well *)
Theorem C84_stuck : forall bl ev st fs c cs ck w' ps q pos fl id nm f p f0 p0 xs its pk w2 n evs s c' l rest tid,
  s_server_id st < 4294967296 -> stands_at fs c f0 p0 -> log_from f0 p0 (locate_files fs) = l :: rest -> row_table (lo_event l) = Some tid ->
  replicate bl ev st (World c cs []) = (Ok ck, w') -> sent (w_log w') = ps ++ [(q, 0)] -> srv_dump q = Some (pos, fl, id, nm) -> reads_from fs nm pos f p ->
  opens_with f p xs -> marked f p false (log_from f p (locate_files fs)) xs -> no_added_maps xs -> log_sent (Writer ck []) (map fst xs) its pk w2 ->
  flowing (w_in w') -> in_bytes (w_in w') = firstn n (flat_map wire pk) ->
  takes bl (stream_new (w_in w') ck) (map inl evs) s -> commit_all bl (w_client w') evs = Ok c' ->
  logged (firstn (length evs) xs) = 0%nat /\ stands_at fs c' f0 p0.
Proof.
  intros bl ev st fs c cs ck w' ps q pos fl id nm f p f0 p0 xs its pk w2 n evs s c' l rest tid ID A LG RT E SE D S AN MK NA L F B T CO.
  destruct (place_read _ _ _ _ _ _ _ _ _ _ _ _ _ _ _ _ _ _ ID A E SE D S) as (-> & -> & O).
  destruct (C66_any_stream bl ck _ its pk w2 (w_in w') n L F B) as (s9 & T9 & X9). destruct (taken_prefix bl _ _ _ T _ _ _ _ _ T9 X9) as (k & EV).
  pose proof MK as MK'. rewrite LG in MK'. pose proof (stuck_log _ _ _ _ _ _ tid MK' RT NA _ _ _ _ evs k L eq_refl EV) as Z. split; [exact Z|].
  destruct (taken_events bl ck _ its pk w2 (w_in w') n evs s (w_client w') L F B T) as (es & EV2 & EL & EK & _). rewrite EK in CO. rewrite <- EL in Z. clear T EK EL EV evs.
  destruct A as (M & PO & NF & A). destruct AN as (h & r & XR). destruct es as [|x es].
  { cbn [commit_all] in CO. assert (c' = w_client w') as -> by congruence. repeat split; rewrite ?O; auto; apply NF. }
  pose proof (commit_frame bl _ _ _ CO) as [ST2 _]. rewrite O in ST2.
  rewrite XR in EV2, Z, MK. cbn [length map fst firstn] in EV2, Z. injection EV2 as -> EV2. cbn [commit_all] in CO. destruct (commit bl (w_client w') h (EvRotate (Rotate f0 p0))) as [c1|er| |] eqn:E1; cbn [rbind] in CO; try discriminate.
  pose proof (commit_coords bl _ _ _ _ E1) as [K1 K2]. cbn [announced_file announced_pos snd is_rotate ro_file ro_pos] in K1, K2. rewrite N.mod_small in K2 by exact PO.
  assert (MR : marked f0 p0 false (log_from f0 p0 (locate_files fs)) r) by (inversion MK; subst; [discriminate|assumption]).
  change (logged (firstn (length es) r) = 0%nat) in Z. rewrite EV2, firstn_map in CO.
  destruct (artificial_stay bl _ _ _ _ _ MR PO (length es) c1 c' Z K1 K2 CO) as [X1 X2].
  split; [now rewrite ST2|]. split; [exact PO|]. split; [exact NF|]. now left.
Qed.
Print Assumptions C84_stuck.
(* one table map, two row events: the connection breaks after the first; the second is never handed out again *)
Definition x85_r2 : hev := (hx 32 60 262, EvDelete (rows_event_of ex_table ex_rows)).
Definition fs85 : list blfile := [BlFile (tx "bin.1") [Entry 31 (hx 16 31 35) (EvXid 8); Entry 107 (hx 19 107 142) (EvTableMap (table_map_of ex_table));
  Entry 60 (hx 32 60 202) (EvDelete (rows_event_of ex_table ex_rows)); Entry 60 (hx 32 60 262) (EvDelete (rows_event_of ex_table ex_rows))]].
Definition sent85_1 : list (hev * bool) := [(rot84 4, false); (ev_fd, false); (x84_8, true); (x84_t, true); (x84_r, true); (x85_r2, true)].
Definition sent85_2 : list (hev * bool) := [(rot84 202, false); (ev_fd, false); (x85_r2, true)].
Definition pk_r2 (s : N) : packet := pk66 (hx 32 60 262) (rows_bytes ex_table ex_rows ++ crc4) s.
Definition pk_rest85 : list packet := [pk66 (hx 19 107 142) (table_bytes ex_table ++ crc4) 3; pk66 (hx 32 60 202) (rows_bytes ex_table ex_rows ++ crc4) 4; pk_r2 5].
Lemma w_rest85 : log_written (Writer CkCrc32 []) [x84_t; x84_r; x85_r2] pk_rest85 (Writer CkCrc32 [ex_table]).
Proof.
  unfold pk_rest85, x84_t, x84_r, x85_r2, pk_r2, pk66.
  apply (lw_event _ _ _ _ (Writer CkCrc32 [ex_table])); [head66| |split; vm_compute; reflexivity|].
  { apply (wr_table (Writer CkCrc32 [])); [reflexivity|exact ex_table_ok|reflexivity]. }
  do 2 (apply (lw_event _ _ _ _ (Writer CkCrc32 [ex_table])); [head66| |split; vm_compute; reflexivity|];
    [apply (wr_rows _ _ ex_table); [apply rw_delete2; [exact ex_rows_ok|reflexivity]|now left|reflexivity|reflexivity]|]). constructor.
Qed.
Definition pk85_1 : list packet := pk_rot84 4 ++ pk_fd ++ pk_8 ++ pk_rest85.
Definition pk85_2 : list packet := pk_rot84 202 ++ pk_fd ++ [pk_r2 3].
Definition cut85 : nat := length (flat_map wire (firstn 5 pk85_1)) + 30.
Definition w85_1 : world := Eval vm_compute in link84 c84_0 pk85_1 cut85.
Definition c85_1 : client := Eval vm_compute in client74 (commit_all Release (w_client w85_1) (firstn 5 (map fst sent85_1))).
Definition w85_2 : world := Eval vm_compute in link84 c85_1 pk85_2 1000.
Lemma fs85_ok : log_ok fs85.
Proof.
  split; [|split].
  - cbn [files_ok fs85]. split; [|exact I]. repeat constructor; vm_compute; reflexivity.
  - repeat constructor. intros [].
  - repeat constructor; vm_compute; reflexivity.
Qed.
Lemma log85_2 : log_sent (Writer CkCrc32 []) (map fst sent85_2) [inl (rot84 202); inl ev_fd; inr (EString no_table_map)] pk85_2 (Writer CkCrc32 []).
Proof.
  assert (W : log_written (Writer CkCrc32 []) [rot84 202; ev_fd] (pk_rot84 202 ++ pk_fd) (Writer CkCrc32 [])).
  { apply w_rot84; [reflexivity|]. rewrite <- (app_nil_r pk_fd). apply w_fd. constructor. }
  inversion W as [|? ? ? ? w1 ? ? ? ? H1 W1 P1 L1]; subst. inversion L1 as [|? ? ? ? w2 ? ? ? ? H2 W2 P2 L2]; subst.
  inversion L2; subst. cbn [map fst sent85_2]. unfold pk85_2.
  change [inl (rot84 202); inl ev_fd; inr (EString no_table_map)] with [shown (Writer CkCrc32 []) (rot84 202); shown w1 ev_fd; shown (Writer CkCrc32 []) x85_r2].
  eapply ls_event; [exact H1|exact (so_writes _ _ _ _ W1)|exact P1|]. eapply ls_event; [exact H2|exact (so_writes _ _ _ _ W2)|exact P2|].
  unfold pk_r2, pk66, x85_r2. apply (ls_event _ _ _ _ (Writer CkCrc32 [])); [head66| |split; vm_compute; reflexivity|constructor].
  apply (so_rows _ _ ex_table); [apply rw_delete2; [exact ex_rows_ok|reflexivity]|discriminate|reflexivity].
Qed.
Theorem C84_second_row_event_refuted : exists fs c d c1 l, log_ok fs /\ maps_inside (locate_files fs) /\ stands_at fs c (tx "bin.1") 4 /\
  pcontacts Release env0 st0 fs c [d] c1 /\ stands_at fs c1 (tx "bin.1") 202 /\ log_from (tx "bin.1") 202 (locate_files fs) = [l] /\
  exists cs ck w' its pk w2 x y s, replicate Release env0 st0 (World c1 cs []) = (Ok ck, w') /\
    marked (tx "bin.1") 202 false [l] [x; y; (lo_hev l, true)] /\ log_sent (Writer ck []) (map fst [x; y; (lo_hev l, true)]) its pk w2 /\
    flowing (w_in w') /\ in_bytes (w_in w') = flat_map wire pk /\ takes Release (stream_new (w_in w') ck) its s /\
    its = [inl (fst x); inl (fst y); inr (EString no_table_map)].
Proof.
  assert (N1 : named (tx "bin.1")) by (split; [repeat constructor|discriminate]).
  exists fs85, c84_0, (firstn 3 (locate_files fs85)), c85_1, (Located (tx "bin.1") 202 262 (hx 32 60 262) (EvDelete (rows_event_of ex_table ex_rows))).
  split; [exact fs85_ok|]. split; [|split; [|split; [|split; [|split; [vm_compute; reflexivity|]]]]].
  - intros a x b t E Ht. cbn [locate_files locate fs85 bf_name bf_entries app] in E.
    do 4 (destruct a as [|? a]; [cbn [app] in E; inv E; try discriminate; (cbn in Ht; injection Ht as <-; eexists; (split; [right; left; reflexivity|reflexivity]))
                                |cbn [app] in E; injection E as <- E]). destruct a; discriminate.
  - split; [discriminate|]. split; [reflexivity|]. split; [exact N1|]. right. split; [discriminate|]. repeat split. eexists _, _. split; reflexivity.
  - assert (L1 : log_written (Writer CkCrc32 []) (map fst sent85_1) pk85_1 (Writer CkCrc32 [ex_table])) by (cbn [map fst sent85_1]; unfold pk85_1; apply w_rot84; [reflexivity|]; apply w_fd, w_8, w_rest85).
    destruct (C66_events_partial Release CkCrc32 _ _ _ (w_in w85_1) cut85 L1) as (s1 & T1 & _); [repeat constructor; discriminate|vm_compute; reflexivity|].
    replace (arrived cut85 pk85_1) with 5%nat in T1 by (vm_compute; reflexivity).
    change (firstn 3 (locate_files fs85)) with (firstn (logged (firstn (length (firstn 5 (map fst sent85_1))) sent85_1)) (log_from (tx "bin.1") 4 (locate_files fs85))).
    eapply (pc_stream Release env0 st0 fs85 c84_0 (in84 pk85_1 cut85) CkCrc32 w85_1 (removelast (sent (w_log w85_1))) (fst (last (sent (w_log w85_1)) ([], 9))) 4 0 42 [] _ _ _ _ pk85_1 _ cut85).
    + vm_compute. reflexivity.
    + vm_compute. reflexivity.
    + vm_compute. reflexivity.
    + left. repeat split. eexists _, _. split; reflexivity.
    + eexists _, _. reflexivity.
    + change (log_from (tx "bin.1") 4 (locate_files fs85)) with (locate_files fs85). apply mk_rotate. apply mk_zero; [reflexivity|reflexivity|].
      cbn [locate_files locate fs85 bf_name bf_entries app]. do 4 (refine (mk_log _ _ _ (Located (tx "bin.1") _ _ _ _) _ _ _); cbn [lo_event lo_file lo_end is_table_map]). constructor.
    + exact (sent_written _ _ _ _ L1).
    + repeat constructor; discriminate.
    + vm_compute. reflexivity.
    + exact T1.
    + instantiate (1 := c85_1). vm_compute. reflexivity.
    + constructor.
  - split; [discriminate|]. split; [reflexivity|]. split; [exact N1|]. left. split; reflexivity.
  - exists (in84 pk85_2 1000), CkCrc32, w85_2.
    destruct (C66_any_stream Release CkCrc32 _ _ _ _ (w_in w85_2) 1000 log85_2) as (s & T & _); [repeat constructor; discriminate|vm_compute; reflexivity|].
    replace (arrived 1000 pk85_2) with 3%nat in T by (vm_compute; reflexivity).
    eexists _, pk85_2, _, (rot84 202, false), (ev_fd, false), s. split; [vm_compute; reflexivity|]. split.
    { apply mk_rotate. apply mk_zero; [reflexivity|reflexivity|]. refine (mk_log _ _ _ (Located (tx "bin.1") _ _ _ _) _ _ _). constructor. }
    split; [exact log85_2|]. split; [repeat constructor; discriminate|]. split; [vm_compute; reflexivity|]. split; [exact T|reflexivity].
Qed.
Print Assumptions C84_second_row_event_refuted.
Example C84_stuck_example : stands_at fs85 c85_1 (tx "bin.1") 202 /\
  (exists l, log_from (tx "bin.1") 202 (locate_files fs85) = [l] /\ row_table (lo_event l) = Some 108) /\ no_added_maps sent85_2 /\
  replicate Release env0 st0 (World c85_1 (in84 pk85_2 1000) []) = (Ok CkCrc32, w85_2) /\
  srv_dump (fst (last (sent (w_log w85_2)) ([], 9))) = Some (202, 0, 42, utf8_encode (tx "bin.1")) /\
  log_sent (Writer CkCrc32 []) (map fst sent85_2) [inl (rot84 202); inl ev_fd; inr (EString no_table_map)] pk85_2 (Writer CkCrc32 []).
Proof.
  split; [|split; [|split; [|split; [|split]]]].
  - split; [discriminate|]. split; [reflexivity|]. split; [split; [repeat constructor|discriminate]|]. left. split; reflexivity.
  - eexists. split; vm_compute; reflexivity.
  - repeat constructor; reflexivity.
  - vm_compute. reflexivity.
  - vm_compute. reflexivity.
  - exact log85_2.
Qed.
