(* From the bytes of a replication stream to events *)
From Verif Require Import Base.Tac Base.Bytes Base.Text Base.Res Base.Str Base.Parse Model.Gtid Model.GtidMaria Model.Rows Model.Events Model.Responses Model.Channel Model.Client
  Spec.GtidSpec Spec.ClientSpec Spec.EventSpec Spec.TableSpec Spec.RowSpec Spec.ChannelSpec Spec.SessionSpec Spec.PipelineSpec
  Proofs.EventProofs Proofs.RowProofs Proofs.ChannelProofs Props.EventProps Props.RowProps.
Local Open Scope N_scope.

(* the decoder's state mirrors the server's *)
Definition mirrors (w : writer) (st : pstate) : Prop :=
  ps_checksum st = wr_sum w /\ forall id, tables_get id (ps_tables st) = option_map table_map_of (described w id).
Lemma mirrors_new ck : mirrors (Writer ck []) (PState ck []).
Proof. split; [reflexivity|]. intros id. reflexivity. Qed.
Lemma mysql_gtid_event_ok bl st h flags u n more crc : u8 flags -> server_id u -> u64 n -> h_type h = 33 -> trailer_ok (ps_checksum st) crc ->
  parse_event bl st h (mysql_gtid_bytes flags u n more ++ crc) = Ok (EvMySqlGtid (MySqlGtid (Gtid (uuid_new u) n) flags), st).
Proof.
  intros H1 H2 H3 H4 H5.
  rewrite (parse_event_starts bl st h _ crc (EvMySqlGtid (MySqlGtid (Gtid (uuid_new u) n) flags)) H5); [reflexivity|].
  unfold event_body. rewrite H4. cbn [N.eqb Pos.eqb]. apply starts_pmap. unfold mysql_gtid_bytes.
  replace (le_enc 1 flags ++ u ++ le_enc 8 n ++ more) with ((le_enc 1 flags ++ u ++ le_enc 8 n) ++ more) by (now rewrite <- !app_assoc).
  apply runs_starts_more. now apply runs_mysql_gtid.
Qed.
Lemma previous_event_ok bl st h l crc : prev_gtids_ok l -> h_type h = 35 -> trailer_ok (ps_checksum st) crc ->
  parse_event bl st h (prev_gtids_bytes l ++ crc) = Ok (EvPrevGtids (announced_set l), st).
Proof.
  intros H1 H2 H3. change (announced_set l) with (prev_set l).
  rewrite (parse_event_starts bl st h _ crc (EvPrevGtids (prev_set l)) H3); [reflexivity|].
  unfold event_body. rewrite H2. cbn [N.eqb Pos.eqb]. apply starts_pmap. now apply runs_starts, runs_prev_gtids.
Qed.
Lemma writes_decode bl w st h e bs w1 : mirrors w st -> writes w (h, e) bs w1 -> exists st1, parse_event bl st h bs = Ok (e, st1) /\ mirrors w1 st1.
Proof.
  intros [M1 M2] H.
  inversion H as [? ? ? crc S T|? ? u n more crc Ht Hf Hu Hn T|? l crc Ht Hl T|? ? ? more crc Ht Hf Hg Hs T|? ? crc Ht Hn Hl T|? f Ht Hf Hl Hs Hc|? t crc Ht Hk T|? t ? ? crc R C D T|? ? crc Hk T]; subst;
  try rewrite <- M1 in T.
  - exists st. split; [|split; assumption]. now apply (C29_service_events bl st h e (h_type h)).
  - exists st. split; [|split; assumption]. now apply mysql_gtid_event_ok.
  - exists st. split; [|split; assumption]. now apply previous_event_ok.
  - exists st. split; [|split; assumption]. now apply C30_maria_gtid.
  - exists st. split; [|split; assumption]. now apply C30_maria_gtid_list_partial.
  - exists (PState (fde_checksum f) (ps_tables st)). split; [|split; [reflexivity|exact M2]]. rewrite <- M1 in Hc. apply C27_format_description_partial; auto.
  - eexists. split; [now apply C43_table_map|]. split; [exact M1|]. intros id. cbn [ps_tables]. rewrite tables_get_put.
    unfold described. cbn [wr_tables find]. destruct (t_id t =? id); [reflexivity|apply M2].
  - exists st. split; [|split; assumption]. apply (C44_rows_partial bl st h t (h_type h)); auto. now rewrite M2, D.
  - exists st. split; [|split; assumption]. now apply C31_unknown_events_skipped.
Qed.

(* a packet that did not arrive completely *)
Lemma wire_length p : length (wire p) = (4 + length (fst p))%nat.
Proof. unfold wire. rewrite !app_length, le_enc_length. cbn [length]. lia. Qed.
Lemma read_packet_short c p n : packet_ok p -> flowing c -> in_bytes c = firstn n (wire p) -> (n < length (wire p))%nat ->
  read_packet c = (Err (EIo UnexpectedEof), []).
Proof.
  intros [P1 P2] F B L. rewrite wire_length in L.
  destruct (Nat.lt_ge_cases n 4) as [H|H]; [apply read_packet_end; [exact F|rewrite B, firstn_length; lia]|].
  unfold wire in B. rewrite app_assoc in B. set (hd := le_enc 3 (N.of_nat (length (fst p))) ++ [n2b (snd p)]) in *.
  assert (Lh : length hd = 4%nat) by (unfold hd; rewrite app_length, le_enc_length; reflexivity).
  rewrite firstn_app, Lh, firstn_all2 in B by lia.
  destruct (recv_exact_ok c 4 hd _ [] [] F B Lh) as (c1 & E1 & F1 & B1). rewrite !app_nil_r in E1. unfold read_packet. rewrite E1. cbn [app].
  replace (firstn 3 hd) with (le_enc 3 (N.of_nat (length (fst p)))).
  2:{ unfold hd. rewrite firstn_app, le_enc_length. change (3 - 3)%nat with 0%nat. rewrite firstn_O, app_nil_r, firstn_all2; [reflexivity|rewrite le_enc_length; lia]. }
  rewrite le_dec_enc_small by (cbn; lia). rewrite Nnat.Nat2N.id.
  rewrite recv_exact_end; [reflexivity|exact F1|]. rewrite B1, firstn_length. lia.
Qed.
Lemma stream_packet bl c p st r h e bs s st1 : p = (n2b 0 :: header_bytes h ++ bs, s) -> header_ok h -> packet_ok p -> flowing c -> in_bytes c = wire p ++ r ->
  parse_event bl st h bs = Ok (e, st1) ->
  exists c', stream_next bl (Stream c st) = (Ok (Some (inl (h, e))), Stream c' st1) /\ flowing c' /\ in_bytes c' = r.
Proof.
  intros -> Hh P F B E. destruct (read_packet_ok c _ r [] P F B) as (c1 & E1 & F1 & B1). rewrite !app_nil_r in E1. exists c1. split; [|auto].
  unfold stream_next. cbn [sm_in sm_parser]. rewrite E1, byte_at_head by lia. change (0 =? resp_ok) with true. cbv iota.
  rewrite stream_event_ok by exact Hh. rewrite E. reflexivity.
Qed.
Lemma pipeline bl w evs ps w' : log_written w evs ps w' -> forall n c st, mirrors w st -> flowing c -> in_bytes c = firstn n (flat_map wire ps) ->
  exists c' st', takes bl (Stream c st) (map inl (firstn (arrived n ps) evs)) (Stream c' st') /\
    stream_next bl (Stream c' st') = (Ok (Some (inr (EIo UnexpectedEof))), Stream [] st').
Proof.
  induction 1 as [w|w h e bs w1 es s ps w2 Hh W P L IH]; intros n c st M F B.
  - exists c, st. split; [constructor|]. cbn [flat_map] in B. rewrite firstn_nil in B. unfold stream_next. cbn [sm_in].
    rewrite read_packet_end; [reflexivity|exact F|rewrite B; cbn; lia].
  - cbn [arrived]. set (p := (n2b 0 :: header_bytes h ++ bs, s)) in *. cbn [flat_map] in B. destruct (Nat.ltb_spec n (length (wire p))) as [Hn|Hn].
    + exists c, st. split; [constructor|]. rewrite firstn_app in B. replace (n - length (wire p))%nat with 0%nat in B by lia.
      rewrite firstn_O, app_nil_r in B. unfold stream_next. cbn [sm_in]. rewrite (read_packet_short c p n P F B Hn). reflexivity.
    + rewrite firstn_app, (firstn_all2 (wire p)) in B by lia. destruct (writes_decode bl _ _ _ _ _ _ M W) as (st1 & E & M1).
      destruct (stream_packet bl c p st _ h e bs s st1 eq_refl Hh P F B E) as (c1 & E1 & F1 & B1).
      destruct (IH _ _ _ M1 F1 B1) as (c' & st' & T & X). exists c', st'. split; [|exact X].
      cbn [firstn map]. eapply ta_item; eauto.
Qed.

(* ---- any stream ---- *)
Lemma row_of t ty e bs : row_event t ty e bs -> row_table e = Some (t_id t).
Proof. now destruct 1. Qed.
Lemma has_columns_spec t ty e bs : row_event t ty e bs -> has_columns e = true <-> some_column e.
Proof.
  destruct 1; cbn [has_columns some_column]; rewrite existsb_exists; split; try (intros (b & H1 & H2); subst; try apply in_app_or in H1; assumption);
    intros H'; exists true; (split; [try apply in_or_app; exact H'|reflexivity]).
Qed.
Lemma writes_shown w x bs w1 : writes w x bs w1 -> shown w x = inl x.
Proof.
  intros H. destruct H as [h e bs crc HS T| | | | | | |h t e bs crc R C D T|]; try reflexivity.
  - unfold shown. cbn [snd]. destruct HS; reflexivity.
  - unfold shown. cbn [snd fst]. rewrite (row_of _ _ _ _ R), D. apply (has_columns_spec _ _ _ _ R) in C. now rewrite C.
Qed.
Lemma emits_shows bl w st h e bs w1 : mirrors w st -> sends_out w (h, e) bs w1 ->
  match shown w (h, e) with
  | inl (h', e') => h' = h /\ exists st1, parse_event bl st h bs = Ok (e', st1) /\ mirrors w1 st1
  | inr er => parse_event bl st h bs = Err er /\ mirrors w1 st
  end.
Proof.
  intros M H. inversion H as [? ? ? W|? t ? bs0 crc R K T]; subst.
  - rewrite (writes_shown _ _ _ _ W). split; [reflexivity|]. now apply (writes_decode bl w).
  - pose proof M as [M1 M2]. unfold shown. cbn [fst snd]. rewrite (row_of _ _ _ _ R). rewrite <- M1 in T. specialize (M2 (t_id t)).
    destruct (described w1 (t_id t)) as [t'|] eqn:D.
    + rewrite (K t' eq_refl) in *. split; [reflexivity|]. exists st. split; [|exact M]. cbn [option_map] in M2. destruct (has_columns e) eqn:HC.
      * apply (C44_rows_partial bl st h t (h_type h)); auto. now apply (has_columns_spec _ _ _ _ R).
      * apply (C44_no_column_exact bl st h t (h_type h)); auto. intros X. apply (has_columns_spec _ _ _ _ R) in X. congruence.
    + split; [|exact M]. exact (row_event_unknown bl st h t (h_type h) e bs0 crc R eq_refl T M2).
Qed.
Lemma pipeline_any bl w evs its ps w' : log_sent w evs its ps w' -> forall n c st, mirrors w st -> flowing c -> in_bytes c = firstn n (flat_map wire ps) ->
  exists c' st', takes bl (Stream c st) (firstn (arrived n ps) its) (Stream c' st') /\
    stream_next bl (Stream c' st') = (Ok (Some (inr (EIo UnexpectedEof))), Stream [] st').
Proof.
  induction 1 as [w|w h e bs w1 es its s ps w2 Hh W P L IH]; intros n c st M F B.
  - exists c, st. split; [constructor|]. cbn [flat_map] in B. rewrite firstn_nil in B. unfold stream_next. cbn [sm_in].
    rewrite read_packet_end; [reflexivity|exact F|rewrite B; cbn; lia].
  - cbn [arrived]. set (p := (n2b 0 :: header_bytes h ++ bs, s)) in *. cbn [flat_map] in B. destruct (Nat.ltb_spec n (length (wire p))) as [Hn|Hn].
    + exists c, st. split; [constructor|]. rewrite firstn_app in B. replace (n - length (wire p))%nat with 0%nat in B by lia.
      rewrite firstn_O, app_nil_r in B. unfold stream_next. cbn [sm_in]. rewrite (read_packet_short c p n P F B Hn). reflexivity.
    + rewrite firstn_app, (firstn_all2 (wire p)) in B by lia. pose proof (emits_shows bl _ _ _ _ _ _ M W) as E. destruct (shown w (h, e)) as [[h' e']|er].
      * destruct E as (-> & st1 & E & M1). destruct (stream_packet bl c p st _ h e' bs s st1 eq_refl Hh P F B E) as (c1 & E1 & F1 & B1).
        destruct (IH _ _ _ M1 F1 B1) as (c' & st' & T & X). exists c', st'. split; [|exact X].
        cbn [firstn map]. eapply ta_item; eauto.
      * destruct E as (E & M1). destruct (read_packet_ok c p _ [] P F B) as (c1 & E1 & F1 & B1). rewrite !app_nil_r in E1.
        destruct (IH _ _ _ M1 F1 B1) as (c' & st' & T & X). exists c', st'. split; [|exact X].
        cbn [firstn map]. eapply ta_item; [|exact T].
        unfold stream_next. cbn [sm_in sm_parser]. rewrite E1. unfold p at 1. cbn [fst]. rewrite byte_at_head by lia. change (0 =? resp_ok) with true. cbv iota.
        unfold p. cbn [fst]. rewrite stream_event_ok by exact Hh. rewrite E. reflexivity.
Qed.
Lemma sent_written w es ps w2 : log_written w es ps w2 -> log_sent w es (map inl es) ps w2.
Proof.
  induction 1 as [w|w h e bs w1 es s ps w2 Hh W P L IH]; cbn [map]; [constructor|]. rewrite <- (writes_shown _ _ _ _ W).
  apply (ls_event w h e bs w1); auto. now apply so_writes.
Qed.
(* the client commits an event without its rows as with them *)
Lemma commit_rowless bl c h e : commit bl c h (rowless e) = commit bl c h e.
Proof. now destruct e. Qed.
Lemma shown_commit bl w x y c : shown w x = inl y -> commit bl c (fst y) (snd y) = commit bl c (fst x) (snd x) /\ fst y = fst x.
Proof.
  unfold shown. intros H. destruct (row_table (snd x)); [destruct (described w n); [|discriminate]|]; injection H as <-; cbn [fst snd]; [|auto].
  split; [|reflexivity]. destruct (has_columns (snd x)); [reflexivity|apply commit_rowless].
Qed.
Lemma sent_commit bl w es its ps w2 : log_sent w es its ps w2 -> forall evs k c, map inl evs = firstn k its ->
  commit_all bl c evs = commit_all bl c (firstn k es) /\ map fst evs = map fst (firstn k es).
Proof.
  induction 1 as [w|w h e bs w1 es its s ps w2 Hh W P L IH]; intros evs k c E.
  - rewrite firstn_nil in *. now destruct evs.
  - destruct k as [|k]; cbn [firstn] in *; [now destruct evs|]. destruct evs as [|y evs]; cbn [map] in E; [discriminate|].
    injection E as E1 E2. symmetry in E1. destruct (shown_commit bl w (h, e) y c E1) as [A B]. destruct y as [h' e']. cbn [fst snd] in A, B. subst h'.
    cbn [commit_all map fst]. rewrite A. split.
    + destruct (commit bl c h e); cbn [rbind]; try reflexivity. now apply IH.
    + f_equal. now apply (IH evs k c).
Qed.
Lemma sent_heads w es its ps w2 : log_sent w es its ps w2 -> Forall (fun x : hev => h_next (fst x) < 4294967296) es.
Proof. induction 1 as [|w h e bs w1 es its s ps w2 H W P L IH]; constructor; [|exact IH]. cbn [fst]. destruct H as (_ & _ & _ & _ & H & _). exact H. Qed.
Lemma sent_length w es its ps w2 : log_sent w es its ps w2 -> length its = length es.
Proof. induction 1; cbn [length]; congruence. Qed.
