(* Claimed properties of binlog files with rows that cannot be decoded or are empty: more of C78. *)
From Coq Require Import Strings.String.
From Verif Require Import Base.Tac Base.Bytes Base.Text Base.Res Base.Str Base.Parse Model.TableMap Model.Rows Model.Events Model.Client Model.Reader Model.Channel
  Spec.ClientSpec Spec.EventSpec Spec.TableSpec Spec.RowSpec Spec.ReaderSpec Spec.ChannelSpec Spec.PipelineSpec Spec.AnyFileSpec
  Proofs.EventProofs Proofs.ReaderProofs Proofs.PipelineProofs Props.ReaderProps Props.EventProps Props.RowProps Props.PipelineProps Props.FileProps Props.AnyStreamProps.
Local Open Scope N_scope.

(* ---- C78 ---- *)
Lemma stored_framed w es its fs w2 : file_stored w es its fs w2 -> Forall framed_ok fs.
Proof. induction 1 as [|w h e bs w1 es its fs w2 Hh Hl W F IH]; constructor; [split; assumption|exact IH]. Qed.
Lemma stored_length w es its fs w2 : file_stored w es its fs w2 -> length its = length fs /\ length es = length fs.
Proof. induction 1 as [|w h e bs w1 es its fs w2 Hh Hl W F [IH1 IH2]]; cbn [length]; split; congruence. Qed.
Lemma stored_written w es fs w2 : file_written w es fs w2 -> file_stored w es (map inl es) fs w2.
Proof.
  induction 1 as [w|w h e bs w1 es fs w2 Hh Hl W F IH]; cbn [map]; [constructor|]. rewrite <- (writes_shown _ _ _ _ W).
  apply (fs_event w h e bs w1); auto. now apply so_writes.
Qed.
Lemma shown_error w x er : shown w x = inr er -> er = EString no_table_map.
Proof. unfold shown. destruct (row_table (snd x)); [destruct (described w n)|]; congruence. Qed.
Lemma stored_decoded bl w es its fs w2 : file_stored w es its fs w2 -> forall k st, mirrors w st -> decoded bl st (complete k fs) (firstn (length (complete k fs)) its).
Proof.
  induction 1 as [w|w h e bs w1 es its fs w2 Hh Hl W F IH]; intros k st M; cbn [complete]; [constructor|].
  destruct (_ <=? k)%nat; [|constructor]. cbn [length firstn]. pose proof (emits_shows bl _ _ _ _ _ _ M W) as E.
  destruct (shown w (h, e)) as [[h' e']|er] eqn:S.
  - destruct E as (-> & st1 & E & M1). eapply de_ok; [exact E|]. now apply IH.
  - destruct E as (E & M1). apply shown_error in S. subst er. apply de_err; [exact E|discriminate|]. now apply IH.
Qed.
(* any file, cut after any number of bytes: exactly what the events before the cut show *)
Theorem C78_any_file : forall bl es its fs w k, file_stored (Writer CkNone []) es its fs w ->
  exists rd, reader_new (firstn (4 + k) (file_of fs)) = Ok rd /\ yields bl rd (firstn (length (complete k fs)) its).
Proof.
  intros bl es its fs w k F. apply C22_cut_file_partial; [now apply (stored_framed _ _ _ _ _ F)|]. apply (stored_decoded bl _ _ _ _ _ F). apply mirrors_new.
Qed.
Print Assumptions C78_any_file.

Lemma yields_same bl rd is : yields bl rd is -> forall js, yields bl rd js -> is = js.
Proof.
  induction 1 as [rd N|rd i rd' is E Y IH]; intros js J; inversion J as [? N'|? j rd2 js' E' Y']; subst; [reflexivity| | |].
  - specialize (N 1%nat). cbn [nones] in N. destruct N as (? & N & _). congruence.
  - specialize (N' 1%nat). cbn [nones] in N'. destruct N' as (? & N' & _). congruence.
  - rewrite E in E'. injection E' as -> ->. f_equal. now apply IH.
Qed.
Lemma stored_iff w es its fs w2 : file_stored w es its fs w2 ->
  its = map inl es <-> forall a x b id, es = a ++ x :: b -> row_table (snd x) = Some id ->
    (described w id <> None \/ exists y, In y a /\ maps id y) /\ (has_columns (snd x) = true \/ row_total (snd x) = 0%nat).
Proof.
  induction 1 as [w|w h e bs w1 es its fs w2 Hh Hl W F IH].
  - split; [|reflexivity]. intros _ a x b id E. now destruct a.
  - cbn [map]. assert (K : shown w (h, e) = inl (h, e) <->
      forall id, row_table e = Some id -> described w id <> None /\ (has_columns e = true \/ row_total e = 0%nat)).
    { unfold shown. cbn [fst snd]. destruct (row_table e) as [i|]; [|split; [discriminate|reflexivity]]. split.
      - intros E id X. injection X as <-. destruct (described w i); [|discriminate]. split; [discriminate|]. destruct (has_columns e); [now left|right].
        apply rowless_same. congruence.
      - intros X. destruct (X i eq_refl) as [D C]. destruct (described w i); [|now destruct D]. destruct (has_columns e); [reflexivity|].
        destruct C as [C|C]; [discriminate|]. apply rowless_same in C. now rewrite C. }
    split.
    + intros E. injection E as E1 E2. intros a x b id E T. destruct a as [|y a]; cbn [app] in E; injection E as E3 E4.
      * subst x b. apply K in T; [|exact E1]. destruct T as [T1 T2]. split; [now left|exact T2].
      * subst y es. apply (proj1 IH E2 a x b id eq_refl) in T. destruct T as [[T|(y & Y1 & Y2)] C]; (split; [|exact C]).
        -- apply (emits_tables _ _ _ _ W) in T. destruct T as [T|T]; [now left|]. right. exists (h, e). split; [now left|exact T].
        -- right. exists y. split; [now right|exact Y2].
    + intros X. f_equal.
      * apply K. intros id T. destruct (X [] (h, e) es id eq_refl T) as [[D|(y & [] & _)] C]. auto.
      * apply IH. intros a x b id E T. destruct (X ((h, e) :: a) x b id) as [D C]; [now rewrite E|exact T|]. split; [|exact C].
        destruct D as [D|(y & [<-|Y1] & Y2)].
        -- left. apply (emits_tables _ _ _ _ W). now left.
        -- left. apply (emits_tables _ _ _ _ W). now right.
        -- right. eauto.
Qed.
(* A file reads back as written exactly if every row event comes after a table map of its table in the same file and
   has a column in its row images, or no rows *)
Theorem C78_whole_iff : forall bl es its fs w, file_stored (Writer CkNone []) es its fs w ->
  (exists rd, reader_new (file_of fs) = Ok rd /\ yields bl rd (map inl es)) <->
  forall a x b id, es = a ++ x :: b -> row_table (snd x) = Some id ->
    (exists y, In y a /\ maps id y) /\ (has_columns (snd x) = true \/ row_total (snd x) = 0%nat).
Proof.
  intros bl es its fs w F. destruct (C78_any_file bl es its fs w (length (flat_map frame fs)) F) as (rd & E & Y).
  rewrite firstn_all2 in E by (unfold file_of; rewrite app_length; change (length file_magic) with 4%nat; lia).
  rewrite complete_all in Y by lia. destruct (stored_length _ _ _ _ _ F) as [L _]. rewrite <- L, firstn_all in Y.
  assert (Q : (exists rd, reader_new (file_of fs) = Ok rd /\ yields bl rd (map inl es)) <-> its = map inl es).
  { split; [|intros <-; eauto]. intros (rd' & E' & Y'). rewrite E in E'. injection E' as <-. exact (yields_same bl _ _ Y _ Y'). }
  rewrite Q, (stored_iff _ _ _ _ _ F). split; intros H a x b id E1 E2; destruct (H a x b id E1 E2) as [H1 H2]; (split; [|exact H2]).
  - destruct H1 as [H1|H1]; [now destruct H1|exact H1].
  - now right.
Qed.
Print Assumptions C78_whole_iff.

(* a table map, a row without any column, an update of a table not described in this file *)
Definition t9 : table := Table 9 1 (tx "d") (tx "t") [Column 3 0 true] [false; false; false; false; false; false; false] [].
Definition bare_file : list framed := [fr 19 (table_bytes bare_table); fr 30 (rows_bytes bare_table bare_rows); fr 31 (updates_bytes t9 bare_updates)].
Definition stored_log : list hev := [(fst (fr 19 (table_bytes bare_table)), EvTableMap (table_map_of bare_table));
  (fst (fr 30 (rows_bytes bare_table bare_rows)), EvWrite (rows_event_of bare_table bare_rows)); (fst (fr 31 (updates_bytes t9 bare_updates)), EvUpdate (update_event_of t9 bare_updates))].
Definition stored_seen : list (hev + error) := Eval vm_compute in
  [inl (nth 0 stored_log (fst (fr 0 []), EvUnknown)); inl (fst (nth 1 stored_log (fst (fr 0 []), EvUnknown)), rowless (EvWrite (rows_event_of bare_table bare_rows))); inr (EString no_table_map)].
Lemma bare_stored : file_stored (Writer CkNone []) stored_log stored_seen bare_file (Writer CkNone [bare_table]) /\
  file_stored (Writer CkNone []) (firstn 2 stored_log) (firstn 2 stored_seen) (firstn 2 bare_file) (Writer CkNone [bare_table]).
Proof.
  destruct bare_event as [R T].
  assert (H1 : sends_out (Writer CkNone []) (nth 0 stored_log (fst (fr 0 []), EvUnknown)) (table_bytes bare_table) (Writer CkNone [bare_table])).
  { unfold stored_log; cbn [nth]; set (h0 := fst (fr 19 _)). apply so_writes. rewrite <- (app_nil_r (table_bytes bare_table)). apply (wr_table (Writer CkNone [])); [reflexivity|exact T|reflexivity]. }
  assert (H2 : sends_out (Writer CkNone [bare_table]) (nth 1 stored_log (fst (fr 0 []), EvUnknown)) (rows_bytes bare_table bare_rows) (Writer CkNone [bare_table])).
  { rewrite <- (app_nil_r (rows_bytes bare_table bare_rows)). apply (so_rows _ _ bare_table); [exact R| |reflexivity]. intros t' X. vm_compute in X. now injection X as <-. }
  assert (H3 : sends_out (Writer CkNone [bare_table]) (nth 2 stored_log (fst (fr 0 []), EvUnknown)) (updates_bytes t9 bare_updates) (Writer CkNone [bare_table])).
  { rewrite <- (app_nil_r (updates_bytes t9 bare_updates)). apply (so_rows _ _ t9); [|vm_compute; discriminate|reflexivity].
    apply rw_update2; [|reflexivity]. destruct T as (T1 & T2 & T3 & T4 & T5 & T6 & T7). split; [split; [reflexivity|]; repeat split; try apply T2; try apply T3; try assumption|].
    repeat split; constructor. }
  assert (K : forall ty bs, ty < 256 -> N.of_nat (length bs) < 1000 -> header_ok (fst (fr ty bs))) by (intros ty bs A B; unfold fr, header_ok, u32, u16, u8; cbn [fst h_timestamp h_type h_server h_length h_next h_flags]; repeat split; lia).
  change stored_seen with [shown (Writer CkNone []) (nth 0 stored_log (fst (fr 0 []), EvUnknown)); shown (Writer CkNone [bare_table]) (nth 1 stored_log (fst (fr 0 []), EvUnknown));
    shown (Writer CkNone [bare_table]) (nth 2 stored_log (fst (fr 0 []), EvUnknown))].
  cbn [firstn]. split.
  - eapply fs_event; [apply K; [reflexivity|vm_compute; reflexivity]|reflexivity|exact H1|].
    eapply fs_event; [apply K; [reflexivity|vm_compute; reflexivity]|reflexivity|exact H2|].
    eapply fs_event; [apply K; [reflexivity|vm_compute; reflexivity]|reflexivity|exact H3|constructor].
  - eapply fs_event; [apply K; [reflexivity|vm_compute; reflexivity]|reflexivity|exact H1|].
    eapply fs_event; [apply K; [reflexivity|vm_compute; reflexivity]|reflexivity|exact H2|constructor].
Qed.
(* tables described, and yet a row the server wrote is missing: rows without any column *)
Theorem C78_bare_rows_refuted : exists es fs its w, file_stored (Writer CkNone []) es its fs w /\
  (forall a x b id, es = a ++ x :: b -> row_table (snd x) = Some id -> exists y, In y a /\ maps id y) /\
  forall bl, exists rd got, reader_new (file_of fs) = Ok rd /\ yields bl rd (map inl got) /\ length got = length es /\
    list_sum (map (fun x : hev => row_total (snd x)) es) = 1%nat /\ list_sum (map (fun x : hev => row_total (snd x)) got) = 0%nat.
Proof.
  destruct bare_stored as [_ F]. exists (firstn 2 stored_log), (firstn 2 bare_file), (firstn 2 stored_seen), (Writer CkNone [bare_table]). split; [exact F|]. split.
  - intros a x b id E T. destruct a as [|y a]; [injection E as <- <-; discriminate T|]. destruct a as [|y' a].
    + injection E as <- <- <-. injection T as <-. eexists. split; [now left|reflexivity].
    + destruct a; discriminate E.
  - intros bl. destruct (C78_any_file bl _ _ _ _ 1000 F) as (rd & E & Y). exists rd.
    exists (flat_map (fun i : hev + error => match i with inl x => [x] | inr _ => [] end) (firstn 2 stored_seen)).
    rewrite firstn_all2 in E by (vm_compute; lia). split; [exact E|]. split; [exact Y|]. repeat split; reflexivity.
Qed.
Print Assumptions C78_bare_rows_refuted.
Example C78_any_example : file_stored (Writer CkNone []) stored_log stored_seen bare_file (Writer CkNone [bare_table]) /\
  exists r, nth 1 stored_seen (inr EUtf8) = inl (fst (nth 1 stored_log (fst (fr 0 []), EvUnknown)), EvWrite r) /\ re_rows r = [] /\ nth 2 stored_seen (inr EUtf8) = inr (EString no_table_map).
Proof. split; [exact (proj1 bare_stored)|]. eexists. repeat split. Qed.
