(* C33, C43 - C47: table maps, rows events, and which payloads stop the decoder *)
From Coq Require Import Strings.String.
From Verif Require Import Base.Tac Base.Bytes Base.Text Base.Res Base.Str Base.Parse Base.Loop Model.Codec Model.Values Model.Cells Model.TableMap
  Model.Rows Model.Gtid Model.Events Spec.CodecSpec Spec.EventSpec Spec.CellSpec Spec.TableSpec Spec.RowSpec Spec.SafeSpec
  Proofs.CodecProofs Proofs.EventProofs Proofs.EventSafe Proofs.TableProofs Proofs.RowProofs Proofs.DecodeSafe Proofs.RiskProofs Proofs.OnceProofs.
Local Open Scope N_scope.

Definition hd_of (ty : N) : header := Header 1700000000 ty 3 60 1000 0.

Ltac valid := repeat constructor.
(* a table (id INT NOT NULL, name VARCHAR(20), kind ENUM, at DATETIME(3)) with optional metadata *)
Definition ex_table : table :=
  Table 108 1 (tx "shop") (tx "orders")
    [Column 3 0 false; Column 15 80 true; Column 254 (enum_metadata 1) true; Column 18 3 true]
    [false; true; false; true]
    [FUnsigned [true] [false; false; false; false; false; false; false]; FDefaultCharset 255 [(2, 63)];
     FColumnName [tx "id"; tx "name"; tx "kind"; tx "at"]; FEnumValues [[tx "new"; tx "paid"]]; FSimpleKey [0]; FPrefixKey [(1, 10)];
     FVisible [true; true; false; true] [true; false; false; false]].
Lemma ex_table_ok : table_ok ex_table.
Proof.
  unfold table_ok, ex_table. cbn [t_id t_db t_name t_cols t_pad t_fields map c_type c_nullable length].
  split; [lia|]. split; [split; [valid|reflexivity]|]. split; [split; [valid|reflexivity]|].
  split.
  { repeat apply Forall_cons; try apply Forall_nil; (split; [unfold known_types; cbn [In c_type]; tauto|vm_compute; reflexivity]). }
  split; [lia|]. split; [reflexivity|].
  repeat apply Forall_cons; try apply Forall_nil; (split; [vm_compute; discriminate|]).
  - split; reflexivity.
  - split; [reflexivity|]. repeat constructor.
  - repeat apply Forall_cons; try apply Forall_nil; (split; [valid|vm_compute; discriminate]).
  - apply Forall_cons; [|apply Forall_nil]. split; [reflexivity|].
    repeat apply Forall_cons; try apply Forall_nil; (split; [valid|vm_compute; discriminate]).
  - repeat constructor.
  - repeat constructor.
  - split; reflexivity.
Qed.

(* ---- C43 ---- *)
Theorem C43_table_map : forall bl st h t crc, table_ok t -> h_type h = 19 -> trailer_ok (ps_checksum st) crc ->
  parse_event bl st h (table_bytes t ++ crc) =
    Ok (EvTableMap (table_map_of t), PState (ps_checksum st) (tables_put (t_id t) (table_map_of t) (ps_tables st))).
Proof.
  intros bl st h t crc Ht Hh Hc. rewrite (parse_event_starts bl st h (table_bytes t) crc (EvTableMap (table_map_of t))); [reflexivity|exact Hc|].
  unfold event_body. rewrite Hh. cbn [N.eqb Pos.eqb]. apply starts_pmap, runs_end_starts. now apply runs_table_map.
Qed.
Print Assumptions C43_table_map.
Example C43_example : table_ok ex_table /\
  length (table_bytes ex_table) = 84%nat /\
  (exists st, parse_event Debug (PState CkCrc32 []) (hd_of 19) (table_bytes ex_table ++ map n2b [1; 2; 3; 4]) = Ok (EvTableMap (table_map_of ex_table), st)) /\
  tm_column_names (metadata_of (t_fields ex_table)) = Some [tx "id"; tx "name"; tx "kind"; tx "at"] /\
  tm_visibility (metadata_of (t_fields ex_table)) = Some [true; true; false; true] /\
  tm_set_values (metadata_of (t_fields ex_table)) = None.
Proof.
  split; [exact ex_table_ok|]. split; [vm_compute; reflexivity|].
  split; [eexists; apply C43_table_map; [exact ex_table_ok|reflexivity|reflexivity]|]. repeat split; reflexivity.
Qed.

(* ---- C44 ---- *)
(* Missing: rows without any column present, see the refutation. *)
Theorem C44_rows_partial : forall bl st h t ty e bs crc, row_event t ty e bs -> some_column e -> h_type h = ty ->
  tables_get (t_id t) (ps_tables st) = Some (table_map_of t) -> trailer_ok (ps_checksum st) crc ->
  parse_event bl st h (bs ++ crc) = Ok (e, st).
Proof.
  intros bl st h t ty e bs crc He Hs Hh Hg Hc. rewrite (parse_event_starts bl st h bs crc e Hc); [|now apply (row_event_starts bl (ps_tables st) h t ty)].
  f_equal. f_equal. destruct He; reflexivity.
Qed.
Print Assumptions C44_rows_partial.
(* INSERT of a row of defaults under binlog_row_image=MINIMAL: the image has no columns, and the row is lost *)
Theorem C44_empty_image_refuted : exists t e bs st, row_event t 30 (EvWrite e) bs /\ length (re_rows e) = 1%nat /\
  tables_get (t_id t) (ps_tables st) = Some (table_map_of t) /\
  exists e', parse_event Release st (hd_of 30) bs = Ok (EvWrite e', st) /\ re_rows e' = [].
Proof.
  set (t := Table 7 1 (tx "d") (tx "t") [Column 3 0 true] [false; false; false; false; false; false; false] []).
  set (r := Rows 2 1 [] [false] [false; false; false; false; false; false; false] [([Absent], [])]).
  exists t, (rows_event_of t r), (rows_bytes t r), (PState CkNone [(7, table_map_of t)]).
  split; [|split; [reflexivity|split; [reflexivity|]]].
  - apply rw_write2; [|reflexivity]. unfold rows_ok, table_ok, t, r. cbn [t_id t_db t_name t_cols t_pad t_fields r_flags r_extra r_present r_pad r_images].
    split; [split; [lia|]; split; [split; [valid|reflexivity]|]; split; [split; [valid|reflexivity]|]; split; [|split; [cbn [length]; lia|split; [reflexivity|constructor]]]|].
    { apply Forall_cons; [|apply Forall_nil]. split; [unfold known_types; cbn [In c_type]; tauto|reflexivity]. }
    split; [reflexivity|]. split; [reflexivity|]. split; [reflexivity|]. split; [reflexivity|]. apply Forall_cons; [|apply Forall_nil].
    split; [repeat constructor|reflexivity].
  - eexists. split; [vm_compute; reflexivity|reflexivity].
Qed.
Print Assumptions C44_empty_image_refuted.
(* exactly: all rows of an event whose images have no column are lost, and only the rows *)
Theorem C44_no_column_exact : forall bl st h t ty e bs crc, row_event t ty e bs -> ~ some_column e -> h_type h = ty ->
  tables_get (t_id t) (ps_tables st) = Some (table_map_of t) -> trailer_ok (ps_checksum st) crc ->
  parse_event bl st h (bs ++ crc) = Ok (rowless e, st).
Proof.
  intros bl st h t ty e bs crc He Hs Hh Hg Hc. rewrite (parse_event_starts bl st h bs crc (rowless e) Hc); [|now apply (row_event_empty bl (ps_tables st) h t ty)].
  f_equal. f_equal. destruct He; reflexivity.
Qed.
Print Assumptions C44_no_column_exact.
(* id = 77, name = NULL, kind absent, at = 2021-12-31 23:59:58.987 *)
Definition ex_fields : list field :=
  [Val (VInt 77) (le_enc 4 77); Null; Absent;
   Val (VDateTime (DateTime 2021 12 31 23 59 58 987)) (be_enc 5 (549755813888 + 4194304 * (13 * 2021 + 12) + 131072 * 31 + 4096 * 23 + 64 * 59 + 58) ++ usec_bytes 3 987000)].
Definition ex_rows : rows :=
  Rows 2 1 [n2b 9; n2b 9] [true; true; false; true] [false; false; false; false] [(ex_fields, [true; false; false; false; false])].
Lemma ex_rows_ok : rows_ok ex_table ex_rows.
Proof.
  split; [exact ex_table_ok|]. split; [reflexivity|]. split; [reflexivity|]. split; [reflexivity|]. split; [reflexivity|].
  apply Forall_cons; [|apply Forall_nil]. split; [|reflexivity]. unfold ex_fields. cbn [fst t_cols ex_table r_present ex_rows].
  apply im_val; [apply cc_plain; [discriminate|]; apply cell_long; reflexivity|]. apply im_null, im_absent.
  apply im_val; [|constructor]. apply cc_plain; [discriminate|]. apply (cell_datetime2 3 2021 12 31 23 59 58 987000); try lia. vm_compute. repeat split; congruence.
Qed.
Example C44_example : row_event ex_table 32 (EvDelete (rows_event_of ex_table ex_rows)) (rows_bytes ex_table ex_rows) /\
  some_column (EvDelete (rows_event_of ex_table ex_rows)) /\
  re_rows (rows_event_of ex_table ex_rows) = [[Some (VInt 77); None; None; Some (VDateTime (DateTime 2021 12 31 23 59 58 987))]] /\
  parse_event Debug (PState CkNone [(108, table_map_of ex_table)]) (hd_of 32) (rows_bytes ex_table ex_rows) =
    Ok (EvDelete (rows_event_of ex_table ex_rows), PState CkNone [(108, table_map_of ex_table)]).
Proof.
  assert (R : row_event ex_table 32 (EvDelete (rows_event_of ex_table ex_rows)) (rows_bytes ex_table ex_rows)) by (apply rw_delete2; [exact ex_rows_ok|reflexivity]).
  split; [exact R|]. split; [now left|]. split; [reflexivity|].
  rewrite <- (app_nil_r (rows_bytes ex_table ex_rows)). apply (C44_rows_partial Debug _ _ ex_table 32); [exact R|now left|reflexivity|reflexivity|reflexivity].
Qed.

(* ---- C45 ---- *)
(* one cell per column of the table; absent columns are None *)
Definition full_row (t : table_map) (present : list bool) (r : row) : Prop :=
  length r = length (tb_types t) /\
  forall i, nth_error present i = Some false -> (i < length (tb_types t))%nat -> nth_error r i = Some None.
Theorem C45_one_cell_per_column : forall bl st h slice e st', parse_event bl st h slice = Ok (e, st') ->
  match e with
  | EvWrite r | EvDelete r =>
    exists t, tables_get (re_table r) (ps_tables st) = Some t /\ Forall (full_row t (re_present r)) (re_rows r)
  | EvUpdate u =>
    exists t, tables_get (ue_table u) (ps_tables st) = Some t /\
      Forall (fun p => full_row t (ue_before u) (fst p) /\ full_row t (ue_after u) (snd p)) (ue_rows u)
  | _ => True
  end.
Proof.
  intros bl st h slice e st' H. unfold parse_event, rbind in H. destruct (event_payload _ _) as [p|er| |]; try discriminate.
  destruct (event_body bl (ps_tables st) h p 0%nat) as [[x pos]|er| |] eqn:E; try discriminate. injection H as -> _.
  assert (R : forall v (c : rows_event -> event), pmap c (parse_rows_event bl (ps_tables st) v) p 0%nat = Ok (e, pos) ->
    exists r, e = c r /\ exists t, tables_get (re_table r) (ps_tables st) = Some t /\ Forall (full_row t (re_present r)) (re_rows r)).
  { intros v c X. unfold pmap, pbind at 1 in X. destruct (parse_rows_event bl (ps_tables st) v p 0%nat) as [[r q]|er| |] eqn:X1; try discriminate.
    unfold ret in X. injection X as <- _. exists r. split; [reflexivity|]. unfold parse_rows_event, pbind at 1 in X1.
    destruct (parse_head v p 0%nat) as [[[[id fl] n] q1]|er| |]; try discriminate. unfold pbind at 1 in X1.
    destruct (read_bitmap_le n p q1) as [[ps q2]|er| |]; try discriminate. unfold pbind, parse_row_list in X1.
    destruct (tables_get id (ps_tables st)) as [t|] eqn:X2; [|discriminate].
    destruct (pwhile (parse_row bl t ps (bits_number ps)) p q2) as [[rs q3]|er| |] eqn:X3; try discriminate. unfold ret in X1. injection X1 as <- _.
    exists t. split; [exact X2|]. revert X3. apply (pwhile_all (full_row t ps)). apply parse_row_shape. }
  assert (U : forall v, pmap EvUpdate (parse_update_event bl (ps_tables st) v) p 0%nat = Ok (e, pos) ->
    exists u, e = EvUpdate u /\ exists t, tables_get (ue_table u) (ps_tables st) = Some t /\
      Forall (fun p => full_row t (ue_before u) (fst p) /\ full_row t (ue_after u) (snd p)) (ue_rows u)).
  { intros v X. unfold pmap, pbind at 1 in X. destruct (parse_update_event bl (ps_tables st) v p 0%nat) as [[u q]|er| |] eqn:X1; try discriminate.
    unfold ret in X. injection X as <- _. exists u. split; [reflexivity|]. unfold parse_update_event, pbind at 1 in X1.
    destruct (parse_head v p 0%nat) as [[[[id fl] n] q1]|er| |]; try discriminate. unfold pbind at 1 in X1.
    destruct (read_bitmap_le n p q1) as [[b q2]|er| |]; try discriminate. unfold pbind at 1 in X1.
    destruct (read_bitmap_le n p q2) as [[a q2']|er| |]; try discriminate. unfold pbind at 1, parse_update_row_list in X1.
    destruct (tables_get id (ps_tables st)) as [t|] eqn:X2; [|discriminate].
    match type of X1 with match ?w with _ => _ end = _ => destruct w as [[rs q3]|er| |] eqn:X3; try discriminate end.
    unfold ret in X1. injection X1 as <- _.
    exists t. split; [exact X2|]. revert X3. apply (pwhile_all (fun p => full_row t b (fst p) /\ full_row t a (snd p))).
    intros buf pos0 x pos1. unfold pbind at 1. destruct (parse_row bl t b (bits_number b) buf pos0) as [[rb p1]|er| |] eqn:Y1; try discriminate. unfold pbind.
    destruct (parse_row bl t a (bits_number a) buf p1) as [[ra p2]|er| |] eqn:Y2; try discriminate. unfold ret. intros Y. injection Y as <- _.
    split; [exact (parse_row_shape _ _ _ _ _ _ _ _ Y1)|exact (parse_row_shape _ _ _ _ _ _ _ _ Y2)]. }
  assert (O : forall A (c : A -> event) (q : parser A), pmap c q p 0%nat = Ok (e, pos) -> exists a, e = c a).
  { intros A c q X. unfold pmap, pbind in X. destruct (q p 0%nat) as [[a z]|er| |]; try discriminate. unfold ret in X. injection X as <- _. now exists a. }
  unfold event_body in E. cbv zeta in E.
  repeat match type of E with
  | (if ?c then pmap ?k ?q else _) p 0%nat = _ => destruct c;
      [first [apply R in E; destruct E as (r & -> & E); exact E | apply U in E; destruct E as (r & -> & E); exact E | apply O in E; destruct E as (r & ->); exact I]|]
  end.
  unfold ret in E. now injection E as <- _.
Qed.
Print Assumptions C45_one_cell_per_column.
Example C45_example : exists r st, parse_event Release (PState CkNone [(108, table_map_of ex_table)]) (hd_of 23)
    (le_enc 6 108 ++ le_enc 2 1 ++ map n2b [4; 8; 1; 0; 153; 171; 127; 126; 250; 0; 0]) = Ok (EvWrite r, st) /\
  re_rows r = [[None; None; None; None]; [None; None; None; Some (VDateTime (DateTime 2021 12 31 23 59 58 0))]].
Proof. eexists _, _. split; [vm_compute; reflexivity|reflexivity]. Qed.

(* ---- C46 ---- *)
Theorem C46_only_table_maps_matter : forall bl st inputs events st', history bl st inputs events st' ->
  forall id, tables_get id (ps_tables st') = latest id events (tables_get id (ps_tables st)).
Proof. exact history_tables. Qed.
Print Assumptions C46_only_table_maps_matter.
Theorem C46_latest_table_map_used : forall bl inputs events st' h t ty e bs crc,
  history bl pstate_new inputs events st' -> row_event t ty e bs -> some_column e -> h_type h = ty -> trailer_ok (ps_checksum st') crc ->
  latest (t_id t) events None = Some (table_map_of t) -> parse_event bl st' h (bs ++ crc) = Ok (e, st').
Proof.
  intros bl inputs events st' h t ty e bs crc Hh He Hs Ht Hc Hl. apply (C44_rows_partial bl st' h t ty); try assumption.
  rewrite (history_tables _ _ _ _ _ Hh). exact Hl.
Qed.
Print Assumptions C46_latest_table_map_used.
Definition documented_error : text :=
  tx "No preceding TableMapEvent event was found for the row event. You possibly started replication in the middle of logical event group.".
Lemma row_event_unknown : forall bl st' h t ty e bs crc, row_event t ty e bs -> h_type h = ty -> trailer_ok (ps_checksum st') crc ->
  tables_get (t_id t) (ps_tables st') = None -> parse_event bl st' h (bs ++ crc) = Err (EString documented_error).
Proof.
  intros bl st' h t ty e bs crc He Ht Hc G.
  assert (P : event_payload (ps_checksum st') (bs ++ crc) = Ok bs).
  { unfold event_payload. destruct (ps_checksum st'); cbn [trailer_ok] in Hc; [subst; now rewrite app_nil_r|].
    rewrite app_length, Hc. destruct (Nat.ltb_spec (length bs + 4) 4); [lia|]. replace (length bs + 4 - 4)%nat with (length bs) by lia.
    rewrite firstn_app, Nat.sub_diag, firstn_all. now rewrite app_nil_r. }
  unfold parse_event. rewrite P. cbn [rbind].
  assert (R : forall r, rows_ok t r -> parse_rows_event bl (ps_tables st') (r_version r) (rows_bytes t r) 0%nat = Err (EString documented_error)).
  { intros r (H1 & H2 & H3 & H4 & H5 & H6). unfold parse_rows_event, rows_bytes, pbind at 1.
    pose proof (runs_head t (r_version r) (r_flags r) (r_extra r) H1 H2 H3 [] (bitmap (r_present r) (r_pad r) ++ flat_map written_bytes (r_images r))) as X.
    cbn [app length] in X. rewrite X. clear X. unfold pbind at 1.
    assert (B : N.of_nat (length (t_cols t)) <= isize_max) by (unfold isize_max; destruct H1 as (_ & _ & _ & _ & H1 & _); lia).
    rewrite (runs_bitmap (r_present r) (r_pad r) (N.of_nat (length (t_cols t))) H4 ltac:(now rewrite H5) B).
    unfold pbind, parse_row_list. rewrite G. reflexivity. }
  assert (U : forall u, updates_ok t u -> parse_update_event bl (ps_tables st') (u_version u) (updates_bytes t u) 0%nat = Err (EString documented_error)).
  { intros u (H1 & H2 & H3 & H4 & H5 & H6 & H7 & H8). unfold parse_update_event, updates_bytes, pbind at 1.
    pose proof (runs_head t (u_version u) (u_flags u) (u_extra u) H1 H2 H3 []
      (bitmap (u_before u) (u_bpad u) ++ bitmap (u_after u) (u_apad u) ++ flat_map (fun p => written_bytes (fst p) ++ written_bytes (snd p)) (u_images u))) as X.
    cbn [app length] in X. rewrite X. clear X. unfold pbind at 1.
    assert (B : N.of_nat (length (t_cols t)) <= isize_max) by (unfold isize_max; destruct H1 as (_ & _ & _ & _ & H1 & _); lia).
    rewrite (runs_bitmap (u_before u) (u_bpad u) (N.of_nat (length (t_cols t))) H4 ltac:(now rewrite H6) B). unfold pbind at 1.
    rewrite app_assoc. rewrite <- app_length.
    rewrite (runs_bitmap (u_after u) (u_apad u) (N.of_nat (length (t_cols t))) H5 ltac:(now rewrite H7) B).
    unfold pbind, parse_update_row_list. rewrite G. reflexivity. }
  unfold event_body. rewrite Ht.
  destruct He as [r Hr Hv|u Hr Hv|r Hr Hv|r Hr Hv|u Hr Hv|r Hr Hv]; cbv beta iota zeta delta [N.eqb Pos.eqb pmap pbind];
    first [specialize (R r Hr); rewrite Hv in R; rewrite R; reflexivity | specialize (U u Hr); rewrite Hv in U; rewrite U; reflexivity].
Qed.
Theorem C46_no_table_map : forall bl inputs events st' h t ty e bs crc,
  history bl pstate_new inputs events st' -> row_event t ty e bs -> h_type h = ty -> trailer_ok (ps_checksum st') crc ->
  latest (t_id t) events None = None -> parse_event bl st' h (bs ++ crc) = Err (EString documented_error).
Proof.
  intros bl inputs events st' h t ty e bs crc Hh He Ht Hc Hl. apply (row_event_unknown bl st' h t ty e); auto.
  rewrite (history_tables _ _ _ _ _ Hh). exact Hl.
Qed.
Print Assumptions C46_no_table_map.
(* two table maps with the same id: an INT column first, then the table above; another table in between *)
Definition ex_old : table := Table 108 1 (tx "shop") (tx "orders") [Column 3 0 true] [false; false; false; false; false; false; false] [].
Lemma ex_old_ok : table_ok ex_old.
Proof.
  unfold table_ok, ex_old. cbn [t_id t_db t_name t_cols t_pad t_fields]. split; [lia|]. split; [split; [valid|reflexivity]|].
  split; [split; [valid|reflexivity]|]. split; [|split; [cbn [length]; lia|split; [reflexivity|constructor]]].
  apply Forall_cons; [|apply Forall_nil]. split; [unfold known_types; cbn [In c_type]; tauto|reflexivity].
Qed.
Example C46_example : exists st, history Release pstate_new
    [(hd_of 19, table_bytes ex_old); (hd_of 16, le_enc 8 5); (hd_of 30, [n2b 1]); (hd_of 19, table_bytes ex_table)]
    [EvTableMap (table_map_of ex_old); EvXid 5; EvTableMap (table_map_of ex_table)] st /\
  latest 108 [EvTableMap (table_map_of ex_old); EvXid 5; EvTableMap (table_map_of ex_table)] None = Some (table_map_of ex_table) /\
  latest 109 [EvTableMap (table_map_of ex_old); EvXid 5; EvTableMap (table_map_of ex_table)] None = None.
Proof.
  eexists. split; [|split; reflexivity].
  eapply hi_ok. { rewrite <- (app_nil_r (table_bytes ex_old)). apply C43_table_map; [exact ex_old_ok|reflexivity|reflexivity]. }
  eapply hi_ok. { vm_compute. reflexivity. }
  eapply hi_err. { vm_compute. reflexivity. }
  eapply hi_ok. { rewrite <- (app_nil_r (table_bytes ex_table)). apply C43_table_map; [exact ex_table_ok|reflexivity|reflexivity]. }
  apply hi_nil.
Qed.

(* ---- C47 ---- *)
(* Missing: rows events in which no column is present (see the refutation); and that no byte is read twice, which is
   false when the extra-data length of a version 2 event is below 2 (the cursor is moved back). *)
Theorem C47_decoding_terminates_partial : forall bl st h slice, parse_event bl st h slice = Diverge ->
  exists payload, (slice = payload \/ exists crc, slice = payload ++ crc /\ length crc = 4%nat) /\ no_columns (h_type h) payload.
Proof.
  intros bl st h slice. unfold parse_event.
  assert (P : forall payload, event_payload (ps_checksum st) slice = Ok payload -> slice = payload \/ exists crc, slice = payload ++ crc /\ length crc = 4%nat).
  { intros payload. unfold event_payload. destruct (ps_checksum st); [intros H; inv H; now left|].
    destruct (Nat.ltb_spec (length slice) 4); [discriminate|]. intros E. inv E. right. exists (skipn (length slice - 4) slice).
    rewrite firstn_skipn, skipn_length. split; [reflexivity|lia]. }
  destruct (event_payload (ps_checksum st) slice) as [payload|er| |] eqn:E; cbn [rbind]; try discriminate.
  - intros H. exists payload. split; [now apply P|]. apply (body_diverge bl (ps_tables st)).
    destruct (event_body bl (ps_tables st) h payload 0%nat) as [[x q]|er| |]; try discriminate. reflexivity.
  - exfalso. revert E. unfold event_payload. destruct (ps_checksum st); [discriminate|]. destruct (_ <? _)%nat; discriminate.
Qed.
Print Assumptions C47_decoding_terminates_partial.
Theorem C47_no_column_hangs_refuted : exists bl st h slice, parse_event bl st h slice = Diverge.
Proof.
  exists Release, (PState CkNone [(108, table_map_of ex_old)]), (hd_of 30), (rows_bytes ex_old (Rows 2 1 [] [false] [false; false; false; false; false; false; false] []) ++ [n2b 0]).
  vm_compute. reflexivity.
Qed.
Print Assumptions C47_no_column_hangs_refuted.
(* the same head followed by any number of zero bytes hangs; an event with a column present is not [no_columns] *)
Example C47_example : ~ no_columns 30 (rows_bytes ex_table ex_rows) /\
  no_columns 30 (rows_bytes ex_old (Rows 2 1 [] [false] [false; false; false; false; false; false; false] []) ++ [n2b 0]).
Proof.
  split.
  - intros (v & id & n & rest & Hv & (_ & c & Hc & E) & H). injection Hv as <-.
    assert (X : skipn (8 + extra_length 2 (rows_bytes ex_table ex_rows)) (rows_bytes ex_table ex_rows) = n2b 4 :: n2b 11 :: skipn 14 (rows_bytes ex_table ex_rows)) by (vm_compute; reflexivity).
    rewrite X in E. destruct Hc as [n Hn|n Hn|n Hn|n Hn]; cbn [app] in E; injection E as E1 E2; apply (f_equal b2n) in E1; rewrite !b2n_n2b in E1 by lia; try lia. subst n.
    specialize (H 0%nat (n2b 11) ltac:(lia)). rewrite <- E2 in H. specialize (H eq_refl). rewrite b2n_n2b in H by lia. discriminate H.
  - exists 2, 108, 1, [n2b 0; n2b 0]. split; [reflexivity|]. split.
    + split; [vm_compute; reflexivity|]. exists [n2b 1]. split; [now constructor|vm_compute; reflexivity].
    + intros i b Hi. assert (i = 0%nat) as -> by lia. cbn [nth_error Nat.div Nat.divmod fst]. intros E. injection E as <-. reflexivity.
Qed.

(* exactly when decoding never ends *)
Theorem C47_hangs_iff : forall bl st h slice, parse_event bl st h slice = Diverge <->
  exists payload, ((ps_checksum st = CkNone /\ slice = payload) \/ (ps_checksum st = CkCrc32 /\ exists crc, slice = payload ++ crc /\ length crc = 4%nat)) /\
    hangs (ps_tables st) (h_type h) payload.
Proof.
  intros bl st h slice. unfold parse_event, event_payload. destruct (ps_checksum st) eqn:K.
  - cbn [rbind]. split.
    + intros H. exists slice. split; [left; auto|]. apply (body_hangs bl). destruct (event_body bl (ps_tables st) h slice 0%nat) as [[x q]|er| |]; try discriminate. reflexivity.
    + intros (payload & [[_ <-]|[C _]] & H); [|discriminate]. apply (body_hangs bl) in H. now rewrite H.
  - destruct (Nat.ltb_spec (length slice) 4) as [L|L].
    + cbn [rbind]. split; [discriminate|]. intros (payload & [[C _]|[_ (crc & -> & E)]] & _); [discriminate|]. rewrite app_length in L. lia.
    + cbn [rbind]. split.
      * intros H. exists (firstn (length slice - 4) slice). split.
        { right. split; [reflexivity|]. exists (skipn (length slice - 4) slice). rewrite firstn_skipn, skipn_length. split; [reflexivity|lia]. }
        apply (body_hangs bl). destruct (event_body bl (ps_tables st) h (firstn (length slice - 4) slice) 0%nat) as [[x q]|er| |]; try discriminate. reflexivity.
      * intros (payload & [[C _]|[_ (crc & -> & E)]] & H); [discriminate|].
        replace (firstn (length (payload ++ crc) - 4) (payload ++ crc)) with payload.
        2: { rewrite app_length, E. replace (length payload + 4 - 4)%nat with (length payload) by lia. now rewrite firstn_app, firstn_all, Nat.sub_diag, firstn_O, app_nil_r. }
        apply (body_hangs bl) in H. now rewrite H.
Qed.
Print Assumptions C47_hangs_iff.
(* the fields of a decoded rows event lie one behind the other in the payload and each of its bytes belongs to one of
   them: the eight fixed bytes, the extra data (in version 2, its first two bytes are its length), the column count,
   the presence bitmap, the rows.  Each row has at least one byte and comes from its own bytes alone, wherever these
   stand. *)
Theorem C47_each_byte_once : forall bl ts v payload e q, parse_rows_event bl ts v payload 0%nat = Ok (e, q) ->
  (v = 2 -> 2 <= le_dec (firstn 2 (skipn 8 payload))) ->
  exists fixed extra count bits segs t, payload = fixed ++ extra ++ count ++ bits ++ concat segs /\
    length fixed = 8%nat /\ re_table e = le_dec (firstn 6 fixed) /\ re_flags e = le_dec (skipn 6 fixed) /\
    (v <> 2 -> extra = []) /\ (v = 2 -> le_dec (firstn 2 extra) = N.of_nat (length extra)) /\
    lenenc (re_columns e) count /\
    N.of_nat (length bits) = (re_columns e + 7) / 8 /\ N.of_nat (length (re_present e)) = re_columns e /\
    (forall i, N.of_nat i < re_columns e -> nth_error (re_present e) i = option_map (fun b => N.testbit (b2n b) (N.of_nat (i mod 8))) (nth_error bits (i / 8))) /\
    tables_get (re_table e) ts = Some t /\
    Forall2 (fun seg r => seg <> [] /\ forall pre post,
      parse_row bl t (re_present e) (bits_number (re_present e)) (pre ++ seg ++ post) (length pre) = Ok (r, (length pre + length seg)%nat)) segs (re_rows e).
Proof.
  intros bl ts v payload e q H Hx. destruct (rows_split _ _ _ _ _ _ H) as (fixed & extra & count & bits & segs & t & E & L & I & Fl & Lx & X & C & Lb & P & T & F).
  { intros V. specialize (Hx V). unfold extra_length. rewrite V. change (2 =? 2) with true. cbv iota. lia. }
  exists fixed, extra, count, bits, segs, t. repeat (split; [assumption|]). split.
  { intros V. unfold extra_length in Lx. destruct (N.eqb_spec v 2); [congruence|]. now destruct extra. }
  split; [exact X|]. split; [exact C|]. split; [exact Lb|]. split; [rewrite P, bits_length by exact Lb; lia|].
  split; [intros i Hi; rewrite P; apply shown_bits; lia|]. split; [exact T|exact F].
Qed.
Print Assumptions C47_each_byte_once.
Theorem C47_each_byte_once_update : forall bl ts v payload e q, parse_update_event bl ts v payload 0%nat = Ok (e, q) ->
  (v = 2 -> 2 <= le_dec (firstn 2 (skipn 8 payload))) ->
  exists fixed extra count bits1 bits2 segs t, payload = fixed ++ extra ++ count ++ bits1 ++ bits2 ++ concat (map (fun s => fst s ++ snd s) segs) /\
    length fixed = 8%nat /\ ue_table e = le_dec (firstn 6 fixed) /\ ue_flags e = le_dec (skipn 6 fixed) /\
    (v <> 2 -> extra = []) /\ (v = 2 -> le_dec (firstn 2 extra) = N.of_nat (length extra)) /\
    lenenc (ue_columns e) count /\
    N.of_nat (length bits1) = (ue_columns e + 7) / 8 /\ N.of_nat (length (ue_before e)) = ue_columns e /\
    (forall i, N.of_nat i < ue_columns e -> nth_error (ue_before e) i = option_map (fun b => N.testbit (b2n b) (N.of_nat (i mod 8))) (nth_error bits1 (i / 8))) /\
    N.of_nat (length bits2) = (ue_columns e + 7) / 8 /\ N.of_nat (length (ue_after e)) = ue_columns e /\
    (forall i, N.of_nat i < ue_columns e -> nth_error (ue_after e) i = option_map (fun b => N.testbit (b2n b) (N.of_nat (i mod 8))) (nth_error bits2 (i / 8))) /\
    tables_get (ue_table e) ts = Some t /\
    Forall2 (fun s r => fst s ++ snd s <> [] /\
      (forall pre post, parse_row bl t (ue_before e) (bits_number (ue_before e)) (pre ++ fst s ++ post) (length pre) = Ok (fst r, (length pre + length (fst s))%nat)) /\
      (forall pre post, parse_row bl t (ue_after e) (bits_number (ue_after e)) (pre ++ snd s ++ post) (length pre) = Ok (snd r, (length pre + length (snd s))%nat)))
      segs (ue_rows e).
Proof.
  intros bl ts v payload e q H Hx. destruct (updates_split _ _ _ _ _ _ H) as (fixed & extra & count & b1 & b2 & segs & t & E & L & I & Fl & Lx & X & C & Lb & P & Lb2 & P2 & T & F).
  { intros V. specialize (Hx V). unfold extra_length. rewrite V. change (2 =? 2) with true. cbv iota. lia. }
  exists fixed, extra, count, b1, b2, segs, t. repeat (split; [assumption|]). split.
  { intros V. unfold extra_length in Lx. destruct (N.eqb_spec v 2); [congruence|]. now destruct extra. }
  split; [exact X|]. split; [exact C|]. split; [exact Lb|]. split; [rewrite P, bits_length by exact Lb; lia|].
  split; [intros i Hi; rewrite P; apply shown_bits; lia|]. split; [exact Lb2|]. split; [rewrite P2, bits_length by exact Lb2; lia|].
  split; [intros i Hi; rewrite P2; apply shown_bits; lia|]. split; [exact T|exact F].
Qed.
Print Assumptions C47_each_byte_once_update.
(* with an extra data length of 1 the cursor steps back: this event has ten bytes, its fields need at least eleven (the
   last byte is the high byte of the length and the column count) *)
Theorem C47_byte_read_twice_refuted : exists bl ts payload e q, parse_rows_event bl ts 2 payload 0%nat = Ok (e, q) /\
  q = length payload /\ (length payload < 6 + 2 + 2 + 1)%nat.
Proof.
  exists Release, [(108, table_map_of (Table 108 1 (tx "d") (tx "t") [] [] []))], (le_enc 6 108 ++ le_enc 2 1 ++ le_enc 2 1). do 2 eexists.
  split; [vm_compute; reflexivity|]. split; [reflexivity|]. vm_compute. lia.
Qed.
Print Assumptions C47_byte_read_twice_refuted.
Example C47_once_example : exists e q, parse_rows_event Debug [(108, table_map_of ex_table)] 2 (rows_bytes ex_table ex_rows) 0%nat = Ok (e, q) /\
  length (re_rows e) = 1%nat /\ 2 <= le_dec (firstn 2 (skipn 8 (rows_bytes ex_table ex_rows))).
Proof. do 2 eexists. split; [vm_compute; reflexivity|]. split; [reflexivity|]. vm_compute. discriminate. Qed.
Example C47_hangs_example :
  hangs [(108, table_map_of ex_old)] 30 (rows_bytes ex_old (Rows 2 1 [] [false] [false; false; false; false; false; false; false] []) ++ [n2b 0]) /\
  ~ hangs [(108, table_map_of ex_old)] 30 (rows_bytes ex_old (Rows 2 1 [] [false] [false; false; false; false; false; false; false] [])).
Proof.
  split; [apply (body_hangs Release _ (hd_of 30)); vm_compute; reflexivity|]. intros H. apply (body_hangs Release _ (hd_of 30)) in H. revert H. vm_compute. discriminate.
Qed.

(* ---- C33 ---- *)
(* Missing: the inputs named in the conclusion, and tables whose column metadata no server sends. *)
Theorem C33_no_panic_partial : forall bl st h slice, tables_sane (ps_tables st) ->
  returns (parse_event bl st h slice) \/
  (ps_checksum st = CkCrc32 /\ (length slice < 4)%nat) \/
  (bl = Debug /\ h_type h = 15 /\ h_length h mod 256 < 19) \/
  (bl = Debug /\ h_type h = 35) \/
  exists payload, (slice = payload \/ exists crc, slice = payload ++ crc /\ length crc = 4%nat) /\
    ((h_type h = 19 /\ huge_length payload) \/ wrong_columns (ps_tables st) (h_type h) payload \/ no_columns (h_type h) payload).
Proof.
  intros bl st h slice Hs. destruct (parse_event bl st h slice) as [x|er| |] eqn:E; [left; exact I|left; exact I| |].
  - right. revert E. unfold parse_event. destruct (event_payload (ps_checksum st) slice) as [payload|er| |] eqn:P; cbn [rbind]; try discriminate.
    + assert (Q : slice = payload \/ exists crc, slice = payload ++ crc /\ length crc = 4%nat).
      { revert P. unfold event_payload. destruct (ps_checksum st); [intros H; inv H; now left|].
        destruct (Nat.ltb_spec (length slice) 4); [discriminate|]. intros E. inv E. right. exists (skipn (length slice - 4) slice).
        rewrite firstn_skipn, skipn_length. split; [reflexivity|lia]. }
      intros H. destruct (event_body bl (ps_tables st) h payload 0%nat) as [[y q]|er| |] eqn:B; try discriminate.
      apply body_panic in B; [|exact Hs]. destruct B as [B|[B|[B|B]]]; [tauto|tauto| |]; right; right; right; exists payload; tauto.
    + intros _. left. revert P. unfold event_payload. destruct (ps_checksum st); [discriminate|].
      destruct (Nat.ltb_spec (length slice) 4); [tauto|discriminate].
  - right. right. right. right. apply C47_decoding_terminates_partial in E. destruct E as (payload & Q & E). exists payload. tauto.
Qed.
Print Assumptions C33_no_panic_partial.
(* for a table of one column that is present: some bytes make the decoder panic exactly for these metadata *)
Theorem C33_metadata_panics_iff : forall bl ty m t, m < 65536 -> tb_types t = [ty] -> tb_meta t = [m] ->
  ((exists buf pos, parse_row bl t [true] 1 buf pos = Panic) <-> column_risky bl ty m).
Proof.
  intros bl ty m t Hm Et Em. split.
  - intros (buf & pos & H). destruct (cell_risky_dec bl (fst (real_column ty m)) (snd (real_column ty m))) as [R|R]; [exact R|exfalso].
    assert (G : psafe (parse_row bl t [true] (bits_number [true]))).
    { apply row_psafe; rewrite ?Et, ?Em; cbn [combine length].
      - apply Forall_cons; [exact Hm|apply Forall_nil].
      - lia.
      - apply Forall_cons; [exact R|apply Forall_nil].
      - lia.
      - unfold isize_max. lia. }
    apply (psafe_nopanic _ G buf pos). exact H.
  - intros R. exists ([n2b 0] ++ ones), 0%nat. unfold parse_row, pbind at 1.
    assert (B : read_bitmap_le 1 ([n2b 0] ++ ones) 0%nat = Ok ([false], 1%nat)) by (vm_compute; reflexivity). rewrite B.
    rewrite Et, Em. cbn [parse_columns]. pose proof (column_panics bl ty m [n2b 0] Hm R (risky_known _ _ _ Hm R)) as P. cbn [length] in P.
    unfold column_parser in P. unfold pbind in P |- *. destruct (lift (coltype_from_code ty) ([n2b 0] ++ ones) 1%nat) as [[ct q]|er| |]; try discriminate; [|reflexivity].
    destruct (match ct with CtString => actual_string_type ty m | _ => (ty, m) end) as [ty2 m2]. now rewrite P.
Qed.
Print Assumptions C33_metadata_panics_iff.
(* whatever events went before: no assumption on the tables.  Missing: the inputs named in the conclusion. *)
Theorem C33_any_history_partial : forall bl l es st h slice, history bl pstate_new l es st ->
  returns (parse_event bl st h slice) \/
  (ps_checksum st = CkCrc32 /\ (length slice < 4)%nat) \/
  (bl = Debug /\ h_type h = 15 /\ h_length h mod 256 < 19) \/
  (bl = Debug /\ h_type h = 35) \/
  exists payload, ((ps_checksum st = CkNone /\ slice = payload) \/ (ps_checksum st = CkCrc32 /\ exists crc, slice = payload ++ crc /\ length crc = 4%nat)) /\
    ((h_type h = 19 /\ huge_length payload) \/ wrong_columns (ps_tables st) (h_type h) payload \/ hangs (ps_tables st) (h_type h) payload \/
     exists v id n rest t, rows_version (h_type h) = Some v /\ announces v payload id n rest /\ tables_get id (ps_tables st) = Some t /\
       Exists (fun c => column_risky bl (fst c) (snd c)) (combine (tb_types t) (tb_meta t))).
Proof.
  intros bl l es st h slice Hh. assert (M : tables_made (ps_tables st)) by (apply (history_made _ _ _ _ _ Hh); intros id t; discriminate).
  destruct (parse_event bl st h slice) as [x|er| |] eqn:E; [left; exact I|left; exact I| |].
  - right. revert E. unfold parse_event. destruct (event_payload (ps_checksum st) slice) as [payload|er| |] eqn:P; cbn [rbind]; try discriminate.
    + assert (Q : (ps_checksum st = CkNone /\ slice = payload) \/ (ps_checksum st = CkCrc32 /\ exists crc, slice = payload ++ crc /\ length crc = 4%nat)).
      { revert P. unfold event_payload. destruct (ps_checksum st); [intros H; inv H; now left|].
        destruct (Nat.ltb_spec (length slice) 4); [discriminate|]. intros E. inv E. right. split; [reflexivity|]. exists (skipn (length slice - 4) slice).
        rewrite firstn_skipn, skipn_length. split; [reflexivity|lia]. }
      intros H. destruct (event_body bl (ps_tables st) h payload 0%nat) as [[y q]|er| |] eqn:B; try discriminate.
      apply body_panic' in B; [|intros id t G; apply M in G; apply G].
      destruct B as [B|[B|[B|[B|B]]]]; [tauto|tauto| | |]; right; right; right; exists payload; (split; [exact Q|]); [tauto|tauto|].
      right. right. right. destruct B as (v & id & n & rest & t & Hv & A & T & [R|R]); [apply M in T; destruct T; lia|].
      exists v, id, n, rest, t. auto.
    + intros _. left. revert P. unfold event_payload. destruct (ps_checksum st); [discriminate|].
      destruct (Nat.ltb_spec (length slice) 4); [tauto|discriminate].
  - right. right. right. right. apply C47_hangs_iff in E. destruct E as (payload & Q & E). exists payload. tauto.
Qed.
Print Assumptions C33_any_history_partial.
(* DATETIME(6) is harmless, DATETIME(7) panics in debug builds only; an ENUM of nine bytes panics in both; a CHAR never *)
Example C33_metadata_example : ~ column_risky Debug 18 6 /\ column_risky Debug 18 7 /\ ~ column_risky Release 18 7 /\
  column_risky Debug 254 (enum_metadata 9) /\ column_risky Release 254 (enum_metadata 9) /\ ~ column_risky Debug 254 (char_metadata 1020) /\ ~ column_risky Release 3 0.
Proof.
  unfold column_risky. change (real_column 18 6) with (18, 6). change (real_column 18 7) with (18, 7). change (real_column 3 0) with (3, 0).
  change (real_column 254 (enum_metadata 9)) with (247, 9). change (real_column 254 (char_metadata 1020)) with (254, 1020). cbn [fst snd].
  unfold cell_risky. cbn [has existsb N.eqb Pos.eqb orb].
  split; [intros [[_ X]|[X _]]; [lia|discriminate]|]. split; [left; split; [reflexivity|lia]|]. split; [intros [[X _]|[_ X]]; [discriminate|lia]|].
  split; [right; lia|]. split; [right; lia|]. split; tauto.
Qed.
(* witnesses that each named input does make the decoder panic *)
Theorem C33_short_checksum_refuted : exists st h slice, parse_event Release st h slice = Panic.
Proof. exists (PState CkCrc32 []), (hd_of 16), [n2b 0; n2b 0; n2b 0]. vm_compute. reflexivity. Qed.
Print Assumptions C33_short_checksum_refuted.
Theorem C33_few_columns_refuted : exists st h slice, tables_sane (ps_tables st) /\ parse_event Release st h slice = Panic.
Proof.
  exists (PState CkNone [(108, table_map_of (Table 108 1 (tx "d") (tx "t") [Column 3 0 true; Column 3 0 true] [] []))]), (hd_of 23),
    (le_enc 6 108 ++ le_enc 2 1 ++ map n2b [1; 1; 0; 5; 0; 0; 0]).
  split; [|vm_compute; reflexivity]. intros id t. cbn [ps_tables tables_get]. destruct (108 =? id); [|discriminate]. intros H. inv H.
  split; [reflexivity|]. repeat constructor.
Qed.
Print Assumptions C33_few_columns_refuted.
Theorem C33_huge_length_refuted : exists st h slice, parse_event Release st h slice = Panic.
Proof.
  exists (PState CkNone []), (hd_of 19), (le_enc 6 108 ++ le_enc 2 1 ++ map n2b [0; 0; 0; 0; 254; 255; 255; 255; 255; 255; 255; 255; 255]).
  vm_compute. reflexivity.
Qed.
Print Assumptions C33_huge_length_refuted.
Theorem C33_previous_gtids_debug_refuted : exists st h slice, parse_event Debug st h slice = Panic.
Proof.
  exists (PState CkNone []), (hd_of 35), (le_enc 8 1 ++ repeat (n2b 1) 16 ++ le_enc 8 1 ++ le_enc 8 0 ++ le_enc 8 0). vm_compute. reflexivity.
Qed.
Print Assumptions C33_previous_gtids_debug_refuted.
Theorem C33_metadata_refuted : exists st h slice, parse_event Release st h slice = Panic /\
  exists t, ps_tables st = [(108, t)] /\ exists st0, parse_event Release pstate_new (hd_of 19) (table_bytes (Table 108 1 (tx "d") (tx "t") [Column 247 9 true] [true; true; true; true; true; true; true] [])) = Ok (EvTableMap t, st0).
Proof.
  exists (PState CkNone [(108, table_map_of (Table 108 1 (tx "d") (tx "t") [Column 247 9 true] [true; true; true; true; true; true; true] []))]), (hd_of 23),
    (le_enc 6 108 ++ le_enc 2 1 ++ map n2b [1; 1; 0; 1]).
  split; [vm_compute; reflexivity|]. eexists. split; [reflexivity|]. eexists. vm_compute. reflexivity.
Qed.
Print Assumptions C33_metadata_refuted.
Lemma ex_sane : table_sane (table_map_of ex_table).
Proof.
  split; [reflexivity|]. cbn [table_map_of tb_types tb_meta ex_table t_cols map c_type c_meta combine].
  apply Forall_cons; [split; [reflexivity|exact I]|]. apply Forall_cons; [split; [reflexivity|exact I]|].
  apply Forall_cons; [|apply Forall_cons; [split; [reflexivity|vm_compute; discriminate]|apply Forall_nil]].
  split; [reflexivity|]. change (fst (254, enum_metadata 1)) with 254. cbn [has existsb N.eqb Pos.eqb orb]. right. right. exists 1.
  split; [lia|]. now left.
Qed.
Example C33_example : tables_sane [(108, table_map_of ex_table)] /\
  returns (parse_event Debug (PState CkCrc32 [(108, table_map_of ex_table)]) (hd_of 31) (repeat (n2b 255) 40)) /\
  returns (parse_event Debug (PState CkCrc32 [(108, table_map_of ex_table)]) (hd_of 19) (repeat (n2b 77) 40)).
Proof.
  split; [|split; vm_compute; exact I]. intros id t. cbn [tables_get]. destruct (108 =? id); [|discriminate]. intros H. injection H as <-. exact ex_sane.
Qed.
