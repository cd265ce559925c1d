(* C33: exactly which events make the decoder panic *)
From Coq Require Import Strings.String.
From Verif Require Import Base.Tac Base.Bytes Base.Text Base.Res Base.Str Base.Parse Base.Loop Model.Codec Model.Values Model.Cells Model.TableMap
  Model.Rows Model.Gtid Model.Events Spec.CodecSpec Spec.EventSpec Spec.CellSpec Spec.TableSpec Spec.RowSpec Spec.SafeSpec Spec.StopSpec
  Proofs.DecodeSafe Proofs.RiskProofs Proofs.StopProofs Proofs.StopTableProofs Proofs.StopCellProofs Proofs.StopRowProofs Props.RowProps.
Local Open Scope N_scope.

(* a single cell: the bytes it is read from, and the bytes on which reading it panics *)
Theorem C33_cell_exact : forall bl ty m, m < 65536 ->
  (forall bs, (exists v, forall pre post, parse_cell bl ty m (pre ++ bs ++ post) (length pre) = Ok (v, (length pre + length bs)%nat)) <-> cell_reads bl ty m bs) /\
  (forall pre rest, parse_cell bl ty m (pre ++ rest) (length pre) = Panic <-> cell_stops bl ty m rest).
Proof. intros bl ty m Hm. exact (cell_exact bl ty m Hm). Qed.
Print Assumptions C33_cell_exact.
(* tables hold u16 metadata *)
Theorem C33_panics_iff : forall bl st h slice, tables_typed (ps_tables st) ->
  (parse_event bl st h slice = Panic <-> event_stops bl st h slice).
Proof. exact event_panics. Qed.
Print Assumptions C33_panics_iff.
(* after any events whatever *)
Theorem C33_any_history_panics_iff : forall bl l es st h slice, history bl pstate_new l es st ->
  (parse_event bl st h slice = Panic <-> event_stops bl st h slice).
Proof.
  intros bl l es st h slice Hh. apply event_panics. assert (M : tables_made (ps_tables st)) by (apply (history_made _ _ _ _ _ Hh); intros id t; discriminate).
  intros id t G. apply M in G. apply G.
Qed.
Print Assumptions C33_any_history_panics_iff.
(* decoding returns Ok or Err exactly for the other inputs on which it ends *)
Theorem C33_returns_iff : forall bl l es st h slice, history bl pstate_new l es st ->
  (returns (parse_event bl st h slice) <->
   ~ event_stops bl st h slice /\
   ~ exists payload, ((ps_checksum st = CkNone /\ slice = payload) \/ (ps_checksum st = CkCrc32 /\ exists crc, slice = payload ++ crc /\ length crc = 4%nat)) /\
       hangs (ps_tables st) (h_type h) payload).
Proof.
  intros bl l es st h slice Hh. rewrite <- (C33_any_history_panics_iff _ _ _ _ _ _ Hh), <- (C47_hangs_iff bl).
  destruct (parse_event bl st h slice) as [x|er| |]; cbn [returns]; split; try (intros _; split; discriminate); try (intros; exact I); try contradiction.
  - intros [X _]. now elim X.
  - intros [_ X]. now elim X.
Qed.
Print Assumptions C33_returns_iff.

(* ---- cases ---- *)
(* a BLOB with an eight byte length; a DATETIME(7) in a debug build, but not when the bytes end first *)
Example C33_cell_example :
  cell_stops Release 252 8 (le_enc 8 9223372036854775808) /\ ~ cell_stops Release 252 8 (le_enc 8 9223372036854775807) /\
  cell_stops Debug 18 7 (repeat (n2b 1) 9) /\ ~ cell_stops Debug 18 7 (repeat (n2b 1) 8) /\
  cell_reads Release 18 7 (repeat (n2b 1) 9) /\ ~ cell_reads Debug 18 7 (repeat (n2b 1) 9) /\
  cell_reads Debug 15 80 (n2b 2 :: [n2b 104; n2b 105]) /\ ~ cell_reads Debug 15 80 (n2b 2 :: [n2b 104]).
Proof.
  assert (P : forall bl ty m bs r, m < 65536 -> parse_cell bl ty m bs 0%nat = r -> r <> Panic -> ~ cell_stops bl ty m bs).
  { intros bl ty m bs r Hm <- N C. apply N. now apply (proj2 (C33_cell_exact bl ty m Hm) []). }
  assert (R : forall bl ty m bs r, m < 65536 -> parse_cell bl ty m bs 0%nat = r -> (forall v, r <> Ok (v, length bs)) -> ~ cell_reads bl ty m bs).
  { intros bl ty m bs r Hm <- N C. apply (proj1 (C33_cell_exact bl ty m Hm)) in C. destruct C as (v & C). specialize (C [] []). rewrite app_nil_r in C. now apply (N v). }
  split; [right; right; split; [reflexivity|]; exists (le_enc 8 9223372036854775808), []; split; [reflexivity|]; split; [reflexivity|]; vm_compute; reflexivity|].
  split; [eapply P; [lia|vm_compute; reflexivity|discriminate]|].
  split; [split; [left; split; [reflexivity|lia]|vm_compute; discriminate]|].
  split; [eapply P; [lia|vm_compute; reflexivity|discriminate]|].
  split; [split; [reflexivity|intros [[X _]|[_ X]]; [discriminate|lia]]|].
  split; [eapply R; [lia|vm_compute; reflexivity|discriminate]|].
  split; [exists [n2b 2], [n2b 104; n2b 105]; split; [reflexivity|]; split; [reflexivity|]; split; [vm_compute; reflexivity|]; exists (tx "hi"); split; [repeat constructor|vm_compute; reflexivity]|].
  eapply R; [lia|vm_compute; reflexivity|discriminate].
Qed.
(* the second of two rows makes the decoder panic; the first alone does not *)
Definition ex_blobs : table := Table 108 1 (tx "d") (tx "t") [Column 3 0 true; Column 252 8 true] [true; true; true; true; true; true] [].
Definition ex_good_row : list byte := n2b 0 :: le_enc 4 7 ++ le_enc 8 1 ++ [n2b 9].
Definition ex_bad_row : list byte := n2b 0 :: le_enc 4 7 ++ le_enc 8 18446744073709551615.
Definition ex_blob_rows (rows : list byte) : list byte := le_enc 6 108 ++ le_enc 2 1 ++ [n2b 2; n2b 3] ++ rows.
Lemma ex_blobs_typed : tables_typed [(108, table_map_of ex_blobs)].
Proof.
  intros id t. cbn [tables_get]. destruct (108 =? id); [|discriminate]. intros H. injection H as <-. cbn [tb_meta table_map_of ex_blobs t_cols map c_meta].
  apply Forall_cons; [reflexivity|]. apply Forall_cons; [reflexivity|apply Forall_nil].
Qed.
Example C33_panics_example :
  event_stops Release (PState CkNone [(108, table_map_of ex_blobs)]) (hd_of 23) (ex_blob_rows (ex_good_row ++ ex_bad_row)) /\
  ~ event_stops Release (PState CkNone [(108, table_map_of ex_blobs)]) (hd_of 23) (ex_blob_rows ex_good_row) /\
  event_stops Release (PState CkCrc32 [(108, table_map_of ex_blobs)]) (hd_of 23) (ex_blob_rows (ex_good_row ++ ex_bad_row) ++ le_enc 4 1) /\
  ~ event_stops Release (PState CkCrc32 [(108, table_map_of ex_blobs)]) (hd_of 23) (ex_blob_rows (ex_good_row ++ ex_bad_row)) /\
  event_stops Release (PState CkCrc32 []) (hd_of 16) [n2b 0].
Proof.
  split.
  { right. right. right. exists 1, 108, 2, (n2b 3 :: ex_good_row ++ ex_bad_row). split; [reflexivity|]. split.
    { split; [vm_compute; reflexivity|]. exists [n2b 2]. split; [constructor; lia|vm_compute; reflexivity]. }
    right. exists [[n2b 3]], (ex_good_row ++ ex_bad_row), (table_map_of ex_blobs). split; [reflexivity|]. split; [lia|]. split; [reflexivity|].
    split; [apply Forall_cons; [reflexivity|apply Forall_nil]|]. split; [reflexivity|]. exists ex_good_row, ex_bad_row. split; [reflexivity|].
    change (map (bits_of 2) [[n2b 3]]) with [[true; true]]. split; [|split; [discriminate|]].
    - exists [ex_good_row]. split; [unfold concat; now rewrite app_nil_r|]. apply Forall_cons; [|apply Forall_nil]. split; [discriminate|].
      exists ex_good_row, []. split; [now rewrite app_nil_r|]. split; [|reflexivity]. exists [n2b 0], (le_enc 4 7 ++ (le_enc 8 1 ++ [n2b 9]) ++ []). split; [reflexivity|]. split; [reflexivity|].
      change (bits_of (ones_in [true; true]) [n2b 0]) with [false; false].
      apply cr_cell; [cbn; tauto|reflexivity|]. apply cr_cell; [cbn; tauto| |apply cr_end].
      exists (le_enc 8 1), [n2b 9]. split; [reflexivity|]. split; [reflexivity|]. split; [vm_compute; split; discriminate|]. split; [vm_compute; reflexivity|vm_compute; discriminate].
    - left. exists [n2b 0], (le_enc 4 7 ++ le_enc 8 18446744073709551615). split; [reflexivity|]. split; [reflexivity|].
      change (bits_of (ones_in [true; true]) [n2b 0]) with [false; false]. apply cs_next; [cbn; tauto|reflexivity|]. apply cs_cell; [cbn; tauto|].
      right. right. split; [reflexivity|]. exists (le_enc 8 18446744073709551615), []. split; [reflexivity|]. split; [reflexivity|vm_compute; reflexivity]. }
  assert (P : forall st h slice r, tables_typed (ps_tables st) -> parse_event Release st h slice = r -> r <> Panic -> ~ event_stops Release st h slice).
  { intros st h slice r Ht <- N C. apply N. now apply C33_panics_iff. }
  split; [eapply P; [exact ex_blobs_typed|vm_compute; reflexivity|discriminate]|].
  split; [apply C33_panics_iff; [exact ex_blobs_typed|vm_compute; reflexivity]|].
  split; [eapply P; [exact ex_blobs_typed|vm_compute; reflexivity|discriminate]|]. left. cbn [length]. lia.
Qed.
