(* Which payloads make the decoder panic or loop. *)
From Verif Require Import Base.Tac Base.Bytes Base.Text Base.Res Base.Str Base.Parse Base.Loop Model.Codec Model.Values Model.Decimal Model.Cells
  Model.TableMap Model.Rows Model.Gtid Model.GtidMaria Model.Events Spec.CodecSpec Spec.EventSpec Spec.CellSpec Spec.TableSpec Spec.SafeSpec
  Proofs.CodecProofs Proofs.EventSafe Proofs.RowProofs.
Local Open Scope N_scope.

(* ================= termination ================= *)
Definition pfin {A} (p : parser A) : Prop := forall buf pos, p buf pos <> Diverge.
Lemma pfin_safe {A} (p : parser A) : psafe p -> pfin p.
Proof. intros H buf pos E. specialize (H buf pos). now rewrite E in H. Qed.
Lemma pfin_ret {A} (a : A) : pfin (ret a). Proof. intros buf pos; discriminate. Qed.
Lemma pfin_fail {A} e : pfin (@fail A e). Proof. intros buf pos; discriminate. Qed.
Lemma pfin_panic {A} : pfin (fun _ _ => @Panic (A * nat)). Proof. intros buf pos; discriminate. Qed.
Lemma pfin_lift {A} (r : res A) : r <> Diverge -> pfin (lift r).
Proof. intros H buf pos. unfold lift. now destruct r. Qed.
Lemma pfin_bind {A B} (p : parser A) (f : A -> parser B) : pfin p -> (forall a, pfin (f a)) -> pfin (pbind p f).
Proof. intros Hp Hf buf pos. unfold pbind. specialize (Hp buf pos). destruct (p buf pos) as [[a p1]|e| |]; try discriminate; [apply Hf|congruence]. Qed.
Lemma pfin_bytes n : pfin (read_bytes n).
Proof. intros buf pos. unfold read_bytes, alloc. destruct (isize_max <? n); cbn [rbind]; [discriminate|]. destruct (_ <? _); discriminate. Qed.
Lemma pfin_le k : pfin (read_le k). Proof. apply pfin_bind; [apply pfin_bytes|intros; apply pfin_ret]. Qed.
Lemma pfin_be k : pfin (read_be k). Proof. apply pfin_bind; [apply pfin_bytes|intros; apply pfin_ret]. Qed.
Lemma pfin_uint_le n : pfin (read_uint_le n).
Proof. unfold read_uint_le. destruct (_ || _); [apply pfin_panic|]. apply pfin_bind; [apply pfin_bytes|intros; apply pfin_ret]. Qed.
Lemma pfin_uint_be n : pfin (read_uint_be n).
Proof. unfold read_uint_be. destruct (_ || _); [apply pfin_panic|]. apply pfin_bind; [apply pfin_bytes|intros; apply pfin_ret]. Qed.
Lemma pfin_seek d : pfin (seek_cur d). Proof. apply pfin_safe, psafe_seek. Qed.
Lemma pfin_lenenc : pfin read_len_enc_num. Proof. apply pfin_safe, psafe_lenenc. Qed.
Lemma from_utf8_fin bs : from_utf8 bs <> Diverge. Proof. unfold from_utf8. destruct (utf8_decode bs); discriminate. Qed.
Lemma pfin_string n : pfin (read_string n).
Proof. apply pfin_bind; [apply pfin_bytes|intros]. apply pfin_lift, from_utf8_fin. Qed.
Lemma pfin_len_str : pfin read_len_enc_str.
Proof. apply pfin_bind; [apply pfin_lenenc|intros; apply pfin_string]. Qed.
Lemma alloc_fin n : alloc n <> Diverge. Proof. unfold alloc. destruct (_ <? _); discriminate. Qed.
Lemma pfin_bitmap n : pfin (read_bitmap_le n).
Proof. apply pfin_bind; [apply pfin_lift, alloc_fin|intros]. apply pfin_bind; [apply pfin_bytes|intros; apply pfin_ret]. Qed.
Lemma pfin_bitmap_be n : pfin (read_bitmap_be n).
Proof. apply pfin_bind; [apply pfin_lift, alloc_fin|intros]. apply pfin_bind; [apply pfin_bytes|intros; apply pfin_ret]. Qed.
Lemma pfin_bitmap_rev n : pfin (read_bitmap_reverted n).
Proof. apply pfin_bind; [apply pfin_lift, alloc_fin|intros]. apply pfin_bind; [apply pfin_bytes|intros; apply pfin_ret]. Qed.
Lemma uadd_fin m bl x y : uadd m bl x y <> Diverge. Proof. unfold uadd. destruct (_ <? _), bl; discriminate. Qed.
Lemma usub_fin m bl x y : usub m bl x y <> Diverge. Proof. unfold usub. destruct (_ <=? _), bl; discriminate. Qed.
Lemma umul_fin m bl x y : umul m bl x y <> Diverge. Proof. unfold umul. destruct (_ <? _), bl; discriminate. Qed.
Lemma pwhile_fin {A} (p : parser A) : pfin p -> advances 1 p -> pfin (pwhile p).
Proof.
  intros Hs Ha buf pos. unfold pwhile. assert (G : forall fuel pos, (length buf <= pos + fuel)%nat -> pwhile_aux fuel p buf pos <> Diverge).
  { induction fuel as [|f IH]; intros q H; cbn [pwhile_aux]; destruct (Nat.ltb_spec q (length buf)); try discriminate; [lia|].
    unfold pbind. pose proof (Hs buf q) as X. destruct (p buf q) as [[a p1]|e| |] eqn:E; try discriminate; [|congruence].
    apply Ha in E. specialize (IH p1 ltac:(lia)). destruct (pwhile_aux f p buf p1) as [[xs p2]|e| |]; try discriminate. congruence. }
  apply G. lia.
Qed.
Lemma prepeat_fin {A} k (p : parser A) : pfin p -> pfin (prepeat k p).
Proof. intros H. induction k as [|k IH]; cbn [prepeat]; [apply pfin_ret|]. apply pfin_bind; [exact H|intros]. apply pfin_bind; [exact IH|intros; apply pfin_ret]. Qed.
Lemma ploop_fin {A} n (p : parser A) : pfin p -> advances 1 p -> bounded p -> pfin (ploop n p).
Proof. intros H Ha Hb buf pos. rewrite ploop_prepeat by assumption. now apply prepeat_fin. Qed.
Lemma on_buffer_fin {A} bs (p : parser A) : pfin p -> pfin (on_buffer bs p).
Proof. intros H. apply pfin_lift. specialize (H bs 0%nat). destruct (p bs 0%nat) as [[a q]|e| |]; try discriminate. congruence. Qed.

Lemma pfin_fractional bl m : pfin (parse_fractional bl m).
Proof.
  unfold parse_fractional. apply pfin_bind; [apply pfin_lift, uadd_fin|intros a]. cbv zeta. destruct (_ =? _); [apply pfin_ret|].
  apply pfin_bind; [apply pfin_uint_be|intros]. destruct (_ <=? _); [apply pfin_lift, umul_fin|]. destruct bl; [apply pfin_panic|apply pfin_ret].
Qed.
Lemma pfin_int_groups k : forall st acc, pfin (dec_int_groups k st acc).
Proof.
  induction k as [|k IH]; intros st acc; cbn [dec_int_groups]; [apply pfin_ret|]. apply pfin_bind; [apply pfin_be|intros a].
  destruct st; [apply IH|]. destruct (0 <? a); apply IH.
Qed.
Lemma pfin_frac_groups k : forall acc, pfin (dec_frac_groups k acc).
Proof. induction k as [|k IH]; intros acc; cbn [dec_frac_groups]; [apply pfin_ret|]. apply pfin_bind; [apply pfin_be|intros; apply IH]. Qed.
Lemma pfin_decimal_digits ui ci uf cf sc sg : pfin (decimal_digits ui ci uf cf sc sg).
Proof.
  unfold decimal_digits. apply pfin_bind.
  { cbv zeta. destruct (0 <? _); [|apply pfin_ret]. apply pfin_bind; [apply pfin_uint_be|intros a]. destruct (0 <? _); apply pfin_ret. }
  intros [st acc]. apply pfin_bind; [apply pfin_int_groups|]. intros [st' acc']. cbv zeta.
  apply pfin_bind; [apply pfin_frac_groups|intros a]. destruct (0 <? _); [|apply pfin_ret]. apply pfin_bind; [apply pfin_uint_be|intros; apply pfin_ret].
Qed.
Lemma pfin_decimal bl m : pfin (parse_decimal bl m).
Proof.
  unfold parse_decimal. apply pfin_bind; [apply pfin_lift, usub_fin|intros a]. cbv zeta. apply pfin_bind; [apply pfin_bytes|intros [|b r]; [apply pfin_panic|]].
  apply pfin_lift. match goal with |- context [decimal_digits ?a ?b ?c ?d ?e ?f ?g ?h] => pose proof (pfin_decimal_digits a b c d e f g h) as X;
    destruct (decimal_digits a b c d e f g h) as [[t q]|er| |]; try discriminate; congruence end.
Qed.
Lemma pfin_pmapv {A B} (p : parser A) (f : A -> B) : pfin p -> pfin (x <- p ;; ret (f x)).
Proof. intros H. apply pfin_bind; [exact H|intros; apply pfin_ret]. Qed.
Lemma coltype_fin c : coltype_from_code c <> Diverge.
Proof. unfold coltype_from_code. destruct (find _ _) as [[? ?]|]; discriminate. Qed.
Ltac pf := first [apply pfin_ret | apply pfin_fail | apply pfin_le | apply pfin_be | apply pfin_uint_le | apply pfin_uint_be | apply pfin_bytes
  | apply pfin_string | apply pfin_bitmap | apply pfin_bitmap_be | apply pfin_fractional | apply pfin_decimal | apply pfin_seek | apply pfin_lenenc
  | apply pfin_lift, uadd_fin].
Lemma pfin_cell bl ty m : pfin (parse_cell bl ty m).
Proof.
  unfold parse_cell. apply pfin_bind; [apply pfin_lift, coltype_fin|]. intros ct.
  destruct ct; try pf; (apply pfin_bind; [|intros; apply pfin_ret]); try pf.
  all: unfold parse_timestamp, parse_date, parse_time, parse_date_time, parse_year, parse_string, parse_bit, parse_timestamp2, parse_date_time2, parse_time2, parse_blob.
  all: try (apply pfin_bind; [first [pf | destruct (m <? 256); pf]|intros; cbv zeta; try pf]).
  - destruct (_ <? _)%Z; pf.
  - apply pfin_bind; [pf|intros; pf].
  - apply pfin_bind; [pf|intros; cbv zeta; pf].
  - apply pfin_bind; [pf|intros; cbv zeta]. destruct (_ =? _); pf.
Qed.
Lemma pfin_columns bl types : forall metas ps nulls, pfin (parse_columns bl types metas ps nulls).
Proof.
  induction types as [|ty types IH]; intros metas ps nulls; cbn [parse_columns]; [pf|].
  destruct ps as [|[|] ps]; [apply pfin_panic| |apply pfin_bind; [apply IH|intros; pf]].
  destruct nulls as [|[|] nulls]; [apply pfin_panic|apply pfin_bind; [apply IH|intros; pf]|].
  destruct metas as [|m metas]; [apply pfin_panic|]. apply pfin_bind; [apply pfin_lift, coltype_fin|intros ct].
  destruct (match ct with CtString => actual_string_type ty m | _ => (ty, m) end) as [ty2 m2].
  apply pfin_bind; [apply pfin_cell|intros]. apply pfin_bind; [apply IH|intros; pf].
Qed.
Lemma pfin_row bl t ps n : pfin (parse_row bl t ps n).
Proof. apply pfin_bind; [pf|intros; apply pfin_columns]. Qed.

(* ---- progress ---- *)
Lemma adv_le k n : (k <= n)%nat -> advances k (read_le n).
Proof. intros H. eapply advances_weaken; [exact H|apply advances_read_le]. Qed.
Lemma adv0_bytes n : advances 0 (read_bytes n).
Proof. eapply advances_weaken; [|apply advances_read_bytes]. lia. Qed.
Lemma adv0_bind {A B} (p : parser A) (f : A -> parser B) : advances 0 p -> (forall a, advances 0 (f a)) -> advances 0 (pbind p f).
Proof. intros H1 H2. exact (advances_bind 0 0 p f H1 H2). Qed.
Lemma adv0_panic {A} k : advances k (fun _ _ => @Panic (A * nat)). Proof. intros buf pos a pos' H. discriminate. Qed.
Lemma adv0_be k : advances 0 (read_be k). Proof. apply adv0_bind; [apply adv0_bytes|intros; apply advances_ret]. Qed.
Lemma adv0_uint_le n : advances 0 (read_uint_le n).
Proof. unfold read_uint_le. destruct (_ || _); [apply adv0_panic|]. apply adv0_bind; [apply adv0_bytes|intros; apply advances_ret]. Qed.
Lemma adv0_uint_be n : advances 0 (read_uint_be n).
Proof. unfold read_uint_be. destruct (_ || _); [apply adv0_panic|]. apply adv0_bind; [apply adv0_bytes|intros; apply advances_ret]. Qed.
Lemma adv0_string n : advances 0 (read_string n).
Proof. apply adv0_bind; [apply adv0_bytes|intros; apply advances_lift]. Qed.
Lemma adv_bitmap n : 0 < n -> advances 1 (read_bitmap_le n).
Proof.
  intros H. unfold read_bitmap_le. apply (advances_bind 0 1); [apply advances_lift|intros]. apply (advances_bind 1 0); [|intros; apply advances_ret].
  eapply advances_weaken; [|apply advances_read_bytes]. lia.
Qed.
Lemma adv0_bitmap n : advances 0 (read_bitmap_le n).
Proof. apply adv0_bind; [apply advances_lift|intros]. apply adv0_bind; [apply adv0_bytes|intros; apply advances_ret]. Qed.
Lemma adv0_bitmap_be n : advances 0 (read_bitmap_be n).
Proof. apply adv0_bind; [apply advances_lift|intros]. apply adv0_bind; [apply adv0_bytes|intros; apply advances_ret]. Qed.
Lemma adv0_fractional bl m : advances 0 (parse_fractional bl m).
Proof.
  unfold parse_fractional. apply adv0_bind; [apply advances_lift|intros a]. cbv zeta. destruct (_ =? _); [apply advances_ret|].
  apply adv0_bind; [apply adv0_uint_be|intros]. destruct (_ <=? _); [apply advances_lift|]. destruct bl; [apply adv0_panic|apply advances_ret].
Qed.
Lemma adv0_decimal bl m : advances 0 (parse_decimal bl m).
Proof.
  unfold parse_decimal. apply adv0_bind; [apply advances_lift|intros a]. cbv zeta. apply adv0_bind; [apply adv0_bytes|intros [|b r]; [apply adv0_panic|]].
  apply advances_lift.
Qed.
Ltac ad := first [apply advances_ret | apply advances_fail | apply adv_le; lia | apply adv0_be | apply adv0_uint_le | apply adv0_uint_be | apply adv0_bytes
  | apply adv0_string | apply adv0_bitmap | apply adv0_bitmap_be | apply adv0_fractional | apply adv0_decimal | apply advances_lift].
Lemma adv0_cell bl ty m : advances 0 (parse_cell bl ty m).
Proof.
  unfold parse_cell. apply adv0_bind; [ad|]. intros ct.
  destruct ct; try ad; (apply adv0_bind; [|intros; apply advances_ret]); try ad.
  all: unfold parse_timestamp, parse_date, parse_time, parse_date_time, parse_year, parse_string, parse_bit, parse_timestamp2, parse_date_time2, parse_time2, parse_blob.
  all: try (apply adv0_bind; [first [ad | destruct (m <? 256); ad]|intros; cbv zeta; try ad]).
  - destruct (_ <? _)%Z; ad.
  - apply adv0_bind; [ad|intros; ad].
  - apply adv0_bind; [ad|intros; cbv zeta; ad].
  - apply adv0_bind; [ad|intros; cbv zeta]. destruct (_ =? _); ad.
Qed.
Lemma adv0_columns bl types : forall metas ps nulls, advances 0 (parse_columns bl types metas ps nulls).
Proof.
  induction types as [|ty types IH]; intros metas ps nulls; cbn [parse_columns]; [ad|].
  destruct ps as [|[|] ps]; [apply adv0_panic| |apply adv0_bind; [apply IH|intros; ad]].
  destruct nulls as [|[|] nulls]; [apply adv0_panic|apply adv0_bind; [apply IH|intros; ad]|].
  destruct metas as [|m metas]; [apply adv0_panic|]. apply adv0_bind; [ad|intros ct].
  destruct (match ct with CtString => actual_string_type ty m | _ => (ty, m) end) as [ty2 m2].
  apply adv0_bind; [apply adv0_cell|intros]. apply adv0_bind; [apply IH|intros; ad].
Qed.
Lemma bits_number_pos ps : In true ps -> 0 < bits_number ps.
Proof.
  unfold bits_number. induction ps as [|[|] ps IH]; cbn [In filter length]; [contradiction|lia|]. intros [C|C]; [discriminate|now apply IH].
Qed.
Lemma adv_row bl t ps : In true ps -> advances 1 (parse_row bl t ps (bits_number ps)).
Proof. intros H. apply (advances_bind 1 0); [now apply adv_bitmap, bits_number_pos|intros; apply adv0_columns]. Qed.
Lemma adv0_row bl t ps n : advances 0 (parse_row bl t ps n).
Proof. apply adv0_bind; [ad|intros; apply adv0_columns]. Qed.

Lemma pfin_row_list bl ts id ps : In true ps -> pfin (parse_row_list bl ts id ps).
Proof. intros H. unfold parse_row_list. destruct (tables_get id ts); [|pf]. apply pwhile_fin; [apply pfin_row|now apply adv_row]. Qed.
Lemma pfin_update_list bl ts id b a : In true b \/ In true a -> pfin (parse_update_row_list bl ts id b a).
Proof.
  intros H. unfold parse_update_row_list. destruct (tables_get id ts); [|pf]. apply pwhile_fin.
  - apply pfin_bind; [apply pfin_row|intros]. apply pfin_bind; [apply pfin_row|intros; pf].
  - destruct H as [H|H].
    + apply (advances_bind 1 0); [now apply adv_row|intros]. apply adv0_bind; [apply adv0_row|intros; ad].
    + apply (advances_bind 0 1); [apply adv0_row|intros]. apply (advances_bind 1 0); [now apply adv_row|intros; ad].
Qed.
Lemma pfin_head v : pfin (parse_head v).
Proof.
  unfold parse_head. apply pfin_bind; [pf|intros]. apply pfin_bind; [pf|intros]. apply pfin_bind; [destruct (v =? 2); [apply pfin_bind; [pf|intros]|]; pf|intros].
  apply pfin_bind; [pf|intros; pf].
Qed.

(* ---- table maps ---- *)
Lemma adv_len_str : advances 1 read_len_enc_str.
Proof. apply (advances_bind 1 0); [apply advances_lenenc|intros; ad]. Qed.
Lemma bounded_len_str : bounded read_len_enc_str.
Proof. apply bounded_bind; [apply bounded_lenenc|intros]. apply keeps_bind; [apply keeps_read_bytes|intros; apply keeps_lift]. Qed.
Lemma pfin_int_array : pfin parse_int_array.
Proof. apply pwhile_fin; [apply pfin_bind; [pf|intros; pf]|]. apply (advances_bind 1 0); [apply advances_lenenc|intros; ad]. Qed.
Lemma pfin_string_array : pfin parse_string_array.
Proof. apply pwhile_fin; [apply pfin_len_str|apply adv_len_str]. Qed.
Lemma pfin_int_map : pfin parse_int_map.
Proof.
  apply pwhile_fin; [apply pfin_bind; [pf|intros]; apply pfin_bind; [pf|intros; pf]|].
  apply (advances_bind 1 0); [apply advances_lenenc|intros]. apply adv0_bind; [eapply advances_weaken; [|apply advances_lenenc]; lia|intros; ad].
Qed.
Lemma pfin_type_values : pfin parse_type_values.
Proof.
  apply pwhile_fin.
  - apply pfin_bind; [pf|intros]. apply ploop_fin; [apply pfin_len_str|apply adv_len_str|apply bounded_len_str].
  - apply (advances_bind 1 0); [apply advances_lenenc|intros]. apply advances_ploop. eapply advances_weaken; [|apply adv_len_str]. lia.
Qed.
Lemma pfin_default_charset : pfin parse_default_charset.
Proof. apply pfin_bind; [pf|intros]. apply pfin_bind; [apply pfin_int_map|intros; pf]. Qed.
Lemma numeric_count_fin types : numeric_count types <> Diverge.
Proof.
  induction types as [|t l IH]; cbn [numeric_count]; [discriminate|]. pose proof (coltype_fin t). destruct (coltype_from_code t); cbn [rbind]; try discriminate; [|congruence].
  destruct (numeric_count l); cbn [rbind]; try discriminate. congruence.
Qed.
Lemma pfin_field types m : pfin (metadata_field types m).
Proof.
  unfold metadata_field. apply pfin_bind; [pf|intros c]. apply pfin_bind; [destruct (_ && _); pf|intros _]. apply pfin_bind; [pf|intros n].
  apply pfin_bind; [pf|intros bs]. destruct m.
  destruct (c =? 1); [apply pfin_bind; [apply pfin_lift, numeric_count_fin|intros]; apply pfin_bind; [apply on_buffer_fin, pfin_bitmap_rev|intros; pf]|].
  destruct (c =? 2); [apply pfin_bind; [apply on_buffer_fin, pfin_default_charset|intros; pf]|].
  destruct (c =? 3); [apply pfin_bind; [apply on_buffer_fin, pfin_int_array|intros; pf]|].
  destruct (c =? 4); [apply pfin_bind; [apply on_buffer_fin, pfin_string_array|intros; pf]|].
  destruct (c =? 5); [apply pfin_bind; [apply on_buffer_fin, pfin_type_values|intros; pf]|].
  destruct (c =? 6); [apply pfin_bind; [apply on_buffer_fin, pfin_type_values|intros; pf]|].
  destruct (c =? 7); [apply pfin_bind; [apply on_buffer_fin, pfin_int_array|intros; pf]|].
  destruct (c =? 8); [apply pfin_bind; [apply on_buffer_fin, pfin_int_array|intros; pf]|].
  destruct (c =? 9); [apply pfin_bind; [apply on_buffer_fin, pfin_int_map|intros; pf]|].
  destruct (c =? 10); [apply pfin_bind; [apply on_buffer_fin, pfin_default_charset|intros; pf]|].
  destruct (c =? 11); [apply pfin_bind; [apply on_buffer_fin, pfin_int_array|intros; pf]|].
  apply pfin_bind; [apply on_buffer_fin, pfin_bitmap_rev|intros; pf].
Qed.
Lemma adv_field types m : advances 1 (metadata_field types m).
Proof.
  unfold metadata_field. apply (advances_bind 1 0); [ad|intros c]. apply adv0_bind; [destruct (_ && _); ad|intros _].
  apply adv0_bind; [eapply advances_weaken; [|apply advances_lenenc]; lia|intros n].
  apply adv0_bind; [ad|intros bs]. destruct m. repeat (destruct (c =? _); [repeat (apply adv0_bind; [apply advances_lift|intros]); ad|]).
  apply adv0_bind; [apply advances_lift|intros; ad].
Qed.
Lemma metadata_loop_fin types buf : forall fuel m pos, (length buf <= pos + fuel)%nat -> metadata_loop fuel types m buf pos <> Diverge.
Proof.
  induction fuel as [|f IH]; intros m pos H; cbn [metadata_loop]; destruct (Nat.ltb_spec pos (length buf)); try discriminate; [lia|].
  unfold pbind. pose proof (pfin_field types m buf pos) as X. destruct (metadata_field types m buf pos) as [[a p1]|e| |] eqn:E; try discriminate; [|congruence].
  apply adv_field in E. apply IH. lia.
Qed.
Lemma pfin_columns_meta types : pfin (columns_meta types).
Proof.
  induction types as [|t l IH]; cbn [columns_meta]; [pf|]. apply pfin_bind.
  - unfold column_meta. apply pfin_bind; [apply pfin_lift, coltype_fin|intros ct; destruct ct; pf].
  - intros. apply pfin_bind; [exact IH|intros; pf].
Qed.
Lemma pfin_table_map : pfin parse_table_map.
Proof.
  unfold parse_table_map. repeat (apply pfin_bind; [first [pf | apply pfin_columns_meta]|intros; cbv zeta]).
  apply pfin_bind; [intros b p; discriminate|intros]. apply pfin_bind; [intros b p; discriminate|intros].
  apply pfin_bind; [|intros; pf]. destruct (_ <? _)%nat; [|pf]. apply pfin_bind; [|intros; pf].
  intros buf pos. apply metadata_loop_fin. lia.
Qed.
Lemma pfin_prev bl : pfin (parse_prev_gtids bl).
Proof.
  assert (Hf : pfin (prev_interval bl)).
  { unfold prev_interval. apply pfin_bind; [pf|intros]. apply pfin_bind; [pf|intros]. apply pfin_bind; [apply pfin_lift, usub_fin|intros; pf]. }
  assert (Ha : advances 1 (prev_interval bl)).
  { unfold prev_interval. apply (advances_bind 1 0); [ad|intros]. apply adv0_bind; [ad|intros]. apply adv0_bind; [ad|intros; ad]. }
  assert (Hb : bounded (prev_interval bl)).
  { unfold prev_interval. apply bounded_bind; [apply bounded_read_le; lia|intros]. apply keeps_bind; [apply keeps_read_le|intros].
    apply keeps_bind; [apply keeps_lift|intros]. apply keeps_ret. }
  unfold parse_prev_gtids. apply pfin_bind; [pf|intros]. apply pfin_bind; [|intros; pf]. apply ploop_fin.
  - unfold prev_uuid_set. apply pfin_bind; [pf|intros]. apply pfin_bind; [pf|intros]. apply pfin_bind; [now apply ploop_fin|intros; pf].
  - unfold prev_uuid_set. apply (advances_bind 1 0); [eapply advances_weaken; [|apply advances_read_bytes]; lia|intros].
    apply adv0_bind; [ad|intros]. apply adv0_bind; [apply advances_ploop; eapply advances_weaken; [|exact Ha]; lia|intros; ad].
  - unfold prev_uuid_set. apply bounded_bind; [apply bounded_read_bytes; lia|intros]. apply keeps_bind; [apply keeps_read_le|intros].
    apply keeps_bind; [apply keeps_ploop, bounded_keeps, Hb|intros]. apply keeps_ret.
Qed.
Lemma pfin_format bl h : pfin (parse_format_description bl h).
Proof.
  unfold parse_format_description. apply pfin_bind; [pf|intros]. apply pfin_bind; [pf|intros].
  apply pfin_bind; [apply pfin_lift; destruct (utf8_decode _); discriminate|intros]. apply pfin_bind; [pf|intros]. apply pfin_bind; [pf|intros]. apply pfin_bind; [pf|intros].
  apply pfin_bind; [apply pfin_lift, usub_fin|intros]. apply pfin_bind; [|intros; pf]. destruct (_ =? _); [pf|]. apply pfin_bind; [pf|intros]. apply pfin_bind; [pf|intros].
  apply pfin_lift. unfold checksum_from_code. repeat destruct (_ =? _); discriminate.
Qed.

(* ---- what the decoder takes from the head ---- *)
Lemma read_le_inv k buf pos n pos' : read_le k buf pos = Ok (n, pos') -> n = le_dec (firstn k (skipn pos buf)) /\ pos' = (pos + k)%nat.
Proof.
  unfold read_le, pbind, read_bytes, rbind. destruct (alloc (N.of_nat k)); try discriminate.
  destruct (_ <? _); [discriminate|]. unfold ret. rewrite Nat2N.id. intros H. inv H. split; reflexivity.
Qed.
Lemma head_announces v payload id fl n pos : parse_head v payload 0%nat = Ok ((id, fl, n), pos) -> announces v payload id n (skipn pos payload).
Proof.
  unfold parse_head, pbind at 1. destruct (read_u48 payload 0%nat) as [[i p1]|e| |] eqn:E1; try discriminate.
  apply read_le_inv in E1. destruct E1 as [E1 ->]. unfold pbind at 1. destruct (read_u16 payload (0 + 6)%nat) as [[f p2]|e| |] eqn:E2; try discriminate.
  apply read_le_inv in E2. destruct E2 as [E2 ->]. unfold pbind at 1.
  assert (G : forall u p3, (if v =? 2 then extra <- read_u16 ;; seek_cur (Z.of_N extra - 2) else ret tt) payload (0 + 6 + 2)%nat = Ok (u, p3) ->
    p3 = (8 + extra_length v payload)%nat).
  { intros u p3. unfold extra_length. destruct (v =? 2); [|unfold ret; intros H; inv H; reflexivity]. unfold pbind.
    destruct (read_u16 payload (0 + 6 + 2)%nat) as [[x p]|e| |] eqn:E3; try discriminate. apply read_le_inv in E3. destruct E3 as [E3 ->].
    unfold seek_cur. change (0 + 6 + 2)%nat with 8%nat in E3. rewrite <- E3. clear E3. destruct (_ <? _)%Z eqn:L; [discriminate|]. intros H. assert (K : p3 = Z.to_nat (Z.of_nat (0 + 6 + 2 + 2) + (Z.of_N x - 2))) by congruence. lia. }
  destruct ((if v =? 2 then extra <- read_u16 ;; seek_cur (Z.of_N extra - 2) else ret tt) payload (0 + 6 + 2)%nat) as [[u p3]|e| |]; try discriminate.
  specialize (G u p3 eq_refl). subst p3. unfold pbind.
  destruct (read_len_enc_num payload (8 + extra_length v payload)%nat) as [[c p4]|e| |] eqn:E4; try discriminate. unfold ret. intros H. inv H.
  split; [now rewrite skipn_O|]. apply lenenc_inv in E4. destruct E4 as (bs & E4 & E5 & ->). exists bs. split; [exact E4|].
  rewrite <- (firstn_skipn (length bs) (skipn (8 + extra_length v payload) payload)) at 1. rewrite E5. f_equal. symmetry; apply skipn_plus.
Qed.
Lemma bitmap_no_bits n payload pos bits p1 : read_bitmap_le n payload pos = Ok (bits, p1) -> ~ In true bits ->
  forall i b, N.of_nat i < n -> nth_error (skipn pos payload) (i / 8) = Some b -> N.testbit (b2n b) (N.of_nat (i mod 8)) = false.
Proof.
  unfold read_bitmap_le, pbind at 1. destruct (lift (alloc n) payload pos) as [[u q]|e| |] eqn:E0; try discriminate.
  assert (q = pos) as -> by (unfold lift in E0; destruct (alloc n); now inv E0). unfold pbind.
  destruct (read_bytes ((n + 7) / 8) payload pos) as [[bs q1]|e| |] eqn:E; try discriminate. unfold ret. intros H. inv H.
  intros Hn i b Hi Hb. destruct (N.testbit (b2n b) (N.of_nat (i mod 8))) eqn:T; [|reflexivity]. exfalso. apply Hn. clear Hn E0.
  assert (Hbs : bs = firstn (N.to_nat ((n + 7) / 8)) (skipn pos payload)).
  { revert E. unfold read_bytes, rbind. destruct (alloc _); try discriminate. destruct (_ <? _); [discriminate|]. intros H. now inv H. }
  assert (Hib : nth_error bs (i / 8) = Some b).
  { rewrite Hbs, <- Hb. assert (i / 8 < N.to_nat ((n + 7) / 8))%nat by (apply Nat.div_lt_upper_bound; lia). clear - H.
    revert H. generalize (i / 8)%nat, (N.to_nat ((n + 7) / 8)), (skipn pos payload). intros a. induction a as [|a IH]; intros [|m] [|x l] H; try lia; try reflexivity.
    cbn [firstn nth_error]. apply IH. lia. }
  apply nth_error_split in Hib. destruct Hib as (l1 & l2 & -> & Hl). rewrite flat_map_app.
  assert (F : length (flat_map bits_le l1) = (8 * length l1)%nat).
  { clear. induction l1 as [|x l1 IH]; cbn [flat_map length]; [reflexivity|]. rewrite app_length, IH. change (length (bits_le x)) with 8%nat. lia. }
  assert (K : nth_error (flat_map bits_le l1 ++ flat_map bits_le (b :: l2)) i = Some true).
  { pose proof (Nat.div_mod i 8). rewrite nth_error_app2 by lia. replace (i - length (flat_map bits_le l1))%nat with (i mod 8)%nat by lia.
    cbn [flat_map]. pose proof (Nat.mod_upper_bound i 8). rewrite nth_error_app1 by (change (length (bits_le b)) with 8%nat; lia).
    rewrite <- T. revert H0. generalize (i mod 8)%nat. intros m Hm. do 8 (destruct m as [|m]; [reflexivity|]). lia. }
  apply (nth_error_In _ i). rewrite <- K. assert (Hin : (i < N.to_nat n)%nat) by lia. clear - Hin. revert Hin.
  generalize (N.to_nat n), (flat_map bits_le l1 ++ flat_map bits_le (b :: l2)). induction i as [|a IH]; intros [|m] [|x l] H; try lia; try reflexivity.
  cbn [firstn nth_error]. apply IH. lia.
Qed.
Lemma true_dec (l : list bool) : In true l \/ ~ In true l.
Proof. destruct (in_dec Bool.bool_dec true l); tauto. Qed.
Lemma rows_diverge bl ts ty v payload : rows_version ty = Some v ->
  parse_rows_event bl ts v payload 0%nat = Diverge -> no_columns ty payload.
Proof.
  intros Hv H. unfold parse_rows_event, pbind at 1 in H. pose proof (pfin_head v payload 0%nat) as X.
  destruct (parse_head v payload 0%nat) as [[[[id fl] n] pos]|e| |] eqn:E; try discriminate; [|congruence]. clear X.
  unfold pbind at 1 in H. pose proof (pfin_bitmap n payload pos) as X.
  destruct (read_bitmap_le n payload pos) as [[bits p1]|e| |] eqn:E2; try discriminate; [|congruence]. clear X.
  exists v, id, n, (skipn pos payload). split; [exact Hv|]. split; [now apply (head_announces v payload id fl)|].
  apply (bitmap_no_bits n payload pos bits p1 E2). intros Hin.
  revert H. apply pfin_bind; [now apply pfin_row_list|intros; pf].
Qed.
Lemma updates_diverge bl ts ty v payload : rows_version ty = Some v ->
  parse_update_event bl ts v payload 0%nat = Diverge -> no_columns ty payload.
Proof.
  intros Hv H. unfold parse_update_event, pbind at 1 in H. pose proof (pfin_head v payload 0%nat) as X.
  destruct (parse_head v payload 0%nat) as [[[[id fl] n] pos]|e| |] eqn:E; try discriminate; [|congruence]. clear X.
  unfold pbind at 1 in H. pose proof (pfin_bitmap n payload pos) as X.
  destruct (read_bitmap_le n payload pos) as [[bits p1]|e| |] eqn:E2; try discriminate; [|congruence]. clear X.
  exists v, id, n, (skipn pos payload). split; [exact Hv|]. split; [now apply (head_announces v payload id fl)|].
  apply (bitmap_no_bits n payload pos bits p1 E2). intros Hin.
  revert H. apply pfin_bind; [pf|intros]. apply pfin_bind; [apply pfin_update_list; now left|intros; pf].
Qed.
Lemma pmap_diverge {A B} (f : A -> B) p buf pos : pmap f p buf pos = Diverge -> p buf pos = Diverge.
Proof. unfold pmap, pbind. destruct (p buf pos) as [[a q]|e| |]; try discriminate. reflexivity. Qed.
Lemma pmap_panic {A B} (f : A -> B) p buf pos : pmap f p buf pos = Panic -> p buf pos = Panic.
Proof. unfold pmap, pbind. destruct (p buf pos) as [[a q]|e| |]; try discriminate. reflexivity. Qed.

Ltac fin_case L := let X := fresh in pose proof L as X; intros E; apply pmap_diverge in E; exfalso; revert E; apply X.
Lemma body_diverge bl ts h payload : event_body bl ts h payload 0%nat = Diverge -> no_columns (h_type h) payload.
Proof.
  unfold event_body. cbv zeta.
  destruct (N.eqb_spec (h_type h) 15); [fin_case (pfin_format bl h)|].
  destruct (N.eqb_spec (h_type h) 19); [fin_case pfin_table_map|].
  destruct (N.eqb_spec (h_type h) 27); [fin_case (pfin_safe _ psafe_to_string)|].
  destruct (N.eqb_spec (h_type h) 4); [fin_case (pfin_safe _ psafe_rotate)|].
  destruct (N.eqb_spec (h_type h) 5); [fin_case (pfin_safe _ psafe_intvar)|].
  destruct (N.eqb_spec (h_type h) 14); [fin_case (pfin_safe _ psafe_uservar)|].
  destruct (N.eqb_spec (h_type h) 2); [fin_case (pfin_safe _ psafe_query)|].
  destruct (N.eqb_spec (h_type h) 16); [fin_case (pfin_safe _ psafe_xid)|].
  destruct (N.eqb_spec (h_type h) 23) as [E|]; [intros D; apply pmap_diverge, (rows_diverge bl ts (h_type h)) in D; [exact D|now rewrite E]|].
  destruct (N.eqb_spec (h_type h) 24) as [E|]; [intros D; apply pmap_diverge, (updates_diverge bl ts (h_type h)) in D; [exact D|now rewrite E]|].
  destruct (N.eqb_spec (h_type h) 25) as [E|]; [intros D; apply pmap_diverge, (rows_diverge bl ts (h_type h)) in D; [exact D|now rewrite E]|].
  destruct (N.eqb_spec (h_type h) 30) as [E|]; [intros D; apply pmap_diverge, (rows_diverge bl ts (h_type h)) in D; [exact D|now rewrite E]|].
  destruct (N.eqb_spec (h_type h) 31) as [E|]; [intros D; apply pmap_diverge, (updates_diverge bl ts (h_type h)) in D; [exact D|now rewrite E]|].
  destruct (N.eqb_spec (h_type h) 32) as [E|]; [intros D; apply pmap_diverge, (rows_diverge bl ts (h_type h)) in D; [exact D|now rewrite E]|].
  destruct (N.eqb_spec (h_type h) 29); [fin_case (pfin_safe _ psafe_rows_query)|].
  destruct (N.eqb_spec (h_type h) 33); [fin_case (pfin_safe _ psafe_mysql_gtid)|].
  destruct (N.eqb_spec (h_type h) 35); [fin_case (pfin_prev bl)|].
  destruct (N.eqb_spec (h_type h) 162); [fin_case (pfin_safe _ (psafe_maria_gtid h))|].
  destruct (N.eqb_spec (h_type h) 163); [fin_case (pfin_safe _ psafe_maria_list)|].
  destruct (N.eqb_spec (h_type h) 160); [fin_case (pfin_safe _ psafe_to_string)|].
  discriminate.
Qed.

(* ================= panics ================= *)
(* ---- cells ---- *)
Lemma psafe_uint_le n : 1 <= n <= 8 -> psafe (read_uint_le n).
Proof.
  intros H. unfold read_uint_le. destruct ((n =? 0) || (8 <? n)) eqn:E; [lia|]. apply psafe_bind; [apply psafe_read_bytes; unfold isize_max; lia|intros; psl].
Qed.
Lemma psafe_uint_be n : 1 <= n <= 8 -> psafe (read_uint_be n).
Proof.
  intros H. unfold read_uint_be. destruct ((n =? 0) || (8 <? n)) eqn:E; [lia|]. apply psafe_bind; [apply psafe_read_bytes; unfold isize_max; lia|intros; psl].
Qed.
Lemma psafe_be k : (k <= 8)%nat -> psafe (read_be k).
Proof. intros H. apply psafe_bind; [apply psafe_read_bytes; unfold isize_max; lia|intros; psl]. Qed.
Lemma pvals_bytes n : pvals (fun bs => N.of_nat (length bs) = n) (read_bytes n).
Proof.
  intros buf pos a pos'. unfold read_bytes, rbind, alloc. destruct (isize_max <? n); [discriminate|].
  destruct (N.ltb_spec (N.of_nat (length buf - pos)) n); [discriminate|]. intros E. injection E as <- _. rewrite firstn_length, skipn_length. lia.
Qed.
Lemma pvals_uint_le n : pvals (fun v => v < 256 ^ n) (read_uint_le n).
Proof.
  intros buf pos a pos'. unfold read_uint_le. destruct (_ || _); [discriminate|]. unfold pbind.
  destruct (read_bytes n buf pos) as [[bs q]|e| |] eqn:E; try discriminate. unfold ret. intros H. inv H.
  apply pvals_bytes in E. pose proof (le_dec_lt bs) as L. rewrite E in L. exact L.
Qed.
Lemma pvals_uint_be n : pvals (fun v => v < 256 ^ n) (read_uint_be n).
Proof.
  intros buf pos a pos'. unfold read_uint_be. destruct (_ || _); [discriminate|]. unfold pbind.
  destruct (read_bytes n buf pos) as [[bs q]|e| |] eqn:E; try discriminate. unfold ret. intros H. inv H.
  apply pvals_bytes in E. pose proof (be_dec_lt bs) as L. rewrite E in L. exact L.
Qed.
Lemma pvals_be k : pvals (fun v => v < 256 ^ N.of_nat k) (read_be k).
Proof.
  intros buf pos a pos'. unfold read_be, pbind. destruct (read_bytes (N.of_nat k) buf pos) as [[bs q]|e| |] eqn:E; try discriminate. unfold ret. intros H. inv H.
  apply pvals_bytes in E. pose proof (be_dec_lt bs) as L. rewrite E in L. exact L.
Qed.
Lemma psafe_blob m : 1 <= m <= 7 -> psafe (parse_blob m).
Proof.
  intros H. unfold parse_blob. refine (psafe_bind_vals _ _ _ _ (pvals_uint_le m) _); [apply psafe_uint_le; lia|]. intros n Hn.
  apply psafe_read_bytes. assert (256 ^ m <= 256 ^ 7) by (apply N.pow_le_mono_r; lia). change (256 ^ 7) with 72057594037927936 in *. unfold isize_max. lia.
Qed.
Lemma psafe_string_cell m : psafe (parse_string m).
Proof.
  unfold parse_string. destruct (m <? 256).
  - refine (psafe_bind_vals _ _ _ _ (pvals_le 1) _); [psl|]. intros n Hn. apply psafe_string. cbn in Hn. unfold isize_max. lia.
  - refine (psafe_bind_vals _ _ _ _ (pvals_le 2) _); [psl|]. intros n Hn. apply psafe_string. cbn in Hn. unfold isize_max. lia.
Qed.
Lemma psafe_bitmap_be n : n <= isize_max -> psafe (read_bitmap_be n).
Proof.
  intros H. unfold read_bitmap_be. apply psafe_bind; [apply psafe_lift; now rewrite alloc_ok|]. intros _.
  apply psafe_bind; [apply psafe_read_bytes; unfold isize_max in *; lia|]. intros; psl.
Qed.
Lemma psafe_bitmap_rev n : n <= isize_max -> psafe (read_bitmap_reverted n).
Proof.
  intros H. unfold read_bitmap_reverted. apply psafe_bind; [apply psafe_lift; now rewrite alloc_ok|]. intros _.
  apply psafe_bind; [apply psafe_read_bytes; unfold isize_max in *; lia|]. intros; psl.
Qed.
Lemma psafe_fractional bl m : m <= 6 -> psafe (parse_fractional bl m).
Proof.
  intros H. unfold parse_fractional. rewrite uadd_ok by lia.
  refine (psafe_bind_vals (fun a => a = m + 1) _ _ _ _ _).
  - apply psafe_lift; exact I.
  - intros buf pos a pos' E. unfold lift in E. now inv E.
  - intros a ->. cbv zeta. destruct (N.eqb_spec ((m + 1) / 2) 0); [psl|].
    refine (psafe_bind_vals _ _ _ _ (pvals_uint_be ((m + 1) / 2)) _); [apply psafe_uint_be; lia|]. intros f Hf.
    destruct (N.leb_spec ((m + 1) / 2) 3); [|lia]. apply psafe_lift. rewrite umul_ok; [exact I|].
    assert (C : (m + 1) / 2 = 1 \/ (m + 1) / 2 = 2 \/ (m + 1) / 2 = 3) by lia. unfold u64max1.
    destruct C as [C|[C|C]]; rewrite C in *; [change (256 ^ 1) with 256 in Hf; change (100 ^ (3 - 1)) with 10000
      |change (256 ^ 2) with 65536 in Hf; change (100 ^ (3 - 2)) with 100|change (256 ^ 3) with 16777216 in Hf; change (100 ^ (3 - 3)) with 1]; lia.
Qed.
Lemma psafe_int_groups k : forall st acc, psafe (dec_int_groups k st acc).
Proof.
  induction k as [|k IH]; intros st acc; cbn [dec_int_groups]; [psl|]. apply psafe_bind; [apply psafe_be; lia|intros a].
  destruct st; [apply IH|]. destruct (0 <? a); apply IH.
Qed.
Lemma psafe_frac_groups k : forall acc, psafe (dec_frac_groups k acc).
Proof. induction k as [|k IH]; intros acc; cbn [dec_frac_groups]; [psl|]. apply psafe_bind; [apply psafe_be; lia|intros; apply IH]. Qed.
Lemma compressed_small d : compressed_bytes d <= 4.
Proof. unfold compressed_bytes. destruct (N.to_nat d) as [|[|[|[|[|[|[|[|[|[|n]]]]]]]]]]; cbn; try lia. destruct n; lia. Qed.
Lemma psafe_decimal_digits ui ci uf cf sc sg : psafe (decimal_digits ui ci uf cf sc sg).
Proof.
  pose proof (compressed_small ci). pose proof (compressed_small cf).
  unfold decimal_digits. apply psafe_bind.
  { cbv zeta. destruct (N.ltb_spec 0 (compressed_bytes ci)); [|psl]. apply psafe_bind; [apply psafe_uint_be; lia|intros a]. destruct (0 <? _); psl. }
  intros [st acc]. apply psafe_bind; [apply psafe_int_groups|]. intros [st' acc']. cbv zeta.
  apply psafe_bind; [apply psafe_frac_groups|intros a]. destruct (N.ltb_spec 0 (compressed_bytes cf)); [|psl]. apply psafe_bind; [apply psafe_uint_be; lia|intros; psl].
Qed.
Lemma compressed_pos d : 0 < d -> d < 9 -> 0 < compressed_bytes d.
Proof. unfold compressed_bytes. intros H1 H2. destruct (N.to_nat d) as [|[|[|[|[|[|[|[|[|n]]]]]]]]] eqn:E; cbn; lia. Qed.
Lemma psafe_decimal bl m : m < 65536 -> m / 256 <= m mod 256 -> 1 <= m mod 256 -> psafe (parse_decimal bl m).
Proof.
  intros H1 H2 H3. unfold parse_decimal. cbv zeta. rewrite (usub_ok 65536 bl (m mod 256) ((m / 256) mod 256)) by lia.
  refine (psafe_bind_vals (fun a => a = m mod 256 - (m / 256) mod 256) _ _ _ _ _).
  - apply psafe_lift; exact I.
  - intros buf pos a pos' E. unfold lift in E. now inv E.
  - intros a ->. set (I0 := (m mod 256 - (m / 256) mod 256) mod 256). set (S0 := (m / 256) mod 256).
    set (L := I0 / 9 * 4 + compressed_bytes (I0 - I0 / 9 * 9) + S0 / 9 * 4 + compressed_bytes (S0 - S0 / 9 * 9)).
    pose proof (compressed_small (I0 - I0 / 9 * 9)). pose proof (compressed_small (S0 - S0 / 9 * 9)).
    assert (BI : I0 < 256) by (unfold I0; lia). assert (BS : S0 < 256) by (unfold S0; lia).
    assert (HP : 0 < I0 \/ 0 < S0) by (unfold I0, S0; lia).
    assert (HL : 0 < L /\ L <= isize_max).
    { clearbody I0 S0. split; [|unfold L, isize_max; lia]. unfold L.
      destruct (N.eq_dec I0 0) as [Z|Z].
      - destruct (N.le_gt_cases 9 S0); [lia|]. pose proof (compressed_pos (S0 - S0 / 9 * 9)). lia.
      - destruct (N.le_gt_cases 9 I0); [lia|]. pose proof (compressed_pos (I0 - I0 / 9 * 9)). lia. }
    refine (psafe_bind_vals _ _ _ _ (pvals_bytes L) _); [apply psafe_read_bytes; apply HL|]. intros [|b r] Hb; [cbn [length] in Hb; lia|].
    apply psafe_lift. match goal with |- context [decimal_digits ?a ?b ?c ?d ?e ?f ?g ?h] => pose proof (psafe_decimal_digits a b c d e f g h) as X;
      destruct (decimal_digits a b c d e f g h) as [[t q]|er| |]; exact X end.
Qed.

Lemma pvals_fractional bl m : m <= 6 -> pvals (fun f => f < u64max1) (parse_fractional bl m).
Proof.
  intros Hm buf pos a pos'. unfold parse_fractional. rewrite uadd_ok by lia. unfold pbind at 1, lift at 1. cbv zeta.
  destruct (_ =? _); [unfold ret; intros H; inv H; unfold u64max1; lia|]. unfold pbind.
  destruct (read_uint_be _ buf pos) as [[f q]|e| |]; try discriminate. destruct (_ <=? _).
  - unfold lift, umul. destruct (N.ltb_spec (f * 100 ^ (3 - (m + 1) / 2)) u64max1); [|destruct bl]; intros H'; inv H'; [assumption|].
    apply N.mod_lt. discriminate.
  - destruct bl; [discriminate|]. unfold ret. intros H. inv H. unfold u64max1. lia.
Qed.
Lemma coltype_known ty ct : coltype_from_code ty = Ok ct -> In (ty, ct) coltype_table.
Proof.
  unfold coltype_from_code. destruct (find _ _) as [[k t]|] eqn:E; [|discriminate]. intros H. inv H.
  apply find_some in E. destruct E as [E1 E2]. cbn [fst] in E2. apply N.eqb_eq in E2. now subst.
Qed.
Definition plain_cell (ct : coltype) : bool :=
  match ct with CtTinyBlob | CtMediumBlob | CtLongBlob | CtBlob | CtGeometry | CtJson | CtEnum | CtSet | CtTimeStamp2 | CtDateTime2 | CtTime2
  | CtNewDecimal | CtString => false | _ => true end.
Lemma psafe_vmap {A} (p : parser A) (f : A -> Model.Values.value) : psafe p -> psafe (x <- p ;; ret (f x)).
Proof. intros H. apply psafe_bind; [exact H|intros; psl]. Qed.
Definition coltype_sane (ct : coltype) (m : N) : Prop :=
  match ct with
  | CtTinyBlob | CtMediumBlob | CtLongBlob | CtBlob | CtGeometry | CtJson => 1 <= m <= 7
  | CtEnum | CtSet => 1 <= m <= 8
  | CtTimeStamp2 | CtDateTime2 | CtTime2 => m <= 6
  | CtNewDecimal => m / 256 <= m mod 256 /\ 1 <= m mod 256
  | _ => True
  end.
Lemma psafe_cell bl ty m ct : coltype_from_code ty = Ok ct -> m < 65536 -> coltype_sane ct m -> psafe (parse_cell bl ty m).
Proof.
  intros E Hm Hs. unfold parse_cell. rewrite E. intros buf pos. unfold pbind at 1, lift. revert buf pos.
  match goal with |- forall buf pos, returns (?p buf pos) => change (psafe p) end.
  destruct ct; cbn [coltype_sane] in Hs; try psl; apply psafe_vmap; try psl; try (apply psafe_blob; lia); try (apply psafe_uint_le; lia);
    try apply psafe_string_cell.
  - unfold parse_timestamp. psb. psl.
  - unfold parse_date. psb. psl.
  - unfold parse_time. psb. destruct (_ <? _)%Z; psl.
  - unfold parse_date_time. psb. psl.
  - unfold parse_year. psb. psl.
  - unfold parse_bit. cbv zeta. apply psafe_bind; [apply psafe_bitmap_be; unfold isize_max; lia|intros; psl].
  - unfold parse_timestamp2. refine (psafe_bind_vals _ _ _ _ (pvals_be 4) _); [apply psafe_be; lia|intros s Hs4].
    refine (psafe_bind_vals _ _ _ _ (pvals_fractional bl m Hs) _); [now apply psafe_fractional|intros f Hf]. apply psafe_lift.
    rewrite uadd_ok; [exact I|]. change (256 ^ N.of_nat 4) with 4294967296 in Hs4. unfold u64max1 in *. lia.
  - unfold parse_date_time2. apply psafe_bind; [apply psafe_uint_be; lia|intros]. apply psafe_bind; [now apply psafe_fractional|intros; cbv zeta; psl].
  - unfold parse_time2. apply psafe_bind; [apply psafe_be; lia|intros]. apply psafe_bind; [now apply psafe_fractional|intros; cbv zeta].
    destruct (_ =? _); psl.
  - apply psafe_decimal; [exact Hm|apply Hs|apply Hs].
Qed.
Lemma column_sane_ct ty m ct : column_sane ty m -> coltype_from_code ty = Ok ct -> ct <> CtString -> coltype_sane ct m.
Proof.
  intros [Hm Hs] E Hn. apply coltype_known in E. unfold coltype_table in E. cbn [In] in E.
  repeat (destruct E as [E|E]; [inv E; first [exact I | exact Hs | congruence]|]). contradiction.
Qed.
Lemma psafe_column bl ty m : column_sane ty m -> psafe (column_parser bl ty m).
Proof.
  intros Hs. destruct actual_types as (A1 & A2 & A3). unfold column_parser. destruct (coltype_from_code ty) as [ct|e| |] eqn:E.
  2: { intros buf pos. exact I. }
  2, 3: exfalso; revert E; unfold coltype_from_code; destruct (find _ _) as [[? ?]|]; discriminate.
  intros buf pos. unfold pbind at 1, lift. revert buf pos.
  match goal with |- forall buf pos, returns (?p buf pos) => change (psafe p) end.
  assert (D : ct = CtString \/ ct <> CtString) by (destruct ct; (now left) || (now right)). destruct D as [->|D].
  - assert (ty = 254) as ->. { apply coltype_known in E. unfold coltype_table in E. cbn [In] in E. repeat (destruct E as [E|E]; [now inv E|]). contradiction. }
    destruct Hs as [Hm Hs]. change (has 254 [245; 249; 250; 251; 252; 255]) with false in Hs. change (has 254 [247; 248]) with false in Hs.
    change (has 254 [17; 18; 19]) with false in Hs. cbv iota in Hs. change (254 =? 246) with false in Hs. change (254 =? 254) with true in Hs. cbv iota in Hs.
    destruct Hs as [Hs|[(len & Hl & ->)|(p & Hp & [->| ->])]].
    + rewrite actual_plain by exact Hs. now apply (psafe_cell bl 254 m CtString).
    + rewrite A1 by exact Hl. apply (psafe_cell bl 254 len CtString); [reflexivity|lia|exact I].
    + rewrite A2 by lia. apply (psafe_cell bl 247 p CtEnum); [reflexivity|lia|exact Hp].
    + rewrite A3 by lia. apply (psafe_cell bl 248 p CtSet); [reflexivity|lia|exact Hp].
  - assert (X : psafe (parse_cell bl ty m)).
    { apply (psafe_cell bl ty m ct); [exact E|apply Hs|]. now apply (column_sane_ct ty m ct). }
    destruct ct; first [exact X | congruence].
Qed.
Definition trues (l : list bool) : nat := length (filter (fun b => b) l).
Lemma psafe_columns bl types : forall metas ps nulls, length metas = length types ->
  Forall (fun p => column_sane (fst p) (snd p)) (combine types metas) -> (length types <= length ps)%nat ->
  (trues ps <= length nulls)%nat -> psafe (parse_columns bl types metas ps nulls).
Proof.
  unfold trues. induction types as [|ty types IH]; intros metas ps nulls Hl Hs Hp Hn; cbn [parse_columns]; [psl|].
  destruct metas as [|m metas]; [discriminate|]. cbn [combine] in Hs. inversion Hs as [|x y Hs1 Hs2]; subst. cbn [fst snd] in Hs1.
  destruct ps as [|[|] ps]; cbn [length filter tl] in *; [lia| |].
  - destruct nulls as [|[|] nulls]; cbn [length] in *; [lia| |].
    + apply psafe_bind; [apply IH; try assumption; lia|intros; psl].
    + pose proof (psafe_column bl ty m Hs1) as X. unfold column_parser in X.
      intros buf pos. specialize (X buf pos). unfold pbind at 1. unfold pbind at 1 in X. destruct (lift (coltype_from_code ty) buf pos) as [[ct q]|e| |]; try exact X.
      destruct (match ct with CtString => actual_string_type ty m | _ => (ty, m) end) as [ty2 m2]. unfold pbind.
      destruct (parse_cell bl ty2 m2 buf q) as [[v q2]|e| |]; try exact X.
      pose proof (IH metas ps nulls ltac:(lia) Hs2 ltac:(lia) ltac:(lia) buf q2) as Y.
      destruct (parse_columns bl types metas ps nulls buf q2) as [[cells q3]|e| |]; exact Y.
  - apply psafe_bind; [apply IH; try assumption; lia|intros; psl].
Qed.
Lemma flat_map_bits (f : byte -> list bool) bs : (forall b, length (f b) = 8%nat) -> length (flat_map f bs) = (8 * length bs)%nat.
Proof. intros H. induction bs as [|b bs IH]; cbn [flat_map length]; [reflexivity|]. rewrite app_length, H, IH. lia. Qed.
Lemma pvals_bitmap n : pvals (fun l => length l = N.to_nat n) (read_bitmap_le n).
Proof.
  intros buf pos a pos'. unfold read_bitmap_le, pbind at 1. destruct (lift (alloc n) buf pos) as [[u q]|e| |] eqn:E0; try discriminate. unfold pbind.
  destruct (read_bytes ((n + 7) / 8) buf q) as [[bs q1]|e| |] eqn:E; try discriminate. unfold ret. intros H. inv H.
  apply pvals_bytes in E. rewrite firstn_length, flat_map_bits by reflexivity. lia.
Qed.
Lemma psafe_bitmap n : n <= isize_max -> psafe (read_bitmap_le n).
Proof.
  intros H. unfold read_bitmap_le. apply psafe_bind; [apply psafe_lift; now rewrite alloc_ok|]. intros _.
  apply psafe_bind; [apply psafe_read_bytes; unfold isize_max in *; lia|]. intros; psl.
Qed.
Lemma psafe_row bl t ps : table_sane t -> (length (tb_types t) <= length ps)%nat -> N.of_nat (length ps) <= isize_max ->
  psafe (parse_row bl t ps (bits_number ps)).
Proof.
  intros [H1 H2] Hp Hm. unfold parse_row. assert (B : bits_number ps <= N.of_nat (length ps)).
  { unfold bits_number. clear. induction ps as [|[|] ps IH]; cbn [filter length]; lia. }
  refine (psafe_bind_vals _ _ _ _ (pvals_bitmap (bits_number ps)) _); [apply psafe_bitmap; lia|]. intros nulls Hn.
  apply psafe_columns; try assumption. unfold trues, bits_number in *. lia.
Qed.
Lemma pwhile_nopanic {A} (p : parser A) : (forall buf pos, p buf pos <> Panic) -> forall buf pos, pwhile p buf pos <> Panic.
Proof.
  intros H buf pos. unfold pwhile. generalize (S (length buf)) as fuel. intros fuel. revert pos.
  induction fuel as [|f IH]; intros pos; cbn [pwhile_aux]; destruct (_ <? _)%nat; try discriminate.
  unfold pbind. specialize (H buf pos). destruct (p buf pos) as [[a q]|e| |]; try discriminate; [|congruence].
  specialize (IH q). destruct (pwhile_aux f p buf q) as [[l r]|e| |]; try discriminate. congruence.
Qed.
Lemma psafe_nopanic {A} (p : parser A) : psafe p -> forall buf pos, p buf pos <> Panic.
Proof. intros H buf pos E. specialize (H buf pos). now rewrite E in H. Qed.
Lemma psafe_head v : psafe (parse_head v).
Proof.
  unfold parse_head. psb. psb. apply psafe_bind; [destruct (v =? 2); [psb|]; psl|intros]. apply psafe_bind; [apply psafe_lenenc|intros; psl].
Qed.
Lemma bitmap_panic n payload pos : read_bitmap_le n payload pos = Panic -> 9223372036854775807 < n.
Proof.
  intros E. destruct (N.lt_ge_cases 9223372036854775807 n) as [H|H]; [exact H|]. exfalso. revert E. apply psafe_nopanic, psafe_bitmap. exact H.
Qed.
Lemma row_list_panic bl ts id present payload pos : tables_sane ts -> N.of_nat (length present) <= isize_max ->
  parse_row_list bl ts id present payload pos = Panic ->
  exists t, tables_get id ts = Some t /\ (length present < length (tb_types t))%nat.
Proof.
  intros Hs Hm. unfold parse_row_list. destruct (tables_get id ts) as [t|] eqn:E; [|discriminate]. intros H. exists t. split; [reflexivity|].
  destruct (Nat.lt_ge_cases (length present) (length (tb_types t))) as [C|C]; [exact C|]. exfalso. revert H. apply pwhile_nopanic, psafe_nopanic.
  apply psafe_row; [exact (Hs _ _ E)|exact C|exact Hm].
Qed.
Lemma rows_panic bl ts ty v payload : tables_sane ts -> rows_version ty = Some v ->
  parse_rows_event bl ts v payload 0%nat = Panic -> wrong_columns ts ty payload.
Proof.
  intros Hs Hv H. unfold parse_rows_event, pbind at 1 in H. pose proof (psafe_head v payload 0%nat) as X.
  destruct (parse_head v payload 0%nat) as [[[[id fl] n] pos]|e| |] eqn:E; try discriminate; [|contradiction]. clear X.
  exists v, id, n, (skipn pos payload). split; [exact Hv|]. split; [now apply (head_announces v payload id fl)|].
  unfold pbind at 1 in H. destruct (read_bitmap_le n payload pos) as [[present p1]|e| |] eqn:E2; try discriminate; [|left; now apply bitmap_panic in E2].
  assert (Hm : N.of_nat (length present) = n) by (apply pvals_bitmap in E2; lia).
  destruct (N.lt_ge_cases isize_max n) as [C|C]; [now left|right].
  unfold pbind in H. destruct (parse_row_list bl ts id present payload p1) as [[rows p2]|e| |] eqn:E3; try discriminate.
  apply row_list_panic in E3; [|exact Hs|lia]. destruct E3 as (t & E3 & E4). exists t. split; [exact E3|lia].
Qed.
Lemma updates_panic bl ts ty v payload : tables_sane ts -> rows_version ty = Some v ->
  parse_update_event bl ts v payload 0%nat = Panic -> wrong_columns ts ty payload.
Proof.
  intros Hs Hv H. unfold parse_update_event, pbind at 1 in H. pose proof (psafe_head v payload 0%nat) as X.
  destruct (parse_head v payload 0%nat) as [[[[id fl] n] pos]|e| |] eqn:E; try discriminate; [|contradiction]. clear X.
  exists v, id, n, (skipn pos payload). split; [exact Hv|]. split; [now apply (head_announces v payload id fl)|].
  unfold pbind at 1 in H. destruct (read_bitmap_le n payload pos) as [[before p1]|e| |] eqn:E2; try discriminate; [|left; now apply bitmap_panic in E2].
  unfold pbind at 1 in H. destruct (read_bitmap_le n payload p1) as [[after p2]|e| |] eqn:E3; try discriminate; [|left; now apply bitmap_panic in E3].
  assert (Hm : N.of_nat (length before) = n) by (apply pvals_bitmap in E2; lia).
  assert (Hm' : N.of_nat (length after) = n) by (apply pvals_bitmap in E3; lia).
  destruct (N.lt_ge_cases isize_max n) as [C|C]; [now left|right].
  unfold pbind at 1 in H. unfold parse_update_row_list in H. destruct (tables_get id ts) as [t|] eqn:E4; [|discriminate].
  exists t. split; [reflexivity|]. destruct (N.lt_ge_cases n (N.of_nat (length (tb_types t)))) as [D|D]; [exact D|]. exfalso.
  match type of H with match pwhile ?p payload p2 with _ => _ end = _ => assert (G : psafe p) end.
  { apply psafe_bind; [apply psafe_row; [exact (Hs _ _ E4)|lia|lia]|intros]. apply psafe_bind; [apply psafe_row; [exact (Hs _ _ E4)|lia|lia]|intros; psl]. }
  pose proof (pwhile_nopanic _ (psafe_nopanic _ G) payload p2) as Y.
  destruct (pwhile _ payload p2) as [[l q]|e| |]; try discriminate. now apply Y.
Qed.

(* ---- table maps: a huge length-encoded integer is needed ---- *)
Definition pp {A} (buf : list byte) (p : parser A) : Prop := forall pos, p buf pos = Panic -> huge_length buf.
Lemma pp_safe {A} buf (p : parser A) : psafe p -> pp buf p.
Proof. intros H pos E. specialize (H buf pos). now rewrite E in H. Qed.
Lemma pp_bind {A B} buf (p : parser A) (f : A -> parser B) : pp buf p -> (forall pos a pos', p buf pos = Ok (a, pos') -> pp buf (f a)) -> pp buf (pbind p f).
Proof.
  intros H1 H2 pos. unfold pbind. destruct (p buf pos) as [[a q]|e| |] eqn:E; try discriminate; [intros X; exact (H2 _ _ _ E _ X)|intros _; exact (H1 _ E)].
Qed.
Lemma lenenc_huge buf pos n pos' : read_len_enc_num buf pos = Ok (n, pos') -> isize_max < n -> huge_length buf.
Proof.
  unfold read_len_enc_num, read_u8, read_le, pbind, ret. change (N.of_nat 1) with 1. unfold read_bytes at 1. change (alloc 1) with (Ok tt). cbn [rbind]. destruct (N.ltb_spec (N.of_nat (length buf - pos)) 1) as [|L]; [discriminate|].
  change (N.to_nat 1) with 1%nat. intros H Hn.
  destruct (skipn pos buf) as [|b r] eqn:Es. { apply (f_equal (@length _)) in Es. rewrite skipn_length in Es. cbn [length] in Es. lia. }
  cbn [firstn] in H. assert (Eb1 : le_dec [b] = b2n b) by (cbn [le_dec]; lia). rewrite Eb1 in H.
  assert (Hb : nth_error buf pos = Some b).
  { rewrite <- (firstn_skipn pos buf), Es, nth_error_app2; rewrite firstn_length; [|lia]. replace (pos - _)%nat with 0%nat by lia. reflexivity. }
  pose proof (b2n_lt b) as Bb.
  assert (K : forall k v q, (k <= 8)%nat -> read_le k buf (pos + 1)%nat = Ok (v, q) -> v = le_dec (firstn k (skipn (S pos) buf)) /\ v < 256 ^ N.of_nat k).
  { intros k v q Hk E. split; [|now apply pvals_le in E]. unfold read_le, pbind, read_bytes, rbind in E. rewrite alloc_ok in E by (unfold isize_max; lia).
    revert E. destruct (N.of_nat (length buf - (pos + 1)) <? N.of_nat k); [discriminate|]. unfold ret. intros E. inv E. rewrite Nat2N.id. repeat f_equal. lia. }
  destruct (b2n b <? 0xFB) eqn:E1; [inv H; unfold isize_max in Hn; lia|].
  destruct (b2n b =? 0xFB); [unfold fail in H; discriminate H|].
  destruct (b2n b =? 0xFC). { apply (K 2%nat) in H; [|lia]. destruct H as [_ H]. change (256 ^ N.of_nat 2) with 65536 in H. unfold isize_max in Hn. lia. }
  destruct (b2n b =? 0xFD). { apply (K 3%nat) in H; [|lia]. destruct H as [_ H]. change (256 ^ N.of_nat 3) with 16777216 in H. unfold isize_max in Hn. lia. }
  destruct (N.eqb_spec (b2n b) 0xFE) as [Eb|]; [|unfold fail in H; discriminate H]. apply (K 8%nat) in H; [|lia]. destruct H as [H _].
  exists pos. split; [rewrite Hb; f_equal; rewrite <- Eb; symmetry; apply n2b_b2n|]. rewrite <- H. exact Hn.
Qed.
Lemma pp_lenenc {B} buf (f : N -> parser B) : (forall n, n <= isize_max -> pp buf (f n)) -> pp buf (pbind read_len_enc_num f).
Proof.
  intros H. apply pp_bind; [apply pp_safe, psafe_lenenc|]. intros pos n pos' E. destruct (N.lt_ge_cases isize_max n) as [C|C]; [|now apply H].
  intros q _. now apply lenenc_huge in E.
Qed.
Definition infix (bs buf : list byte) : Prop := exists a c, buf = a ++ bs ++ c.
Lemma huge_infix bs buf : infix bs buf -> huge_length bs -> huge_length buf.
Proof.
  intros (a & c & ->) (i & H1 & H2). exists (length a + i)%nat. split.
  - rewrite nth_error_app2 by lia. replace (length a + i - length a)%nat with i by lia. rewrite nth_error_app1; [exact H1|]. apply nth_error_Some. now rewrite H1.
  - replace (S (length a + i)) with (length a + S i)%nat by lia. rewrite skipn_app, skipn_all2 by lia. cbn [app].
    replace (length a + S i - length a)%nat with (S i) by lia. rewrite skipn_app.
    assert (Hi : (S i <= length bs)%nat) by (apply nth_error_Some; now rewrite H1).
    set (s := skipn (S i) bs) in *. rewrite firstn_app. assert (8 <= length s \/ length s < 8)%nat as [L|L] by lia.
    + replace (8 - length s)%nat with 0%nat by lia. now rewrite app_nil_r.
    + rewrite firstn_all2 by lia. rewrite firstn_all2 in H2 by lia. rewrite le_dec_app.
      assert (0 <= le_dec (firstn (8 - length s) (skipn (S i - length bs) c))) by lia. nia.
Qed.
Lemma read_bytes_infix n buf pos bs pos' : read_bytes n buf pos = Ok (bs, pos') -> infix bs buf.
Proof.
  unfold read_bytes, rbind. destruct (alloc n); try discriminate. destruct (_ <? _); [discriminate|]. intros H. inv H.
  exists (firstn pos buf), (skipn (N.to_nat n) (skipn pos buf)). now rewrite !firstn_skipn.
Qed.
Lemma pp_on_buffer {A} bs buf (p : parser A) : infix bs buf -> pp bs p -> pp buf (on_buffer bs p).
Proof.
  intros Hi H pos. unfold on_buffer, lift. destruct (p bs 0%nat) as [[a q]|e| |] eqn:E; try discriminate. intros _. apply (huge_infix bs buf Hi). now apply (H 0%nat).
Qed.
Lemma pp_pwhile {A} buf (p : parser A) : pp buf p -> pp buf (pwhile p).
Proof.
  intros H pos. unfold pwhile. generalize (S (length buf)) as fuel. intros fuel. revert pos.
  induction fuel as [|f IH]; intros pos; cbn [pwhile_aux]; destruct (_ <? _)%nat; try discriminate.
  unfold pbind. specialize (H pos). destruct (p buf pos) as [[a q]|e| |]; try discriminate; [|intros _; now apply H].
  specialize (IH q). destruct (pwhile_aux f p buf q) as [[l r]|e| |]; try discriminate. exact IH.
Qed.
Lemma pp_prepeat {A} buf k (p : parser A) : pp buf p -> pp buf (prepeat k p).
Proof. intros H. induction k as [|k IH]; cbn [prepeat]; [apply pp_safe; psl|]. apply pp_bind; [exact H|intros]. apply pp_bind; [exact IH|intros; apply pp_safe; psl]. Qed.
Lemma pp_ploop {A} buf n (p : parser A) : pp buf p -> advances 1 p -> bounded p -> pp buf (ploop n p).
Proof. intros H Ha Hb pos. rewrite ploop_prepeat by assumption. now apply pp_prepeat. Qed.
Lemma pp_len_str buf : pp buf read_len_enc_str.
Proof. apply pp_lenenc. intros n Hn. apply pp_safe, psafe_string, Hn. Qed.
Lemma pp_ret {A} buf (a : A) : pp buf (ret a). Proof. apply pp_safe; psl. Qed.
Lemma pp_int_array buf : pp buf parse_int_array. Proof. apply pp_pwhile, pp_lenenc. intros; apply pp_ret. Qed.
Lemma pp_string_array buf : pp buf parse_string_array. Proof. apply pp_pwhile, pp_len_str. Qed.
Lemma pp_int_map buf : pp buf parse_int_map. Proof. apply pp_pwhile, pp_lenenc. intros. apply pp_lenenc. intros; apply pp_ret. Qed.
Lemma pp_type_values buf : pp buf parse_type_values.
Proof. apply pp_pwhile, pp_lenenc. intros. apply pp_ploop; [apply pp_len_str|apply adv_len_str|apply bounded_len_str]. Qed.
Lemma pp_default_charset buf : pp buf parse_default_charset.
Proof. apply pp_lenenc. intros. apply pp_bind; [apply pp_int_map|intros; apply pp_ret]. Qed.
Lemma coltype_returns c : returns (coltype_from_code c).
Proof. unfold coltype_from_code. destruct (find _ _) as [[? ?]|]; exact I. Qed.
Lemma numeric_count_spec types : returns (numeric_count types) /\ forall n, numeric_count types = Ok n -> n <= N.of_nat (length types).
Proof.
  induction types as [|t l [IH1 IH2]]; cbn [numeric_count length]; [split; [exact I|intros n H; inv H; lia]|].
  pose proof (coltype_returns t). destruct (coltype_from_code t) as [ct|e| |]; cbn [rbind]; try (split; [exact I|discriminate]); try contradiction.
  destruct (numeric_count l) as [k|e| |]; cbn [rbind]; try (split; [exact I|discriminate]); try contradiction.
  specialize (IH2 k eq_refl). split; [exact I|]. intros n H'. injection H' as <-. destruct (is_numeric ct); lia.
Qed.
Lemma pp_field buf types m : N.of_nat (length types) <= isize_max -> pp buf (metadata_field types m).
Proof.
  intros Ht. unfold metadata_field. apply pp_bind; [apply pp_safe; psl|intros _ c _ _]. apply pp_bind; [apply pp_safe; destruct (_ && _); psl|intros _ _ _ _].
  apply pp_lenenc. intros n Hn. apply pp_bind; [apply pp_safe, psafe_read_bytes, Hn|intros pos bs pos' E]. apply read_bytes_infix in E. destruct m.
  destruct (c =? 1).
  { destruct (numeric_count_spec types) as [R B]. apply pp_bind; [apply pp_safe, psafe_lift, R|]. intros p k q Ek.
    unfold lift in Ek. destruct (numeric_count types) as [k'|e| |]; try discriminate. inv Ek. specialize (B k eq_refl).
    apply pp_bind; [apply pp_on_buffer; [exact E|]; apply pp_safe, psafe_bitmap_rev; lia|intros; apply pp_ret]. }
  repeat (destruct (c =? _); [apply pp_bind; [apply pp_on_buffer; [exact E|]; first [apply pp_int_array | apply pp_string_array | apply pp_int_map | apply pp_type_values | apply pp_default_charset]|intros; apply pp_ret]|]).
  apply pp_bind; [apply pp_on_buffer; [exact E|]; apply pp_safe, psafe_bitmap_rev; lia|intros; apply pp_ret].
Qed.
Lemma pp_metadata buf types : N.of_nat (length types) <= isize_max -> pp buf (parse_table_metadata types).
Proof.
  intros Ht pos. unfold parse_table_metadata. generalize (S (length buf)) as fuel, empty_metadata as m. intros fuel. revert pos.
  induction fuel as [|f IH]; intros pos m; cbn [metadata_loop]; destruct (_ <? _)%nat; try discriminate. unfold pbind.
  pose proof (pp_field buf types m Ht pos) as X. destruct (metadata_field types m buf pos) as [[a q]|e| |]; try discriminate; [apply IH|exact X].
Qed.
Lemma psafe_columns_meta types : psafe (columns_meta types).
Proof.
  induction types as [|t l IH]; cbn [columns_meta]; [psl|]. apply psafe_bind.
  - unfold column_meta. apply psafe_bind; [apply psafe_lift, coltype_returns|intros ct; destruct ct; first [psl | apply psafe_be; lia]].
  - intros. apply psafe_bind; [exact IH|intros; psl].
Qed.
Lemma pp_vals {A B} buf (P : A -> Prop) (p : parser A) (f : A -> parser B) : pp buf p -> pvals P p -> (forall a, P a -> pp buf (f a)) -> pp buf (pbind p f).
Proof. intros H1 H2 H3. apply pp_bind; [exact H1|]. intros pos a pos' E. apply H3. now apply H2 in E. Qed.
Lemma pp_table_map buf : pp buf parse_table_map.
Proof.
  unfold parse_table_map. apply pp_bind; [apply pp_safe; psl|intros _ id _ _]. apply pp_bind; [apply pp_safe; psl|intros _ _ _ _].
  refine (pp_vals _ _ _ _ _ (pvals_le 1) _); [apply pp_safe; psl|intros dl Hdl]. change (256 ^ N.of_nat 1) with 256 in Hdl.
  apply pp_bind; [apply pp_safe, psafe_string; unfold isize_max; lia|intros _ db _ _]. apply pp_bind; [apply pp_safe; psl|intros _ _ _ _].
  refine (pp_vals _ _ _ _ _ (pvals_le 1) _); [apply pp_safe; psl|intros tl Htl]. change (256 ^ N.of_nat 1) with 256 in Htl.
  apply pp_bind; [apply pp_safe, psafe_string; unfold isize_max; lia|intros _ tn _ _]. apply pp_bind; [apply pp_safe; psl|intros _ _ _ _].
  apply pp_lenenc. intros cn Hcn. refine (pp_vals _ _ _ _ _ (pvals_bytes cn) _); [apply pp_safe, psafe_read_bytes, Hcn|intros cts Hcts].
  cbv zeta. apply pp_lenenc. intros _ _. apply pp_bind; [apply pp_safe, psafe_columns_meta|intros _ meta _ _].
  apply pp_bind; [apply pp_safe, psafe_bitmap, Hcn|intros _ nb _ _]. apply pp_bind; [apply pp_safe, psafe_get_pos|intros _ pos _ _].
  apply pp_bind; [apply pp_safe, psafe_get_len|intros _ len _ _]. apply pp_bind; [|intros; apply pp_ret].
  destruct (_ <? _)%nat; [|apply pp_ret]. apply pp_bind; [|intros; apply pp_ret]. apply pp_metadata. rewrite map_length. lia.
Qed.

Ltac pan_case L := let X := fresh in pose proof L as X; intros E; apply pmap_panic in E; exfalso; revert E; apply (psafe_nopanic _ X).
Lemma body_panic bl ts h payload : tables_sane ts -> event_body bl ts h payload 0%nat = Panic ->
  (bl = Debug /\ h_type h = 15 /\ h_length h mod 256 < 19) \/ (bl = Debug /\ h_type h = 35) \/
  (h_type h = 19 /\ huge_length payload) \/ wrong_columns ts (h_type h) payload.
Proof.
  intros Hs. unfold event_body. cbv zeta.
  destruct (N.eqb_spec (h_type h) 15) as [E15|].
  { intros E. apply pmap_panic in E. left. destruct (N.lt_ge_cases (h_length h mod 256) 19) as [L|L].
    - destruct bl; [tauto|]. exfalso. revert E. apply psafe_nopanic, psafe_format. now left.
    - exfalso. revert E. apply psafe_nopanic, psafe_format. now right. }
  destruct (N.eqb_spec (h_type h) 19) as [E19|]; [intros E; apply pmap_panic, pp_table_map in E; tauto|].
  destruct (N.eqb_spec (h_type h) 27); [pan_case (psafe_to_string)|].
  destruct (N.eqb_spec (h_type h) 4); [pan_case (psafe_rotate)|].
  destruct (N.eqb_spec (h_type h) 5); [pan_case (psafe_intvar)|].
  destruct (N.eqb_spec (h_type h) 14); [pan_case (psafe_uservar)|].
  destruct (N.eqb_spec (h_type h) 2); [pan_case (psafe_query)|].
  destruct (N.eqb_spec (h_type h) 16); [pan_case (psafe_xid)|].
  destruct (N.eqb_spec (h_type h) 23) as [E|]; [intros D; apply pmap_panic, (rows_panic bl ts (h_type h)) in D; [tauto|exact Hs|now rewrite E]|].
  destruct (N.eqb_spec (h_type h) 24) as [E|]; [intros D; apply pmap_panic, (updates_panic bl ts (h_type h)) in D; [tauto|exact Hs|now rewrite E]|].
  destruct (N.eqb_spec (h_type h) 25) as [E|]; [intros D; apply pmap_panic, (rows_panic bl ts (h_type h)) in D; [tauto|exact Hs|now rewrite E]|].
  destruct (N.eqb_spec (h_type h) 30) as [E|]; [intros D; apply pmap_panic, (rows_panic bl ts (h_type h)) in D; [tauto|exact Hs|now rewrite E]|].
  destruct (N.eqb_spec (h_type h) 31) as [E|]; [intros D; apply pmap_panic, (updates_panic bl ts (h_type h)) in D; [tauto|exact Hs|now rewrite E]|].
  destruct (N.eqb_spec (h_type h) 32) as [E|]; [intros D; apply pmap_panic, (rows_panic bl ts (h_type h)) in D; [tauto|exact Hs|now rewrite E]|].
  destruct (N.eqb_spec (h_type h) 29); [pan_case (psafe_rows_query)|].
  destruct (N.eqb_spec (h_type h) 33); [pan_case (psafe_mysql_gtid)|].
  destruct (N.eqb_spec (h_type h) 35).
  { intros E. apply pmap_panic in E. destruct bl; [tauto|]. exfalso. revert E. apply psafe_nopanic, psafe_prev_gtids_release. }
  destruct (N.eqb_spec (h_type h) 162); [pan_case (psafe_maria_gtid h)|].
  destruct (N.eqb_spec (h_type h) 163); [pan_case (psafe_maria_list)|].
  destruct (N.eqb_spec (h_type h) 160); [pan_case (psafe_to_string)|].
  discriminate.
Qed.
